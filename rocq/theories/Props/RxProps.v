(** C20-C23: what the vehicle state holds after frames from the BMS and the inverter. *)
From Coq Require Import Reals Psatz.
From Flocq Require Import Core.
From Verif.Base Require Import Words F32 F32Real.
From Verif.Model Require Import VehicleState Bms InverterRx.
From Verif.Spec Require Import RxSpec BmsDocSpec.
From Verif.Proof Require Import BitFacts RxProof DecodeProof.
Open Scope Z_scope.

(** ** C20 *)
(** [battery_after] gives each battery field as the decoding of the last frame
    on [bus] with the id of its message and length 8 for which the vehicle state
    could be locked; everything else in the vehicle state is as before. *)
Theorem C20_battery_mirrors_latest_frames :
  forall bus s q, Forall (fun x => frame_bytes (fst x)) q ->
    BMSProcessing bus s q = set_battery s (battery_after bus q (vs_battery s)).
Proof. exact battery_refine. Qed.
Print Assumptions C20_battery_mirrors_latest_frames.

Theorem C20_other_frames_change_nothing :
  forall bus s q,
    Forall (fun x => fr_bus (fst x) <> bus \/ fr_dlc (fst x) <> 8 \/
                     ~ In (fr_id (fst x)) [0x301; 0x302; 0x303; 0x304]) q ->
    BMSProcessing bus s q = s.
Proof.
  intros bus s q H. unfold BMSProcessing. revert s. induction H as [|[f l] q Hx _ IH]; intros s; [reflexivity|].
  simpl. rewrite IH. simpl in Hx. unfold bms_handle.
  destruct (Z.eqb_spec (fr_bus f) bus) as [Eb|]; [|reflexivity]. simpl.
  unfold BMS_CAN_ID_MAXCELLSTATE, BMS_CAN_ID_MINCELLSTATE, BMS_CAN_ID_PACKSTATE, BMS_CAN_ID_STATUS.
  unfold HandleMsg_MaxCellState, HandleMsg_MinCellState, HandleMsg_PackState, HandleMsg_Status.
  destruct (Z.eqb_spec (fr_dlc f) 8) as [Ed|].
  - destruct Hx as [Hx|[Hx|Hx]]; [easy|easy|].
    assert (fr_id f <> 769 /\ fr_id f <> 770 /\ fr_id f <> 771 /\ fr_id f <> 772) by
      (repeat split; intro; apply Hx; simpl; auto).
    rewrite !(proj2 (Z.eqb_neq _ _)) by tauto. reflexivity.
  - simpl. repeat destruct (Z.eqb _ _); reflexivity.
Qed.
Print Assumptions C20_other_frames_change_nothing.

Open Scope R_scope.
(** Values decoded from a frame, as real numbers. *)
Theorem C20_decoding_accuracy :
  forall bus s q f, bms_frame bus 0x303 f -> Forall (fun x => frame_bytes (fst x)) q ->
    let b := vs_battery (BMSProcessing bus s (q ++ [(f, true)])) in
    Rabs (FR (b_dcCurrent b) - IZR (raw_s16 0 (fr_data f)) / 10) <= / 1900 /\
    Rabs (FR (b_dcVoltage b) - IZR (raw_s16 2 (fr_data f)) / 10) <= / 1900 /\
    FR (b_stateOfCharge b) = IZR (raw_u16 4 (fr_data f)) / 2.
Proof.
  intros bus s q f (B & I & L & Y) Q b. subst b. rewrite bms_last by assumption. simpl.
  rewrite !(latest_last _ bus 771) by assumption.
  generalize (raw_s16_range 0 _ Y) (raw_s16_range 2 _ Y) (raw_u16_range 4 _ Y). intros R0 R2 R4.
  split; [apply times_tenth_err; lia|]. split; [apply times_tenth_err; lia|].
  apply times_half_exact; lia.
Qed.
Print Assumptions C20_decoding_accuracy.
Open Scope Z_scope.

(** A run with two pack frames, one on another bus, one too short, one for which
    the lock failed: the second pack frame is the one that counts. *)
Definition pack_frame (bus dlc : Z) (d : list Z) := mkFrame bus 0x303 dlc d.
Example C20_run :
  let q := [(pack_frame 1 8 [10;0;20;0;30;0;0;0], true);
            (pack_frame 1 8 [0xEC;0xFF;5;0;40;0;0;0], true);
            (pack_frame 0 8 [1;1;1;1;1;1;1;1], true);
            (pack_frame 1 7 [2;2;2;2;2;2;2;0], true);
            (pack_frame 1 8 [3;3;3;3;3;3;3;3], false);
            (mkFrame 1 0x304 8 [9;96;0x34;0x12;0;0;0;0], true)] in
  Forall (fun x => frame_bytes (fst x)) q /\
  let b := vs_battery (BMSProcessing 1 zero_vstate q) in
  b_stateOfCharge b = f_of_Z 20 /\ b_dcCurrent b = f_of_Z (-2) /\
  b_populatedCells b = 96 /\ b_failsafeStatus b = 0x1234.
Proof.
  split; [|vm_compute; auto].
  repeat (constructor; [unfold frame_bytes; simpl; repeat (constructor; [unfold is_byte; lia|]); constructor|]).
  constructor.
Qed.

(** ** C21 *)
Open Scope R_scope.
Theorem C21_current_and_pack_voltage_partial :
  forall bus s q f, bms_frame bus 0x303 f -> Forall (fun x => frame_bytes (fst x)) q ->
    let b := vs_battery (BMSProcessing bus s (q ++ [(f, true)])) in
    Rabs (FR (b_dcCurrent b) - doc_current (fr_data f)) <= / 1900 /\
    Rabs (FR (b_dcVoltage b) - doc_pack_voltage (fr_data f)) <= / 1900.
Proof.
  intros bus s q f F Q b. destruct (C20_decoding_accuracy bus s q f F Q) as (A & B & _).
  now split.
Qed.
Print Assumptions C21_current_and_pack_voltage_partial.

(** The other three quantities are off by fixed factors: 10 for temperature,
    1/100 for cell voltage, 50 for state of charge. *)
Theorem C21_temperature_and_voltage_factors :
  forall bus s q f, bms_frame bus 0x301 f -> Forall (fun x => frame_bytes (fst x)) q ->
    let b := vs_battery (BMSProcessing bus s (q ++ [(f, true)])) in
    FR (b_maxCellTemperature b) = 10 * doc_temperature (fr_data f) /\
    Rabs (FR (b_maxCellVoltage b) - doc_cell_voltage (fr_data f) / 100) <= / 1000000.
Proof.
  intros bus s q f (B & I & L & Y) Q b. subst b. rewrite bms_last by assumption. simpl.
  rewrite !(latest_last _ bus 769) by assumption.
  generalize (raw_s16_range 0 _ Y) (raw_s16_range 3 _ Y). intros R0 R3.
  unfold doc_temperature, doc_cell_voltage. split.
  - destruct (f_of_Z_R (raw_s16 0 (fr_data f))) as [_ ->]; [lia|lra].
  - replace (IZR (raw_s16 3 (fr_data f)) / 100 / 100) with (IZR (raw_s16 3 (fr_data f)) / 10000) by lra.
    apply times_tenthousandth_err; lia.
Qed.
Print Assumptions C21_temperature_and_voltage_factors.

Theorem C21_charge_factor :
  forall bus s q f, bms_frame bus 0x303 f -> Forall (fun x => frame_bytes (fst x)) q ->
    let b := vs_battery (BMSProcessing bus s (q ++ [(f, true)])) in
    FR (b_stateOfCharge b) = 50 * doc_charge (fr_data f).
Proof.
  intros bus s q f F Q b. destruct (C20_decoding_accuracy bus s q f F Q) as (_ & _ & E).
  subst b. rewrite E. unfold doc_charge. lra.
Qed.
Print Assumptions C21_charge_factor.

Lemma small_bytes : forall l, forallb (fun z => (0 <=? z) && (z <? 256))%Z l = true -> Forall is_byte l.
Proof.
  intros l H. apply Forall_forall. intros x I. rewrite forallb_forall in H. specialize (H x I).
  unfold is_byte. apply andb_prop in H. lia.
Qed.

(** 25.0 degC is decoded as 250 degC. *)
Theorem C21_documented_units_refuted :
  exists f, bms_frame 1 0x301 f /\
    doc_temperature (fr_data f) = 25 /\
    FR (b_maxCellTemperature (vs_battery (BMSProcessing 1 zero_vstate [(f, true)]))) = 250.
Proof.
  exists (mkFrame 1 0x301 8 [250; 0; 0; 0; 0; 0; 0; 0]%Z).
  assert (F : bms_frame 1 0x301 (mkFrame 1 0x301 8 [250; 0; 0; 0; 0; 0; 0; 0]%Z)).
  { repeat split. now apply small_bytes. }
  split; [exact F|]. assert (T : doc_temperature [250; 0; 0; 0; 0; 0; 0; 0]%Z = 25)
    by (unfold doc_temperature; change (raw_s16 0 _) with 250%Z; lra).
  split; [exact T|].
  destruct (C21_temperature_and_voltage_factors 1 zero_vstate [] _ F (Forall_nil _)) as [E _].
  simpl app in E. rewrite E. cbn [fr_data]. rewrite T. lra.
Qed.
Print Assumptions C21_documented_units_refuted.

(** ** C22 *)
Open Scope Z_scope.
Theorem C22_inverter_mirrors_latest_frames :
  forall bus s q, Forall (fun x => frame_bytes (fst x)) q ->
    InverterProcessing bus s q =
    set_inverter (set_motor s (motor_after bus q (vs_motor s))) (inverter_after bus q (vs_inverter s)).
Proof. exact inv_refine. Qed.
Print Assumptions C22_inverter_mirrors_latest_frames.

(** The quotients used by [motor_after] and [inverter_after] are the correctly
    rounded values, so within 1/1000 of the exact ones. *)
Theorem C22_decoding_accuracy :
  forall raw q, -32768 <= raw <= 65535 -> In q [10; 100; 1000] ->
    fin (over raw q) /\ FR (over raw q) = rnd (IZR raw / IZR q) /\
    (Rabs (FR (over raw q) - IZR raw / IZR q) <= / 1000)%R.
Proof.
  intros raw q H Q. assert (10 <= q <= 1000) by (destruct Q as [<-|[<-|[<-|[]]]]; lia).
  destruct (over_R raw q) as [F E]; [lia|lia|].
  split; [exact F|]. split; [exact E|]. apply over_err; lia.
Qed.
Print Assumptions C22_decoding_accuracy.

Theorem C22_other_frames_change_nothing :
  forall bus s q,
    Forall (fun x => fr_bus (fst x) <> bus \/ fr_dlc (fst x) <> 8 \/
                     ~ In (fr_id (fst x)) [0x0A0; 0x0A1; 0x0A2; 0x0A5; 0x0A6; 0x0A7; 0x0A8; 0x0AA; 0x0AB; 0x0AC; 0x0AD]) q ->
    InverterProcessing bus s q = s.
Proof.
  intros bus s q H. unfold InverterProcessing. revert s. induction H as [|[f l] q Hx _ IH]; intros s; [reflexivity|].
  simpl. rewrite IH. simpl in Hx. unfold inv_handle, publish.
  destruct (Z.eqb_spec (fr_bus f) bus) as [Eb|]; [|reflexivity]. simpl.
  destruct (Z.eqb_spec (fr_dlc f) 8) as [Ed|].
  - destruct Hx as [Hx|[Hx|Hx]]; [easy|easy|].
    repeat match goal with |- context [fr_id f =? ?c] =>
      rewrite (proj2 (Z.eqb_neq (fr_id f) c)) by (intro E; apply Hx; rewrite E; simpl; tauto) end.
    reflexivity.
  - simpl. repeat destruct (Z.eqb _ _); reflexivity.
Qed.
Print Assumptions C22_other_frames_change_nothing.

Example C22_run :
  let q := [(mkFrame 0 0x0A5 8 [0x10;0x27;0x18;0xFC;0xD0;0x07;0;0], true);
            (mkFrame 0 0x0AA 8 [5;0;4;0;0x60;0;1;1], true);
            (mkFrame 0 0x0AB 8 [1;2;3;4;5;6;7;8], true);
            (mkFrame 0 0x0A5 8 [1;1;1;1;1;1;1;1], false)] in
  let s := InverterProcessing 0 zero_vstate q in
  m_speed (vs_motor s) = -1000 /\ m_angle (vs_motor s) = f_of_Z 1000 /\
  v_outputFrequency (vs_inverter s) = f_of_Z 200 /\
  v_vsmState (vs_inverter s) = 5 /\ v_dischargeState (vs_inverter s) = 3 /\
  v_enabled (vs_inverter s) = 1 /\ v_postFaults (vs_inverter s) = 0x04030201 /\
  v_runFaults (vs_inverter s) = 0x08070605.
Proof. vm_compute. repeat split; reflexivity. Qed.

(** ** C23 *)
Open Scope R_scope.
(** Currents, fluxes' currents and the speed keep the sign of the two's
    complement field: every queue, last current frame [f]. *)
Theorem C23_signed_currents_and_speed_partial :
  forall bus s q f, Forall (fun x => frame_bytes (fst x)) q ->
    fr_bus f = bus -> fr_dlc f = 8%Z -> frame_bytes f ->
    let s' := InverterProcessing bus s (q ++ [(f, true)]) in
    let d := fr_data f in
    (fr_id f = 0x0A6%Z ->
       ((raw_s16 0 d < 0)%Z -> FR (m_phaseACurrent (vs_motor s')) < 0) /\
       ((raw_s16 2 d < 0)%Z -> FR (m_phaseBCurrent (vs_motor s')) < 0) /\
       ((raw_s16 4 d < 0)%Z -> FR (m_phaseCCurrent (vs_motor s')) < 0) /\
       ((raw_s16 6 d < 0)%Z -> FR (v_dcBusCurrent (vs_inverter s')) < 0)) /\
    (fr_id f = 0x0A8%Z ->
       ((raw_s16 4 d < 0)%Z -> FR (v_idFeedback (vs_inverter s')) < 0) /\
       ((raw_s16 6 d < 0)%Z -> FR (v_iqFeedback (vs_inverter s')) < 0)) /\
    (fr_id f = 0x0AD%Z ->
       ((raw_s16 4 d < 0)%Z -> FR (v_idCommand (vs_inverter s')) < 0) /\
       ((raw_s16 6 d < 0)%Z -> FR (v_iqCommand (vs_inverter s')) < 0)) /\
    (fr_id f = 0x0A5%Z -> m_speed (vs_motor s') = raw_s16 2 d).
Proof.
  intros bus s q f Q B L Y s' d. subst s' d.
  rewrite inv_refine by (apply Forall_app; split; [assumption|]; constructor; [exact Y|constructor]).
  cbn [vs_motor vs_inverter set_inverter set_motor motor_after inverter_after
       m_phaseACurrent m_phaseBCurrent m_phaseCCurrent v_dcBusCurrent v_idFeedback v_iqFeedback
       v_idCommand v_iqCommand m_speed].
  pose proof (fun o => raw_s16_range o _ Y) as RR.
  split; [|split; [|split]]; intros I; rewrite ?latest_last by assumption;
    repeat split; intros; try reflexivity;
    apply over_neg; try lia;
    match goal with |- (_ <= raw_s16 ?o _ < _)%Z => specialize (RR o); lia end.
Qed.
Print Assumptions C23_signed_currents_and_speed_partial.

(** Temperatures, voltages and torques are never negative, whatever is received. *)
Lemma over_u16_nonneg : forall raw q, (0 <= raw <= 65535)%Z -> (1 <= q <= 1000)%Z -> 0 <= FR (over raw q).
Proof.
  intros raw q H Q. destruct (over_R raw q) as [_ ->]; [lia|lia|].
  rewrite <- rnd_0. apply rnd_le. apply Rmult_le_pos; [now apply IZR_le|].
  left. apply Rinv_0_lt_compat. apply IZR_lt. lia.
Qed.

Theorem C23_never_negative :
  forall bus s q f, Forall (fun x => frame_bytes (fst x)) q ->
    fr_bus f = bus -> fr_dlc f = 8%Z -> frame_bytes f ->
    let s' := InverterProcessing bus s (q ++ [(f, true)]) in
    (fr_id f = 0x0A0%Z -> 0 <= FR (v_moduleATemp (vs_inverter s'))) /\
    (fr_id f = 0x0A2%Z -> 0 <= FR (m_temperature (vs_motor s'))) /\
    (fr_id f = 0x0A7%Z -> 0 <= FR (v_vd (vs_inverter s')) /\ 0 <= FR (v_vq (vs_inverter s'))) /\
    (fr_id f = 0x0AC%Z -> 0 <= FR (v_commandedTorque (vs_inverter s')) /\
                          0 <= FR (m_calculatedTorque (vs_motor s'))).
Proof.
  intros bus s q f Q B L Y s'. subst s'.
  rewrite inv_refine by (apply Forall_app; split; [assumption|]; constructor; [exact Y|constructor]).
  cbn [vs_motor vs_inverter set_inverter set_motor motor_after inverter_after
       v_moduleATemp m_temperature v_vd v_vq v_commandedTorque m_calculatedTorque].
  pose proof (fun o => raw_u16_range o _ Y) as RR.
  split; [|split; [|split]]; intros I; rewrite ?latest_last by assumption;
    repeat split; apply over_u16_nonneg; try lia; apply RR.
Qed.
Print Assumptions C23_never_negative.

(** -1.0 degC and -5.0 Nm arrive as +6552.6 and +6548.6. *)
Theorem C23_signed_measurements_refuted :
  exists ft fq,
    frame_bytes ft /\ frame_bytes fq /\ raw_s16 4 (fr_data ft) = (-10)%Z /\ raw_s16 2 (fr_data fq) = (-50)%Z /\
    let s := InverterProcessing 0 zero_vstate [(ft, true); (fq, true)] in
    6552 < FR (m_temperature (vs_motor s)) /\ 6548 < FR (m_calculatedTorque (vs_motor s)).
Proof.
  exists (mkFrame 0 0x0A2 8 [0;0;0;0;0xF6;0xFF;0;0]%Z), (mkFrame 0 0x0AC 8 [0;0;0xCE;0xFF;0;0;0;0]%Z).
  assert (Y1 : frame_bytes (mkFrame 0 0x0A2 8 [0;0;0;0;0xF6;0xFF;0;0]%Z)) by now apply small_bytes.
  assert (Y2 : frame_bytes (mkFrame 0 0x0AC 8 [0;0;0xCE;0xFF;0;0;0;0]%Z)) by now apply small_bytes.
  split; [exact Y1|]. split; [exact Y2|]. split; [reflexivity|]. split; [reflexivity|].
  cbv zeta. rewrite inv_refine by (constructor; [exact Y1|constructor; [exact Y2|constructor]]).
  change (vs_motor _) with (motor_after 0 [(mkFrame 0 0x0A2 8 [0;0;0;0;0xF6;0xFF;0;0]%Z, true);
    (mkFrame 0 0x0AC 8 [0;0;0xCE;0xFF;0;0;0;0]%Z, true)] zero_motor).
  change (m_temperature _) with (over 65526 10). change (m_calculatedTorque _) with (over 65486 10).
  destruct (C22_decoding_accuracy 65526 10) as (_ & _ & A); [lia|simpl; auto|].
  destruct (C22_decoding_accuracy 65486 10) as (_ & _ & B); [lia|simpl; auto|].
  apply Rabs_le_inv in A. apply Rabs_le_inv in B. lra.
Qed.
Print Assumptions C23_signed_measurements_refuted.
