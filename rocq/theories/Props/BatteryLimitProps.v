(** C05: the shipped battery limits, from CAN frame to fault code. *)
From Coq Require Import Reals Psatz.
From Flocq Require Import Core.
From Verif.Base Require Import Words F32 F32Real.
From Verif.Model Require Import VehicleState Bms FaultManager.
From Verif.Spec Require Import RxSpec BmsDocSpec FaultSpec.
From Verif.Proof Require Import FaultProof BitFacts RxProof DecodeProof.
From Verif.Props Require Import FaultProps RxProps.
Open Scope R_scope.

(** Over-temperature is judged at exactly 75 degC: the limit 750 and the raw
    field share the unit, although neither is converted. *)
Theorem C05_temperature_limit_partial :
  forall bus s q f, bms_frame bus 0x301 f -> Forall (fun x => frame_bytes (fst x)) q ->
    (fault_cond default_config CellOverTemp (BMSProcessing bus s (q ++ [(f, true)])) = true
     <-> 75 < doc_temperature (fr_data f)).
Proof.
  intros bus s q f F Q. destruct (C21_temperature_and_voltage_factors bus s q f F Q) as [E _].
  cbv zeta in E. unfold fault_cond.
  assert (FN : fin (b_maxCellTemperature (vs_battery (BMSProcessing bus s (q ++ [(f, true)]))))).
  { destruct F as (B & I & L & Y). rewrite bms_last by assumption. simpl.
    rewrite !(latest_last _ bus 769) by assumption. apply f_of_Z_fits.
    generalize (raw_s16_range 0 _ Y). lia. }
  destruct (f_of_Z_R 750) as [F1 E1]; [lia|].
  simpl cf_bms. cbn [cb_maxCellTemp]. rewrite flt_R by assumption. rewrite E1, E.
  destruct (Rlt_bool_spec 750 (10 * doc_temperature (fr_data f))); split; intros; try easy; lra.
Qed.
Print Assumptions C05_temperature_limit_partial.

(** Low charge is judged at 20 %, not at the documented 10 %. *)
Theorem C05_charge_limit_is_20_percent :
  forall bus s q f, bms_frame bus 0x303 f -> Forall (fun x => frame_bytes (fst x)) q ->
    (fault_cond default_config LowCharge (BMSProcessing bus s (q ++ [(f, true)])) = true
     <-> doc_charge (fr_data f) < 20).
Proof.
  intros bus s q f F Q. pose proof (C21_charge_factor bus s q f F Q) as E.
  cbv zeta in E. unfold fault_cond.
  assert (FN : fin (b_stateOfCharge (vs_battery (BMSProcessing bus s (q ++ [(f, true)]))))).
  { destruct F as (B & I & L & Y). rewrite bms_last by assumption. simpl.
    rewrite !(latest_last _ bus 771) by assumption. apply times_half_exact.
    generalize (raw_u16_range 4 _ Y). lia. }
  destruct (f_of_Z_R 1000) as [F1 E1]; [lia|].
  simpl cf_bms. cbn [cb_minSoc]. rewrite flt_R by assumption. rewrite E1, E.
  destruct (Rlt_bool_spec (50 * doc_charge (fr_data f)) 1000); split; intros; try easy; lra.
Qed.
Print Assumptions C05_charge_limit_is_20_percent.

(** A snapshot whose battery record came from BMS frames since power-up. *)
Definition from_bms (d : vstate) : Prop :=
  exists bus q, Forall (fun x => frame_bytes (fst x)) q /\
    vs_battery d = vs_battery (BMSProcessing bus zero_vstate q).

Lemma sustained_ex : forall (p : vstate -> bool) n l, (0 <= n)%Z -> sustained p n l ->
  exists d, In d l /\ p d = true.
Proof.
  intros p n l N (a & w & b & -> & L & T). destruct w as [|d w]; [simpl in L; lia|].
  exists d. split; [apply in_app_iff; right; left; reflexivity|]. simpl in T. now apply andb_prop in T.
Qed.

Lemma no_overcurrent : forall d, from_bms d -> fault_cond default_config PackOverCurrent d = false.
Proof.
  intros d (bus & q & Q & E). unfold fault_cond. simpl cf_bms. cbn [cb_maxCurrent]. rewrite E.
  rewrite battery_refine by assumption. simpl vs_battery.
  destruct (f_of_Z_R 4500) as [F1 E1]; [lia|].
  cut (forall x, fin x /\ FR x <= 4000 -> flt (f_of_Z 4500) x = false).
  - intros C. apply C. apply (latest_inv _ (fun x => fin x /\ FR x <= 4000)); [exact Q| |].
    + split; [split; reflexivity|]. change (FR _) with 0. lra.
    + intros dd Y. generalize (raw_s16_range 0 _ Y). intros R.
      split; [apply times_tenth_fin; lia|].
      generalize (times_tenth_err (raw_s16 0 dd) ltac:(lia)). intros K. apply Rabs_le_inv in K.
      assert (IZR (raw_s16 0 dd) <= 32767) by (apply IZR_le; lia). lra.
  - intros x [F H]. rewrite flt_R, E1 by assumption. apply Rlt_bool_false. lra.
Qed.

Lemma no_overvoltage : forall d, from_bms d -> fault_cond default_config CellOverVoltage d = false.
Proof.
  intros d (bus & q & Q & E). unfold fault_cond. simpl cf_bms. cbn [cb_maxCellVoltage]. rewrite E.
  rewrite battery_refine by assumption. simpl vs_battery.
  destruct (f_of_Z_R 420) as [F1 E1]; [lia|].
  cut (forall x, fin x /\ FR x <= 4 -> flt (f_of_Z 420) x = false).
  - intros C. apply C. apply (latest_inv _ (fun x => fin x /\ FR x <= 4)); [exact Q| |].
    + split; [split; reflexivity|]. change (FR _) with 0. lra.
    + intros dd Y. generalize (raw_s16_range 3 _ Y). intros R.
      split; [apply times_tenthousandth_fin; lia|].
      generalize (times_tenthousandth_err (raw_s16 3 dd) ltac:(lia)). intros K. apply Rabs_le_inv in K.
      assert (IZR (raw_s16 3 dd) <= 32767) by (apply IZR_le; lia). lra.
  - intros x [F H]. rewrite flt_R, E1 by assumption. apply Rlt_bool_false. lra.
Qed.

(** The current, cell-voltage and fault-indicator codes are never set, for any
    frames from the BMS and any history of the fault monitor. *)
Theorem C05_current_and_voltage_never_fault :
  forall h k, Forall from_bms (evaluated h) ->
    In k [PackOverCurrent; CellOverVoltage; BmsIndicator] ->
    Z.testbit (fm_faults (fst (fm_run default_config shipped_fm h))) (fault_bit k) = false.
Proof.
  intros h k H K.
  destruct (Z.testbit _ _) eqn:T; [|reflexivity]. exfalso.
  apply (C02_debounce_exact_shipped_tick default_config shipped_fm h k shipped_cfg_ok shipped_fm_is_init) in T.
  apply sustained_ex in T;
    [|destruct K as [<-|[<-|[<-|[]]]]; vm_compute; discriminate].
  destruct T as (d & I & D). rewrite Forall_forall in H. specialize (H d I).
  destruct K as [<-|[<-|[<-|[]]]].
  - now rewrite no_overcurrent in D.
  - now rewrite no_overvoltage in D.
  - destruct H as (bus & q & Q & E). simpl in D. rewrite E in D.
    rewrite battery_refine in D by assumption. discriminate.
Qed.
Print Assumptions C05_current_and_voltage_never_fault.

(** So a 500 A, 5.00 V/cell pack raises nothing however long it lasts ... *)
Definition hot_pack : list (can_frame * bool) :=
  [(mkFrame 1 0x301 8 [250; 0; 1; 0xF4; 0x01; 1; 0; 0]%Z, true);
   (mkFrame 1 0x303 8 [0x88; 0x13; 0xA0; 0x0F; 0x40; 0x1F; 0; 0]%Z, true)].

Theorem C05_documented_limits_refuted :
  exists d, from_bms d /\
    (forall f, In (f, true) hot_pack -> fr_id f = 0x303%Z -> doc_current (fr_data f) = 500) /\
    (forall f, In (f, true) hot_pack -> fr_id f = 0x301%Z -> doc_cell_voltage (fr_data f) = 5) /\
    d = BMSProcessing 1 zero_vstate hot_pack /\
    forall n, fm_faults (fst (fm_run default_config shipped_fm (repeat (Some d) n))) = 0%Z.
Proof.
  assert (Y : Forall (fun x => frame_bytes (fst x)) hot_pack).
  { constructor; [now apply small_bytes|]. constructor; [now apply small_bytes|]. constructor. }
  exists (BMSProcessing 1 zero_vstate hot_pack). split; [|split; [|split; [|split]]].
  - now exists 1%Z, hot_pack.
  - intros f [E|[E|[]]] I; inversion E; subst; [discriminate|].
    unfold doc_current. cbn [fr_data]. change (raw_s16 0 _) with 5000%Z. lra.
  - intros f [E|[E|[]]] I; inversion E; subst; [|discriminate].
    unfold doc_cell_voltage. cbn [fr_data]. change (raw_s16 3 _) with 500%Z. lra.
  - reflexivity.
  - set (d := BMSProcessing 1 zero_vstate hot_pack).
    assert (S1 : fst (fm_step default_config shipped_fm (Some d)) = shipped_fm) by (vm_compute; reflexivity).
    assert (S2 : forall n, fst (fm_run default_config shipped_fm (repeat (Some d) n)) = shipped_fm).
    { induction n as [|n IH]; [reflexivity|]. cbn [repeat fm_run].
      destruct (fm_step default_config shipped_fm (Some d)) as [s1 r]. cbn [fst] in S1. subst s1.
      destruct (fm_run default_config shipped_fm (repeat (Some d) n)) as [s2 rs]. exact IH. }
    intros n. now rewrite S2.
Qed.
Print Assumptions C05_documented_limits_refuted.

(** ... while a healthy pack at 15 % charge faults at the first sample, as does
    the vehicle state before any BMS frame has arrived. *)
Theorem C05_healthy_pack_refuted :
  exists f, bms_frame 1 0x303 f /\ doc_charge (fr_data f) = 15 /\ doc_current (fr_data f) = 10 /\
    snd (fm_step default_config shipped_fm (Some (BMSProcessing 1 zero_vstate [(f, true)]))) = FS_Fault /\
    snd (fm_step default_config shipped_fm (Some zero_vstate)) = FS_Fault.
Proof.
  exists (mkFrame 1 0x303 8 [100; 0; 0xA0; 0x0F; 0xDC; 0x05; 0; 0]%Z).
  split; [repeat split; now apply small_bytes|].
  split; [unfold doc_charge; cbn [fr_data]; change (raw_u16 4 _) with 1500%Z; lra|].
  split; [unfold doc_current; cbn [fr_data]; change (raw_s16 0 _) with 100%Z; lra|].
  split; vm_compute; reflexivity.
Qed.
Print Assumptions C05_healthy_pack_refuted.

(** A warm frame just above and one at the limit. *)
Example C05_temperature_cases :
  let at_raw lo hi := BMSProcessing 1 zero_vstate [(mkFrame 1 0x301 8 [lo; hi; 1; 0; 0; 1; 0; 0]%Z, true)] in
  fault_cond default_config CellOverTemp (at_raw 0xEF 2)%Z = true /\
  fault_cond default_config CellOverTemp (at_raw 0xEE 2)%Z = false.
Proof. vm_compute. split; reflexivity. Qed.
