From Coq Require Import Reals Psatz.
From Coq Require Import ZifyBool ZifyNat Floats.SpecFloat.
From Flocq Require Import Core.
From Verif.Base Require Import Words F32Real.
From Verif.Model Require Import Vehicle RealTime.
From Verif.Spec Require Import FaultSpec VsmSpec FreshSpec SenseSpec InverterSpec EcuSpec TorqueSpec RealTimeSpec VehicleSpec.
From Verif.Proof Require Import F32Facts TorqueProof InverterCmdProof FaultProof VsmProof EcuProof EcuFrames EcuPedal SenseProof
  FreshProof RealTimeProof VehicleProof.
Open Scope Z_scope.

(** ** Torque frames *)
Lemma request_origin : forall il ok ic x r t,
  SendTorqueCommand il ok ic (TorqueMap_Interpolate TorqueMap_Default x) DIR_FORWARD = Some r ->
  In t (ir_tx r) -> f_ok x = true ->
  0 <= frame_torque (tx_data t) /\
  exists y, pedal_torque x y /\ stands_for (frame_torque (tx_data t)) y.
Proof.
  intros il ok ic x r t SR IN OK. destruct (envelope_fwd x OK) as [F B].
  set (q := TorqueMap_Interpolate TorqueMap_Default x) in *.
  assert (R : in_range q) by (unfold in_range; rewrite max_val; lra).
  destruct il.
  2:{ unfold SendTorqueCommand in SR. destruct (flt _ _ || fgt _ _); cbn [negb] in SR;
        injection SR as <-; destruct IN. }
  destruct (ic_enabled ic) eqn:EN.
  2:{ unfold SendTorqueCommand in SR. destruct (flt _ _ || fgt _ _); cbn [negb] in SR; [|rewrite EN in SR];
        injection SR as <-; destruct IN. }
  destruct (request_frame ok ic x OK EN) as (t' & S' & _ & _ & y & Y1 & Y2).
  fold q in S'. pose proof S' as S2. rewrite SR in S2. injection S2 as ->. cbn [ir_tx] in IN. destruct IN as [<-|[]].
  split; [|eauto].
  revert S'. unfold SendTorqueCommand. rewrite (proj2 (range_test q F) R), EN. cbn [negb].
  destruct (torque_field q F R) as (m & M & B' & _). unfold SendCANCommand. rewrite M.
  intros Q. injection Q as <-. cbn [tx_data]. rewrite enc_torque by lia. lia.
Qed.

Lemma veh_sends_ecu : forall c tick s ev t, veh_sends c tick s ev t ->
  exists e l, vh_e (veh_step c tick (ds_from_config c) s ev) = ecu_step c tick (vh_e s) e /\
    e_sent (ecu_step c tick (vh_e s) e) = e_sent (vh_e s) ++ l /\ In t l /\
    (forall e', ev = VWork e' -> e = e').
Proof.
  intros c tick s ev t (l & E & IN).
  destruct (step_e c tick (ds_from_config c) s ev) as [S|(e & S & K)].
  - rewrite S in E. rewrite <- (app_nil_r (e_sent _)) in E at 1. apply app_inv_head in E. subst l. destruct IN.
  - exists e, l. rewrite S in *. repeat split; auto. intros e' ->. apply K.
Qed.

Lemma torque_now : forall c tick m0 tr ev t, vsm_init c tick = Some m0 -> calibrated c ->
  veh_not_starved c tick m0 tr -> readings_u16 c tick m0 tr ->
  veh_sends c tick (veh_run c tick m0 tr) ev t -> asks_torque t = true ->
  exists at_ n cy v, f_stage (vh_f (veh_run c tick m0 tr)) T_THROTTLE = Running at_ /\
    at_ <= n <= f_now (vh_f (veh_run c tick m0 tr)) /\ published c tick m0 tr n cy /\
    shows_cycle (ds_from_config c) cy v /\
    (stays_readable c tick m0 tr -> accel_in v = f_zero \/ both_read cy) /\ 0 <= frame_torque (tx_data t) /\
    exists y, pedal_torque (accel_in v) y /\ stands_for (frame_torque (tx_data t)) y.
Proof.
  intros c tick m0 tr ev t HI CA NS U SN A.
  pose proof (thr_origin_run c tick m0 tr HI CA NS U) as OR. unfold thr_origin in OR.
  destruct (e_proj c tick m0 tr CA U) as (es & EE & PO).
  destruct (veh_sends_ecu _ _ _ _ _ SN) as (e & l & S & E & IN & EV).
  destruct (frames_added c tick (vh_e (veh_run c tick m0 tr)) e) as (l' & E' & _ & H).
  rewrite E in E'. apply app_inv_head in E'. subst l'.
  destruct (H t IN A) as (_ & _ & il & ok & ->). clear H.
  pose proof (ranges_run c tick m0 es HI PO) as [_ _ _ RG]. rewrite <- EE in RG.
  set (s := veh_run c tick m0 tr) in *.
  (* the throttle task is outside the mutex *)
  assert (RUN : exists a, f_stage (vh_f s) T_THROTTLE = Running a).
  { destruct SN as (l2 & E2 & IN2). unfold veh_step in S. destruct ev; cbn zeta in S.
    - apply (f_equal e_sent) in S. rewrite E in S. cbn [with_f vh_e] in S.
      rewrite <- (app_nil_r (e_sent _)) in S at 1. apply app_inv_head in S. subst l. destruct IN.
    - exfalso. apply (f_equal e_sent) in S. rewrite E in S. destruct (on_timer t0); cbn [with_f vh_e] in S;
      rewrite <- (app_nil_r (e_sent _)) in S at 1; apply app_inv_head in S; subst l; destruct IN.
    - exfalso. apply (f_equal e_sent) in S. rewrite E in S. destruct (may s t0 a); cbn [with_f vh_e] in S;
      rewrite <- (app_nil_r (e_sent _)) in S at 1; apply app_inv_head in S; subst l; destruct IN.
    - exfalso. apply (f_equal e_sent) in S. rewrite E in S.
      assert (Q : forall live, e_sent (ecu_step c tick (vh_e s) (EvPedal live)) = e_sent (vh_e s))
        by (intros; cbn [ecu_step]; destruct (e_tpc (vh_e s)); reflexivity).
      destruct (is_inside _ && _ && _); cbn [vh_e] in S; [rewrite Q in S|];
      rewrite <- (app_nil_r (e_sent _)) in S at 1; apply app_inv_head in S; subst l; destruct IN.
    - exfalso. apply (f_equal e_sent) in S. rewrite E in S. destruct (is_inside _ && _ && _); cbn [vh_e] in S;
      rewrite <- (app_nil_r (e_sent _)) in S at 1; apply app_inv_head in S; subst l; destruct IN.
    - exfalso. apply (f_equal e_sent) in S. rewrite E in S. destruct (is_inside _ && _ && _); cbn [vh_e] in S;
      rewrite <- (app_nil_r (e_sent _)) in S at 1; apply app_inv_head in S; subst l; destruct IN.
    - exfalso. apply (f_equal e_sent) in S. rewrite E in S.
      assert (Q : forall i, e_sent (ecu_step c tick (vh_e s) (EvVsm i)) = e_sent (vh_e s))
        by (intros; cbn [ecu_step]; destruct (e_pend (vh_e s)); auto; destruct (vsm_step _ _ _ _); reflexivity).
      destruct (is_running _ && _ && _ && _); cbn [vh_e] in S; [rewrite Q in S|];
      rewrite <- (app_nil_r (e_sent _)) in S at 1; apply app_inv_head in S; subst l; destruct IN.
    - specialize (EV ev eq_refl). subst ev.
      destruct (f_stage (vh_f s) T_THROTTLE) as [|a|a|a]; eauto; exfalso; cbn [is_running andb] in S;
      apply (f_equal e_sent) in S; rewrite E in S; cbn [vh_e] in S;
      rewrite <- (app_nil_r (e_sent _)) in S at 1; apply app_inv_head in S; subst l; destruct IN. }
  destruct RUN as (a & RUN).
  cbn [ecu_step] in E. destruct (e_tpc (vh_e s)) as [| | | |q d] eqn:PC;
    try (rewrite <- (app_nil_r (e_sent _)) in E at 1; apply app_inv_head in E; subst l; destruct IN).
  destruct (SendTorqueCommand il ok (e_inv (vh_e s)) q d) as [r|] eqn:SR; cbn [e_sent] in E;
    [|rewrite <- (app_nil_r (e_sent _)) in E at 1; apply app_inv_head in E; subst l; destruct IN].
  apply app_inv_head in E. subst l.
  destruct OR as [->|(x & (v & (at_ & n & cy & SI & L & P & SH & RB) & -> & OK) & ->)];
    [pose proof (zero_frame_quiet _ _ _ _ _ _ SR IN); congruence|].
  destruct RG as (_ & ->).
  destruct (request_origin _ _ _ _ _ _ SR IN OK) as (NN & Y).
  fold s in SI, L. rewrite RUN in SI. cbn [since] in SI. injection SI as ->.
  exists at_, n, cy, v. auto 12.
Qed.

Lemma shown_pedal : forall c cy v, shows_cycle (ds_from_config c) cy v -> both_read cy ->
  accel_in v = pedal_of c cy.
Proof.
  intros c cy v (_ & _ & H & _) (A & B). destruct (H A B) as (E & _). unfold accel_in.
  rewrite E. apply pedal_of_sum.
Qed.

(** ** A released pedal *)
Lemma low_no_torque : forall x y, (FR x < FR (f_lit 1 10))%R -> pedal_torque x y -> y = 0%R.
Proof.
  intros x y L [(_ & R & (i & Hi & B & ->))|(_ & ->)]; auto.
  destruct i as [|i].
  - unfold point_torque. change (nth 0 (tm_torque TorqueMap_Default) f_zero) with (f_of_Z 0).
    change (nth 1 (tm_torque TorqueMap_Default) f_zero) with (f_of_Z 0). vm_compute (f_of_Z 0).
    change (FR (S754_zero false)) with 0%R. lra.
  - exfalso.
    assert (LE : (point_accel TorqueMap_Default 1 <= point_accel TorqueMap_Default (S i))%R).
    { unfold point_accel.
      assert (Q : forall j, (j < 3)%nat -> (FR (nth (S j) (tm_accel TorqueMap_Default) f_zero) <= FR (nth (S (S j)) (tm_accel TorqueMap_Default) f_zero))%R).
      { intros j Hj.
        destruct j as [|[|[|]]]; [| | |lia]; vm_compute (tm_accel TorqueMap_Default); cbn [nth];
        rewrite ?FR_finite, ?bpow_neg_val; cbn; lra. }
      destruct i as [|[|[|]]]; [lra| | |lia].
      - apply Q. lia.
      - eapply Rle_trans; [apply (Q 0%nat); lia|apply (Q 1%nat); lia]. }
    change (point_accel TorqueMap_Default 1) with (FR (f_lit 1 10)) in LE. lra.
Qed.

Lemma quiet_frame : forall t, 0 <= frame_torque (tx_data t) -> stands_for (frame_torque (tx_data t)) 0 ->
  asks_torque t = false.
Proof.
  intros t N (_ & S). unfold asks_torque.
  assert (frame_torque (tx_data t) < 1) by (apply lt_IZR; lra).
  replace (frame_torque (tx_data t)) with 0 by lia. reflexivity.
Qed.

Lemma fin_tenth : fin (f_lit 1 10).
Proof. split; vm_compute; reflexivity. Qed.

Lemma released_quiet : forall c tick m0 tr ev t at_, vsm_init c tick = Some m0 -> calibrated c ->
  veh_not_starved c tick m0 tr -> readings_u16 c tick m0 tr ->
  (forall n cy, published c tick m0 tr n cy -> at_ <= n -> released c cy) ->
  f_stage (vh_f (veh_run c tick m0 tr)) T_THROTTLE = Running at_ ->
  veh_sends c tick (veh_run c tick m0 tr) ev t -> asks_torque t = false.
Proof.
  intros c tick m0 tr ev t at_ HI CA NS U REL RUN SN.
  destruct (asks_torque t) eqn:A; auto.
  destruct (torque_now c tick m0 tr ev t HI CA NS U SN A) as (a & n & cy & v & R & L & P & SH & _ & NN & y & Y1 & Y2).
  rewrite RUN in R. injection R as <-. destruct (REL n cy P) as (B & F); [lia|].
  rewrite (shown_pedal c cy v SH B) in Y1.
  destruct (pedal_range c cy CA (U n cy P)) as (FI & _).
  rewrite (flt_R _ _ FI fin_tenth) in F. apply Rlt_bool_true_iff in F || (destruct (Rlt_bool_spec (FR (pedal_of c cy)) (FR (f_lit 1 10))) as [F'|]; [clear F; rename F' into F|discriminate]).
  apply (low_no_torque _ _ F) in Y1. subst y. rewrite <- A. now apply quiet_frame.
Qed.

Lemma average_mono : forall x y x' y', fin x -> fin y -> fin x' -> fin y' ->
  (0 <= FR x <= 1)%R -> (0 <= FR y <= 1)%R -> (0 <= FR x' <= 1)%R -> (0 <= FR y' <= 1)%R ->
  (FR x <= FR x')%R -> (FR y <= FR y')%R ->
  (FR (fmul f_half (fadd x y)) <= FR (fmul f_half (fadd x' y')))%R.
Proof.
  assert (V : forall x y, fin x -> fin y -> (0 <= FR x <= 1)%R -> (0 <= FR y <= 1)%R ->
     FR (fmul f_half (fadd x y)) = rnd (/ 2 * rnd (FR x + FR y))).
  { intros x y Fx Fy Hx Hy. destruct (fadd_R x y Fx Fy) as [F V].
    { apply fits_IZR with 2%Z; [lia|]. rewrite Rabs_pos_eq; lra. }
    assert (B : (0 <= rnd (FR x + FR y) <= 2)%R).
    { split.
      - rewrite <- rnd_0. apply rnd_le. lra.
      - rewrite <- (rnd_IZR 2) by lia. apply rnd_le. simpl. lra. }
    destruct half_R as [Fh Vh].
    destruct (fmul_R f_half (fadd x y) Fh F) as [G W].
    { apply fits_IZR with 1%Z; [lia|]. rewrite Vh, V, Rabs_pos_eq; lra. }
    rewrite W, Vh, V. f_equal. }
  intros x y x' y' F1 F2 F3 F4 R1 R2 R3 R4 L1 L2. rewrite !V by auto.
  apply rnd_le. assert (rnd (FR x + FR y) <= rnd (FR x' + FR y'))%R by (apply rnd_le; lra). lra.
Qed.

Lemma raw_released : forall c cy,
  ci_calA (cf_inputs c) = mkCal 0 4095 -> ci_calB (cf_inputs c) = mkCal 0 4095 ->
  both_read cy -> 0 <= snd (cy_A cy) <= 409 -> 0 <= snd (cy_B cy) <= 409 -> released c cy.
Proof.
  intros c cy CA CB BR A B. split; [exact BR|]. unfold pedal_of. rewrite CA, CB. cbn [c_rawLower c_rawUpper].
  set (S := fun raw => ADC_ApplyScaling (mkScaling 0 4095 true) raw).
  change (flt (fmul f_half (fadd (S (snd (cy_A cy))) (S (snd (cy_B cy))))) (f_lit 1 10) = true).
  assert (RG : forall r, 0 <= r <= 409 -> fin (S r) /\ (0 <= FR (S r) <= 1)%R)
    by (intros r H; apply scale_range; unfold is_u16; lia).
  assert (MO : forall r, 0 <= r <= 409 -> (FR (S r) <= FR (S 409%Z))%R).
  { intros r H. assert (Q : fle (S r) (S 409%Z) = true) by (apply scale_mono; unfold is_u16; lia).
    rewrite fle_R in Q by (apply RG; lia).
    destruct (Rle_bool_spec (FR (S r)) (FR (S 409%Z))); [auto|discriminate]. }
  destruct (RG _ A) as (FA & RA). destruct (RG _ B) as (FB & RB). destruct (RG 409) as (F9 & R9); [lia|].
  destruct (average_range _ _ FA FB RA RB) as (FM & _).
  rewrite (flt_R _ _ FM fin_tenth). apply Rlt_bool_true.
  apply Rle_lt_trans with (FR (fmul f_half (fadd (S 409%Z) (S 409%Z)))).
  - apply average_mono; auto.
  - destruct (average_range _ _ F9 F9 R9 R9) as (F9' & _).
    assert (Q : flt (fmul f_half (fadd (S 409%Z) (S 409%Z))) (f_lit 1 10) = true) by (vm_compute; reflexivity).
    rewrite (flt_R _ _ F9' fin_tenth) in Q.
    destruct (Rlt_bool_spec (FR (fmul f_half (fadd (S 409%Z) (S 409%Z)))) (FR (f_lit 1 10))); [auto|discriminate].
Qed.

(** The pedal at rest asks for no torque. *)
Lemma zero_pedal : forall x y, x = f_zero -> pedal_torque x y -> y = 0%R.
Proof.
  intros x y -> H. apply (low_no_torque _ _) in H; auto.
  change (FR f_zero) with 0%R. vm_compute (f_lit 1 10). rewrite FR_finite, bpow_neg_val by lia. cbn. lra.
Qed.

(** ** Once the converter has data it keeps it *)
Definition adc_ready (a : adc_t) : bool := if a_activeA a then a_validB a else a_validA a.
Lemma adc_ready_step : forall a e a', adc_step a e = Some a' -> adc_ready a = true -> adc_ready a' = true.
Proof.
  intros a e a' H R. unfold adc_ready in *. destruct e; cbn [adc_step] in H.
  - unfold dma_store in H. destruct (Mem.wr _ _ _); [|discriminate]. injection H as <-. exact R.
  - unfold ConvHalfCpltCallback in H. destruct (a_activeA a) eqn:A; destruct (bufferCopy _ _ _ _); try discriminate;
      injection H as <-; cbn [a_activeA a_validA a_validB]; rewrite ?A; exact R.
  - unfold ConvCpltCallback in H. destruct (a_activeA a) eqn:A; destruct (bufferCopy _ _ _ _); try discriminate;
      injection H as <-; reflexivity.
  - destruct (ADC_Get a channel); [|discriminate]. injection H as <-. exact R.
Qed.
Lemma adc_ready_run : forall tr a a', adc_run a tr = Some a' -> adc_ready a = true -> adc_ready a' = true.
Proof.
  induction tr as [|e tr IH]; cbn [adc_run]; intros a a' H R; [injection H as <-; exact R|].
  destruct (adc_step a e) as [b|] eqn:E; [|discriminate]. eapply IH; eauto. eapply adc_ready_step; eauto.
Qed.
Lemma adc_get_ready : forall a ch r, ADC_Get a ch = Some r ->
  (fst r = ADC_STATUS_OK <-> adc_ready a = true /\ ch <= a_n a).
Proof.
  intros a ch r H. unfold ADC_Get in H. unfold adc_ready. destruct (ch >? a_n a) eqn:G.
  { injection H as <-. cbn. split; [discriminate|]. intros (_ & Q). lia. }
  destruct (a_activeA a), (a_validA a), (a_validB a); try (destruct (Mem.rd _ _); [|discriminate]);
    injection H as <-; cbn [fst]; unfold ADC_STATUS_OK, ADC_STATUS_ERROR_DATANOTREADY;
    (split; [intros; first [discriminate|split; [reflexivity|lia]]|intros (Q & _); first [discriminate|reflexivity]]).
Qed.
Lemma adc_run_app : forall tr tr' a b, adc_run a tr = Some b -> adc_run a (tr ++ tr') = adc_run b tr'.
Proof.
  induction tr as [|e tr IH]; cbn [adc_run app]; intros tr' a b H; [now injection H as <-|].
  destruct (adc_step a e); [|discriminate]. now apply IH.
Qed.
Lemma adc_n_run : forall tr a a', adc_run a tr = Some a' -> a_n a' = a_n a.
Proof.
  induction tr as [|e tr IH]; cbn [adc_run]; intros a a' H; [injection H as <-; reflexivity|].
  destruct (adc_step a e) as [b|] eqn:E; [|discriminate]. rewrite (IH _ _ H).
  destruct e; cbn [adc_step] in E.
  - unfold dma_store in E. destruct (Mem.wr _ _ _); [|discriminate]. injection E as <-. reflexivity.
  - unfold ConvHalfCpltCallback in E. destruct (a_activeA a); destruct (bufferCopy _ _ _ _); try discriminate; injection E as <-; reflexivity.
  - unfold ConvCpltCallback in E. destruct (a_activeA a); destruct (bufferCopy _ _ _ _); try discriminate; injection E as <-; reflexivity.
  - destruct (ADC_Get a channel); [|discriminate]. injection E as <-. reflexivity.
Qed.

(** ** Timed runs: as long as the tasks keep up, this is a run of RealTime *)
Definition owed (g : stage) (note : Z) (flag : bool) : Z :=
  match g with Waiting => note | _ => if flag then 0 else 1 end.

Record sim (N : Z) (s : vehicle) (x : timed) : Prop := mkSim {
  sm_e : rt_ecu x = vh_e s;
  sm_now : N <= f_now (vh_f s);
  sm_late : forall a, since (f_stage (vh_f s) T_VSM) = Some a -> N < a;
  sm_soon : f_note (vh_f s) T_VSM <> 0 -> N < f_now (vh_f s);
  sm_v : rt_nv x = owed (f_stage (vh_f s) T_VSM) (f_note (vh_f s) T_VSM) (vh_decided s);
  sm_t : rt_nt x = owed (f_stage (vh_f s) T_THROTTLE) (f_note (vh_f s) T_THROTTLE) (vh_read s);
  sm_one : forall t, In t [T_THROTTLE; T_VSM] -> 0 <= f_note (vh_f s) t <= 1 /\
             (f_stage (vh_f s) t <> Waiting -> f_note (vh_f s) t = 0) }.

Lemma act_cases : forall d s t a u,
  (since (f_stage (act_step d s t a) u) = since (f_stage s u) /\ f_note (act_step d s t a) u = f_note s u) \/
  (u = t /\ f_stage s t = Waiting /\ f_note s t <> 0 /\
   since (f_stage (act_step d s t a) u) = Some (f_now s) /\ f_note (act_step d s t a) u = 0) \/
  (u = t /\ a = ADone /\ f_stage s u <> Waiting /\ f_stage (act_step d s t a) u = Waiting /\
   f_note (act_step d s t a) u = f_note s u).
Proof.
  intros d s t a u. destruct (act_since d s t a u) as [E|[E|(-> & -> & E)]]; auto.
  - destruct (Z.eq_dec u t) as [->|N].
    + destruct (f_stage s t) eqn:W; try (left; split; [exact E|]; apply act_note_keep; congruence).
      left. split; [exact E|]. unfold act_step in *. rewrite W in *. destruct a; auto.
      destruct (f_note s t =? 0) eqn:Z; auto. cbn [set_stage f_stage] in E. rewrite put_same in E. discriminate.
    + left. split; [exact E|]. apply act_note_keep. congruence.
  - destruct (f_stage s t) eqn:W.
    + left. unfold act_step. rewrite W. now rewrite W.
    + right. right. repeat split; auto; try discriminate. apply act_note_keep. congruence.
    + right. right. repeat split; auto; try discriminate. apply act_note_keep. congruence.
    + right. right. repeat split; auto; try discriminate. apply act_note_keep. congruence.
Qed.

Lemma owed_same : forall g g' note flag, since g' = since g ->
  (g = Waiting -> flag = false) ->
  owed g' note (if is_waiting g' then false else flag) = owed g note flag.
Proof. intros [|a|a|a] [|b|b|b] note flag E F; try discriminate; reflexivity. Qed.

(** Both tasks under one action. *)
Lemma owed_act : forall d s t a u flag,
  (f_stage s u = Waiting -> flag = false) -> (a = ADone -> u = t -> flag = true \/ f_stage s u = Waiting) ->
  0 <= f_note s u <= 1 -> (f_stage s u <> Waiting -> f_note s u = 0) ->
  let s' := act_step d s t a in
  owed (f_stage s' u) (f_note s' u) (if is_waiting (f_stage s' u) then false else flag)
  = owed (f_stage s u) (f_note s u) flag /\
  0 <= f_note s' u <= 1 /\ (f_stage s' u <> Waiting -> f_note s' u = 0).
Proof.
  intros d s t a u flag F D L Z s'. unfold s'.
  destruct (act_cases d s t a u) as [(E & N)|[(-> & W & NZ & E & N)|(-> & -> & NW & E & N)]].
  - rewrite N. split; [now apply owed_same|]. split; [exact L|]. intros Q. apply Z. intros W.
    apply Q, since_waiting. rewrite E. now apply since_waiting.
  - rewrite N, (F W), W. destruct (f_stage (act_step d s t a) t); [discriminate| | |];
      cbn [owed is_waiting]; (split; [lia|split; [lia|auto]]).
  - rewrite N, E. cbn [is_waiting owed]. destruct (D eq_refl eq_refl) as [-> |]; [|contradiction].
    rewrite (Z NW). split; [|split; [lia|congruence]]. destruct (f_stage s t); [contradiction| | |]; reflexivity.
Qed.

Lemma may_done_thr : forall s, may s T_THROTTLE ADone = true -> vh_read s = true.
Proof. intros s H. unfold may in H. change (T_THROTTLE =? T_THROTTLE) with true in H. cbn iota in H. now apply andb_prop in H. Qed.
Lemma may_done_vsm : forall s, may s T_VSM ADone = true -> vh_decided s = true.
Proof.
  intros s H. unfold may in H. change (T_VSM =? T_THROTTLE) with false in H.
  change (T_VSM =? T_VSM) with true in H. cbn iota in H. now apply andb_prop in H.
Qed.

Section Sim.
  Variables (c : config) (tick : Z) (m0 : vsm) (N : Z).
  Let d := ds_from_config c.

  Definition step_ok (s : vehicle) (ev : veh_event) (x : timed) (evs : list rt_event) : Prop :=
    sim N (veh_step c tick d s ev) (fold_left (rt_step c tick) evs x) /\
    ticks_in evs = veh_ticks [ev] /\ keeps_up c tick x evs /\
    (veh_waits ev -> Forall rt_waits evs) /\ (veh_no_pc ev -> Forall no_pc evs) /\
    Forall (sees (fun i => exists v, vi_snap i = Some v /\ vh_snap s = Some v)) evs.

  Lemma nothing : forall s ev x, veh_step c tick d s ev = s -> ev <> VTick -> sim N s x ->
    exists evs, step_ok s ev x evs.
  Proof.
    intros s ev x E T S. exists []. unfold step_ok. rewrite E. cbn [fold_left ticks_in keeps_up].
    repeat split; auto; try apply S; auto. destruct ev; auto; congruence.
  Qed.

  Lemma sim_step : forall s ev x, order s -> times (vh_f s) -> (ev = VTick -> veh_idle s) -> sim N s x ->
    exists evs, step_ok s ev x evs.
  Proof.
    intros s ev x O T K S.
    destruct ev.
    - (* tick *)
      exists [RtTick]. unfold step_ok. specialize (K eq_refl).
      destruct (K T_THROTTLE (or_introl eq_refl)) as (Wt & Nt).
      destruct (K T_VSM (or_intror (or_introl eq_refl))) as (Wv & Nv).
      destruct (or_snap s O Wv) as (SN & DC). pose proof (or_read s O Wt) as RD.
      pose proof (or_tpc s O RD) as PC. pose proof (or_pend s O DC) as PE.
      destruct S as [Se Sn Sl Ss Sv St S1].
      assert (X : rt_nv x = 0 /\ rt_nt x = 0) by (rewrite Sv, St, Wv, Wt; cbn [owed]; auto).
      split; [|split; [reflexivity|split; [|split; [|split]]]].
      + cbn [fold_left rt_step veh_step]. 
        constructor; cbn [rt_ecu rt_nv rt_nt with_f vh_f vh_e vh_read vh_decided fresh_step f_stage f_note f_now];
          rewrite ?Wt, ?Wv; cbn [is_waiting owed since]; auto; try lia.
        * discriminate.
        * change (on_timer T_VSM) with true. cbn iota. rewrite (proj1 X), Nv. reflexivity.
        * change (on_timer T_THROTTLE) with true. cbn iota. rewrite (proj2 X), Nt. reflexivity.
        * intros t [<-|[<-|[]]].
          -- change (on_timer T_THROTTLE) with true. cbn iota. rewrite Nt. split; [vm_compute; split; discriminate|congruence].
          -- change (on_timer T_VSM) with true. cbn iota. rewrite Nv. split; [vm_compute; split; discriminate|congruence].
      + cbn [keeps_up]. unfold idle. rewrite Se. destruct X. auto.
      + intros _. constructor; [exact I|constructor].
      + intros _. constructor; [exact I|constructor].
      + constructor; [exact I|constructor].
    - (* notification *)
      cut (sim N (veh_step c tick d s (VNotify t)) x).
      { intros Q. exists []. unfold step_ok. cbn [fold_left ticks_in keeps_up veh_ticks]. auto 10. }
      unfold veh_step. destruct (on_timer t) eqn:OT; auto. cbn zeta.
      assert (F : fresh_step d (vh_f s) (FNotify t) =
                  mkFresh (f_now (vh_f s)) (put (f_note (vh_f s)) t (u32 (f_note (vh_f s) t + 1))) (f_stage (vh_f s))
                    (f_holder (vh_f s)) (f_vs (vh_f s)) (f_pub (vh_f s)) (f_last (vh_f s)) (f_wait (vh_f s))).
      { cbn [fresh_step]. destruct (Z.eqb_spec t T_SENSE) as [->|]; [discriminate|reflexivity]. }
      rewrite F. destruct S as [Se Sn Sl Ss Sv St S1].
      assert (PT : forall u, In u [T_THROTTLE; T_VSM] -> put (f_note (vh_f s)) t (u32 (f_note (vh_f s) t + 1)) u = f_note (vh_f s) u).
      { intros u IN. apply put_other. intros ->. destruct IN as [<-|[<-|[]]]; discriminate. }
      constructor; cbn [with_f vh_f vh_e vh_read vh_decided f_stage f_note f_now]; auto; rewrite ?PT by (cbn; auto); auto.
      + rewrite Sv. destruct (f_stage (vh_f s) T_VSM); reflexivity.
      + rewrite St. destruct (f_stage (vh_f s) T_THROTTLE); reflexivity.
      + intros u IN. rewrite (PT u IN). auto.
    - (* kernel action *)
      cut (sim N (veh_step c tick d s (VRun t a)) x).
      { intros Q. exists []. unfold step_ok. cbn [fold_left ticks_in keeps_up veh_ticks]. auto 10. }
      unfold veh_step. cbn zeta. destruct (may s t a) eqn:M; auto.
      destruct S as [Se Sn Sl Ss Sv St S1].
      destruct (run_act d (vh_f s) t a) as [E|E]; rewrite E.
      { constructor; cbn [with_f vh_f vh_e vh_read vh_decided]; auto.
        - rewrite Sv. destruct (f_stage (vh_f s) T_VSM); reflexivity.
        - rewrite St. destruct (f_stage (vh_f s) T_THROTTLE); reflexivity. }
      destruct (S1 T_THROTTLE (or_introl eq_refl)) as (T1 & T2).
      destruct (S1 T_VSM (or_intror (or_introl eq_refl))) as (V1 & V2).
      destruct (owed_act d (vh_f s) t a T_THROTTLE (vh_read s) (or_read s O)) as (A1 & A2 & A3); auto.
      { intros -> <-. left. now apply may_done_thr. }
      destruct (owed_act d (vh_f s) t a T_VSM (vh_decided s)) as (B1 & B2 & B3); auto.
      { intros W. apply (or_snap s O W). }
      { intros -> <-. left. now apply may_done_vsm. }
      constructor; cbn [with_f vh_f vh_e vh_read vh_decided]; rewrite ?act_now; auto.
      + intros b Q. destruct (act_since d (vh_f s) t a T_VSM) as [F|[(<- & W & NZ & F & _)|(_ & _ & F)]].
        * apply Sl. congruence.
        * rewrite F in Q. injection Q as <-. now apply Ss.
        * rewrite F in Q. discriminate.
      + intros NZ. apply Ss. destruct (act_note d (vh_f s) t a T_VSM) as [F|F]; congruence.
      + now rewrite Sv.
      + now rewrite St.
      + intros u [<-|[<-|[]]]; auto.
    - (* the pedal *)
      assert (Q := nothing s VPedal x).
      unfold veh_step in Q. cbn zeta in Q.
      destruct (is_inside (f_stage (vh_f s) T_THROTTLE)) eqn:I1; cbn [andb] in Q; [|apply Q; auto; discriminate].
      destruct (kernel_allows (vh_f s) T_THROTTLE) eqn:I2; cbn [andb] in Q; [|apply Q; auto; discriminate].
      destruct (vh_read s) eqn:R; cbn [negb] in Q; [apply Q; auto; discriminate|]. clear Q.
      exists [RtEcu (EvPedal (Some (f_vs (vh_f s))))]. unfold step_ok.
      pose proof (or_tpc s O R) as PC. destruct S as [Se Sn Sl Ss Sv St S1].
      assert (NT : rt_nt x = 1) by (rewrite St, R; destruct (f_stage (vh_f s) T_THROTTLE); [discriminate|reflexivity..]).
      assert (RS : rt_step c tick x (RtEcu (EvPedal (Some (f_vs (vh_f s)))))
                   = mkTimed (ecu_step c tick (vh_e s) (EvPedal (Some (f_vs (vh_f s))))) (rt_nv x) 0).
      { unfold rt_step. rewrite Se, PC, NT. reflexivity. }
      split; [|split; [reflexivity|split; [cbn [keeps_up]; auto|split; [|split]]]].
      + cbn [fold_left]. rewrite RS. unfold veh_step. cbn zeta. rewrite I1, I2, R. cbn [andb negb].
        constructor; cbn [rt_ecu rt_nv rt_nt vh_f vh_e vh_read vh_decided]; auto.
        destruct (f_stage (vh_f s) T_THROTTLE); [discriminate|reflexivity..].
      + intros _. constructor; [exact I|constructor].
      + intros _. constructor; [reflexivity|constructor].
      + constructor; [exact I|constructor].
    - (* copy *)
      cut (sim N (veh_step c tick d s VCopy) x).
      { intros Q. exists []. unfold step_ok. cbn [fold_left ticks_in keeps_up veh_ticks]. auto 10. }
      unfold veh_step. cbn zeta. destruct (is_inside _ && _ && _); auto.
      destruct S. constructor; auto.
    - (* look *)
      cut (sim N (veh_step c tick d s VLook) x).
      { intros Q. exists []. unfold step_ok. cbn [fold_left ticks_in keeps_up veh_ticks]. auto 10. }
      unfold veh_step. cbn zeta. destruct (is_inside _ && _ && _); auto.
      destruct S. constructor; auto.
    - (* decide *)
      assert (Q := nothing s VDecide x).
      unfold veh_step in Q. cbn zeta in Q.
      destruct (is_running (f_stage (vh_f s) T_VSM)) eqn:I1; cbn [andb] in Q; [|apply Q; auto; discriminate].
      destruct (kernel_allows (vh_f s) T_VSM) eqn:I2; cbn [andb] in Q; [|apply Q; auto; discriminate].
      destruct (is_some (vh_snap s)) eqn:SN; cbn [andb] in Q; [|apply Q; auto; discriminate].
      destruct (vh_decided s) eqn:R; cbn [negb] in Q; [apply Q; auto; discriminate|]. clear Q.
      set (i := mkVsmIn (vh_snap s) (vh_live s)).
      exists [RtEcu (EvVsm i)]. unfold step_ok.
      pose proof (or_pend s O R) as PE. destruct S as [Se Sn Sl Ss Sv St S1].
      assert (NT : rt_nv x = 1) by (rewrite Sv, R; destruct (f_stage (vh_f s) T_VSM); [discriminate|reflexivity..]).
      assert (RS : rt_step c tick x (RtEcu (EvVsm i))
                   = mkTimed (ecu_step c tick (vh_e s) (EvVsm i)) 0 (rt_nt x)).
      { unfold rt_step. rewrite Se, PE, NT. reflexivity. }
      split; [|split; [reflexivity|split; [cbn [keeps_up]; auto|split; [|split]]]].
      + cbn [fold_left]. rewrite RS. unfold veh_step. cbn zeta. rewrite I1, I2, SN, R. cbn [andb negb].
        constructor; cbn [rt_ecu rt_nv rt_nt vh_f vh_e vh_read vh_decided]; auto.
        destruct (f_stage (vh_f s) T_VSM); [discriminate|reflexivity..].
      + intros _. constructor; [exact I|constructor].
      + intros _. constructor; [reflexivity|constructor].
      + constructor; [|constructor]. cbn [sees]. destruct (vh_snap s) as [v|] eqn:V; [|discriminate].
        exists v. auto.
    - (* the rest *)
      destruct (match ev with
        | EvVsm _ | EvPedal _ => false
        | EvReadEnabled | EvReadDir | EvReadDir2 | EvRequest _ _ =>
            is_running (f_stage (vh_f s) T_THROTTLE) && kernel_allows (vh_f s) T_THROTTLE && vh_read s
        | EvCmd _ _ _ _ => is_running (f_stage (vh_f s) T_VSM) && kernel_allows (vh_f s) T_VSM && vh_decided s
        | EvPcEcu _ => true
        end) eqn:G.
      2:{ apply nothing; auto; [|discriminate]. unfold veh_step. cbn zeta. now rewrite G. }
      exists [RtEcu ev]. unfold step_ok. destruct S as [Se Sn Sl Ss Sv St S1].
      assert (RS : rt_step c tick x (RtEcu ev) = mkTimed (ecu_step c tick (vh_e s) ev) (rt_nv x) (rt_nt x)).
      { rewrite <- Se. destruct ev; try discriminate; reflexivity. }
      split; [|split; [reflexivity|split; [cbn [keeps_up]; auto|split; [|split]]]].
      + cbn [fold_left]. rewrite RS. unfold veh_step. cbn zeta. rewrite G.
        constructor; cbn [rt_ecu rt_nv rt_nt with_e vh_f vh_e vh_read vh_decided]; auto.
      + intros H. constructor; [exact H|constructor].
      + intros H. constructor; [exact H|constructor].
      + constructor; [|constructor]. destruct ev; try exact I. discriminate.
  Qed.
End Sim.

Lemma veh_ticks_app : forall a b, veh_ticks (a ++ b) = veh_ticks a + veh_ticks b.
Proof. induction a as [|[] a IH]; intros b; cbn [veh_ticks app]; rewrite ?IH; lia. Qed.

Lemma veh_first_tick : forall b, 1 <= veh_ticks b ->
  exists b0 b1, b = b0 ++ VTick :: b1 /\ veh_ticks b0 = 0.
Proof.
  induction b as [|ev b IH]; cbn [veh_ticks]; intros H; [lia|].
  destruct ev; try (destruct (IH H) as (b0 & b1 & -> & Z); eexists (_ :: b0), b1; split; [reflexivity|exact Z]).
  exists [], b. auto.
Qed.

Lemma published_init : forall c tick m0 a b n cy, published c tick m0 a n cy -> published c tick m0 (a ++ b) n cy.
Proof.
  intros c tick m0 a b n cy (x & y & E & L). exists x, (y ++ b). split; auto. now rewrite E, app_assoc.
Qed.

Lemma now_mono_run : forall c tick m0 a b,
  f_now (vh_f (veh_run c tick m0 a)) <= f_now (vh_f (veh_run c tick m0 (a ++ b))).
Proof.
  intros c tick m0 a b. induction b as [|ev b IH] using rev_ind; [rewrite app_nil_r; lia|].
  rewrite app_assoc, veh_run_snoc. eapply Z.le_trans; [exact IH|apply now_mono].
Qed.

(** From a moment at which both control tasks wait. *)
Lemma sim_gen : forall c tick m0 a b (P : vstate -> Prop),
  veh_idle (veh_run c tick m0 a) -> veh_keeps_up c tick m0 a b ->
  (forall b1 b2 v at_, b = b1 ++ b2 -> vh_snap (veh_run c tick m0 (a ++ b1)) = Some v ->
     since (f_stage (vh_f (veh_run c tick m0 (a ++ b1))) T_VSM) = Some at_ ->
     f_now (vh_f (veh_run c tick m0 a)) < at_ -> P v) ->
  exists evs,
    sim (f_now (vh_f (veh_run c tick m0 a))) (veh_run c tick m0 (a ++ b))
      (fold_left (rt_step c tick) evs (mkTimed (vh_e (veh_run c tick m0 a)) 0 0)) /\
    ticks_in evs = veh_ticks b /\ keeps_up c tick (mkTimed (vh_e (veh_run c tick m0 a)) 0 0) evs /\
    (Forall veh_waits b -> Forall rt_waits evs) /\ (Forall veh_no_pc b -> Forall no_pc evs) /\
    Forall (sees (fun i => exists v, vi_snap i = Some v /\ P v)) evs.
Proof.
  intros c tick m0 a b P ID. set (N := f_now (vh_f (veh_run c tick m0 a))).
  induction b as [|ev b IH] using rev_ind; intros K H.
  - exists []. rewrite app_nil_r. cbn [fold_left ticks_in veh_ticks keeps_up].
    destruct (ID T_THROTTLE (or_introl eq_refl)) as (Wt & Nt).
    destruct (ID T_VSM (or_intror (or_introl eq_refl))) as (Wv & Nv).
    split; [|auto 10].
    constructor; cbn [rt_ecu rt_nv rt_nt]; rewrite ?Wt, ?Wv, ?Nt, ?Nv; cbn [owed since]; auto; try lia.
    + discriminate.
    + intros t IN. destruct (ID t IN) as (W & Z). rewrite W, Z. split; [lia|congruence].
  - destruct IH as (evs & S & TK & KU & W & NP & SE).
    + intros b1 b2 E. apply (K b1 (b2 ++ [ev])). rewrite E, <- app_assoc. reflexivity.
    + intros b1 b2 v at_ E. apply (H b1 (b2 ++ [ev]) v at_). now rewrite E, app_assoc.
    + assert (KI : ev = VTick -> veh_idle (veh_run c tick m0 (a ++ b))).
      { intros ->. apply (K b []). reflexivity. }
      destruct (sim_step c tick N _ ev _ (order_run c tick m0 (a ++ b))
                  (times_run c tick m0 (a ++ b)) KI S) as (e2 & S2 & TK2 & KU2 & W2 & NP2 & SE2).
      exists (evs ++ e2). rewrite app_assoc, veh_run_snoc, fold_left_app.
      split; [exact S2|]. split; [rewrite ticks_app, veh_ticks_app; lia|].
      split; [apply keeps_up_app; auto|].
      split; [intros F; apply Forall_app in F; destruct F as (F1 & F2); inversion F2; subst; apply Forall_app; auto|].
      split; [intros F; apply Forall_app in F; destruct F as (F1 & F2); inversion F2; subst; apply Forall_app; auto|].
      apply Forall_app. split; [exact SE|].
      eapply Forall_impl; [|exact SE2]. intros e. destruct e as [|[]]; cbn [sees]; auto.
      intros (v & V1 & V2). exists v. split; auto.
      destruct (since (f_stage (vh_f (veh_run c tick m0 (a ++ b))) T_VSM)) as [at_|] eqn:SI.
      * apply (H b [ev] v at_); auto. exact (sm_late _ _ _ S at_ SI).
      * apply since_waiting in SI.
        destruct (or_snap _ (order_run c tick m0 (a ++ b)) SI). congruence.
Qed.

Lemma stopped_veh : forall (np : Prop) c tick m0 a b, (np -> Forall veh_no_pc b) ->
  stopped np (vh_e (veh_run c tick m0 a)) -> stopped np (vh_e (veh_run c tick m0 (a ++ b))).
Proof.
  intros np c tick m0 a b. induction b as [|ev b IH] using rev_ind; intros NP S; [now rewrite app_nil_r|].
  rewrite app_assoc, veh_run_snoc.
  assert (S1 : stopped np (vh_e (veh_run c tick m0 (a ++ b)))).
  { apply IH; auto. intros n. specialize (NP n). now apply Forall_app in NP. }
  destruct (step_e c tick (ds_from_config c) (veh_run c tick m0 (a ++ b)) ev) as [E|(e & E & K)]; rewrite E; auto.
  apply stopped_step; auto. intros n. specialize (NP n). apply Forall_app in NP. destruct NP as (_ & NP).
  inversion NP; subst. destruct ev; try contradiction; try (subst e; reflexivity).
  destruct K as (-> & _). assumption.
Qed.

(** Every snapshot the state manager takes from a moment on shows the fault. *)
Lemma snap_reaction : forall (np : Prop) c tick m0 a b k, cfg_ok c tick -> tol_small c tick ->
  vsm_init c tick = Some m0 -> vm_state (e_vsm (vh_e (veh_run c tick m0 a))) <> StInit ->
  veh_idle (veh_run c tick m0 a) -> veh_keeps_up c tick m0 a b -> Forall veh_waits b ->
  (forall b1 b2 v at_, b = b1 ++ b2 -> vh_snap (veh_run c tick m0 (a ++ b1)) = Some v ->
     since (f_stage (vh_f (veh_run c tick m0 (a ++ b1))) T_VSM) = Some at_ ->
     f_now (vh_f (veh_run c tick m0 a)) < at_ -> fault_cond c k v = true) ->
  0 <= tolerance c tick k -> tolerance c tick k + 3 <= veh_ticks b -> (np -> Forall veh_no_pc b) ->
  stopped np (vh_e (veh_run c tick m0 (a ++ b))).
Proof.
  intros np c tick m0 a b k HC HT HI NI ID K W SN T0 TK NP.
  destruct (sim_gen c tick m0 a b (fun v => fault_cond c k v = true) ID K SN) as (evs & S & TE & KU & WE & NE & SE).
  specialize (WE W). rewrite <- (sm_e _ _ _ S).
  apply (reaction_from np c tick m0 _ evs k); auto; try lia.
  cbn [rt_ecu]. apply hist_veh.
Qed.

Lemma not_init_later : forall c tick m0 a b, vsm_init c tick = Some m0 ->
  vm_state (e_vsm (vh_e (veh_run c tick m0 a))) <> StInit ->
  vm_state (e_vsm (vh_e (veh_run c tick m0 (a ++ b)))) <> StInit.
Proof.
  intros c tick m0 a b HI NI. destruct (hist_veh c tick m0 a) as (h & V & Q).
  assert (HH : hist c tick (e_vsm (vh_e (veh_run c tick m0 a))) (vh_e (veh_run c tick m0 (a ++ b)))).
  { clear - Q. induction b as [|ev b IH] using rev_ind; [rewrite app_nil_r; now apply hist_refl|].
    rewrite app_assoc, veh_run_snoc.
    destruct (step_e c tick (ds_from_config c) (veh_run c tick m0 (a ++ b)) ev) as [S|(e & S & _)]; rewrite S; auto.
    now apply hist_step. }
  destruct HH as (h2 & V2 & _). rewrite V2. apply never_back; auto. rewrite V. now apply run_init_inv.
Qed.

Lemma sensor_reaction : forall (np : Prop) c tick m0 a b k, cfg_ok c tick -> tol_small c tick ->
  vsm_init c tick = Some m0 -> vm_state (e_vsm (vh_e (veh_run c tick m0 a))) <> StInit ->
  veh_not_starved c tick m0 (a ++ b) -> veh_keeps_up c tick m0 a b -> Forall veh_waits b ->
  (forall n cy, published c tick m0 (a ++ b) n cy -> f_now (vh_f (veh_run c tick m0 a)) < n -> cycle_shows c k cy) ->
  0 <= tolerance c tick k -> tolerance c tick k + 3 <= veh_ticks b -> (np -> Forall veh_no_pc b) ->
  stopped np (vh_e (veh_run c tick m0 (a ++ b))).
Proof.
  intros np c tick m0 a b k HC HT HI NI NS K W PU T0 TK NP.
  destruct (veh_first_tick b) as (b0 & b1 & -> & Z0); [lia|].
  pose proof (K b0 b1 eq_refl) as ID.
  set (b' := VTick :: b1) in *. rewrite app_assoc in NS, PU |- *. set (a' := a ++ b0) in *.
  assert (NW : f_now (vh_f (veh_run c tick m0 a)) <= f_now (vh_f (veh_run c tick m0 a'))) by apply now_mono_run.
  apply Forall_app in W. destruct W as (_ & W). rewrite veh_ticks_app, Z0 in TK.
  apply (snap_reaction np c tick m0 a' b' k); auto; try lia.
  - now apply not_init_later.
  - intros x y E. unfold a'. rewrite <- app_assoc. apply (K (b0 ++ x) y). now rewrite E, <- app_assoc.
  - intros x y v at_ E SN SI L. rewrite E, app_assoc in NS.
    destruct (snap_current c tick m0 (a' ++ x) v (not_starved_init _ _ _ _ _ NS) SN)
      as (at2 & n & cy & SI2 & L2 & P & SH & _).
    rewrite SI in SI2. injection SI2 as <-.
    apply (PU n cy); [|lia|exact SH]. rewrite E, app_assoc. now apply published_init.
  - intros n. specialize (NP n). now apply Forall_app in NP.
Qed.

Lemma stopped_veh_silent : forall (np : Prop) c tick s ev t, stopped np (vh_e s) ->
  veh_sends c tick s ev t -> asks_torque t = false.
Proof.
  intros np c tick s ev t S SN. destruct (veh_sends_ecu _ _ _ _ _ SN) as (e & l & _ & E & IN & _).
  destruct (frames_added c tick (vh_e s) e) as (l' & E' & _ & F).
  rewrite E in E'. apply app_inv_head in E'. subst l'.
  destruct (asks_torque t) eqn:A; auto.
  destruct (F t IN A) as (L & _). rewrite (st_unloaded _ _ S) in L. discriminate.
Qed.

(** ** Checking concrete runs *)
Definition veh_idleb (s : vehicle) : bool :=
  forallb (fun t => is_waiting (f_stage (vh_f s) t) && (f_note (vh_f s) t =? 0)) [T_THROTTLE; T_VSM].
(** Along the run: the sensing task is not starved, ticks find idle tasks, and
    published cycles satisfy [p]. *)
Fixpoint veh_checkb (c : config) (tick : Z) (idl : bool) (p : Z -> ds_cycle -> bool) (s : vehicle)
         (tr : list veh_event) : bool :=
  (f_wait (vh_f s) <? 4294967296) &&
  match f_last (vh_f s) with Some (n, cy) => p n cy | None => true end &&
  match tr with
  | [] => true
  | ev :: t =>
      match ev with VTick => negb idl || veh_idleb s | _ => true end &&
      veh_checkb c tick idl p (veh_step c tick (ds_from_config c) s ev) t
  end.

Lemma veh_idleb_ok : forall s, veh_idleb s = true -> veh_idle s.
Proof.
  intros s H t IN. unfold veh_idleb in H. rewrite forallb_forall in H. specialize (H t IN).
  apply andb_prop in H. destruct H as (A & B). apply is_waiting_iff in A. split; [auto|lia].
Qed.

Lemma checkb_prefix : forall c tick idl p tr s a b, veh_checkb c tick idl p s tr = true -> tr = a ++ b ->
  let x := fold_left (veh_step c tick (ds_from_config c)) a s in
  f_wait (vh_f x) < 4294967296 /\
  (forall n cy, f_last (vh_f x) = Some (n, cy) -> p n cy = true) /\
  (idl = true -> forall b', b = VTick :: b' -> veh_idle x).
Proof.
  induction tr as [|ev tr IH]; intros s a b H E.
  - destruct a; [|discriminate]. cbn [veh_checkb] in H. apply andb_prop in H. destruct H as (H & _).
    apply andb_prop in H. destruct H as (H1 & H2). cbn [app] in E. subst b. cbn [fold_left]. cbv zeta.
    split; [lia|]. split; [intros n cy L; now rewrite L in H2|]. intros _ b' Q. discriminate.
  - cbn [veh_checkb] in H. apply andb_prop in H. destruct H as (H & H3).
    apply andb_prop in H. destruct H as (H1 & H2). apply andb_prop in H3. destruct H3 as (H3 & H4).
    destruct a as [|e a].
    + cbn [app] in E. subst b. cbn [fold_left]. cbv zeta.
      split; [lia|]. split; [intros n cy L; now rewrite L in H2|]. intros -> b' Q. injection Q as -> _.
      cbn [negb orb] in H3. now apply veh_idleb_ok.
    + cbn [app] in E. injection E as <- E. cbn [fold_left]. exact (IH _ a b H4 E).
Qed.

Lemma checkb_ok : forall c tick m0 idl p tr, veh_checkb c tick idl p (veh_init m0) tr = true ->
  veh_not_starved c tick m0 tr /\ (forall n cy, published c tick m0 tr n cy -> p n cy = true) /\
  (idl = true -> forall a b, tr = a ++ b -> veh_keeps_up c tick m0 a b).
Proof.
  intros c tick m0 idl p tr H. split; [|split].
  - intros a b E. apply (checkb_prefix c tick idl p tr _ a b H E).
  - intros n cy (a & b & E & L). destruct (checkb_prefix c tick idl p tr _ a b H E) as (_ & Q & _). exact (Q n cy L).
  - intros I a b -> b1 b2 ->. rewrite app_assoc in H.
    destruct (checkb_prefix c tick idl p _ _ (a ++ b1) (VTick :: b2) H eq_refl) as (_ & _ & Q). exact (Q I b2 eq_refl).
Qed.

(** ** Sensors that disagree *)
Lemma fabs_R : forall x, fin x -> fin (fabs x) /\ FR (fabs x) = Rabs (FR x).
Proof.
  intros x (O & F). destruct x as [s|s| |s m e]; try discriminate.
  - split; [split; reflexivity|]. change (FR (fabs (S754_zero s))) with 0%R.
    change (FR (S754_zero s)) with 0%R. now rewrite Rabs_R0.
  - split; [split; [exact O|reflexivity]|]. change (fabs (S754_finite s m e)) with (S754_finite false m e).
    rewrite !FR_finite, Rabs_mult, (Rabs_pos_eq (bpow radix2 e)) by apply bpow_ge_0.
    f_equal. rewrite <- abs_IZR. f_equal. destruct s; reflexivity.
Qed.

Lemma rnd_near : forall r, (0 <= r <= 1)%R -> (r - / 1000000 <= rnd r <= r + / 1000000)%R.
Proof.
  intros r H. destruct (rnd_err r) as (x & y & X & Y & ->).
  rewrite bpow_neg_val in X, Y by lia.
  assert (E1 : (/ IZR (2 ^ 24) <= / 10000000)%R).
  { change (2 ^ 24) with 16777216. lra. }
  assert (E2 : (/ IZR (2 ^ 150) <= / 10000000)%R).
  { apply Rinv_le; [lra|]. apply IZR_le. vm_compute. discriminate. }
  apply Rabs_le_inv in X. apply Rabs_le_inv in Y. nra.
Qed.

Lemma raw_disagree : forall c cy,
  ci_calA (cf_inputs c) = mkCal 0 4095 -> ci_calB (cf_inputs c) = mkCal 0 4095 ->
  ci_consistencyLimit (cf_inputs c) = f_lit 1 10 -> both_read cy ->
  0 <= snd (cy_A cy) <= 4095 -> 0 <= snd (cy_B cy) <= 4095 ->
  411 <= Z.abs (snd (cy_A cy) - snd (cy_B cy)) -> cycle_shows c AccelDisagree cy.
Proof.
  intros c cy CA CB CL (RA & RB) A B D v SH.
  destruct SH as (HA & HB & _). destruct (HA RA) as (EA & _). destruct (HB RB) as (EB & _). clear HA HB.
  cbn [fault_cond]. rewrite EA, EB, CL.
  unfold ds_from_config, of_cal. cbn [ds_accelA ds_accelB]. rewrite CA, CB. cbn [c_rawLower c_rawUpper].
  assert (V : forall r, 0 <= r <= 4095 -> fin (ADC_ApplyScaling (mkScaling 0 4095 true) r) /\
            (0 <= FR (ADC_ApplyScaling (mkScaling 0 4095 true) r) <= 1)%R /\
            (IZR r / 4095 - / 1000000 <= FR (ADC_ApplyScaling (mkScaling 0 4095 true) r) <= IZR r / 4095 + / 1000000)%R).
  { intros r H. destruct (scale_R 0 4095 true r) as (F & W); [unfold is_u16; lia..|].
    assert (L : linear 0 4095 r = (IZR r / 4095)%R) by (unfold linear; rewrite Z.sub_0_r; reflexivity).
    rewrite L in W.
    assert (R : (0 <= IZR r / 4095 <= 1)%R).
    { assert (0 <= IZR r <= 4095)%R by (split; apply IZR_le; lia). lra. }
    assert (Q : (0 <= rnd (IZR r / 4095) <= 1)%R).
    { split; [rewrite <- rnd_0|rewrite <- (rnd_IZR 1) by lia]; apply rnd_le; lra. }
    rewrite (clip_id _ Q) in W. rewrite W. repeat split; try apply F; try apply Q; apply rnd_near; auto. }
  destruct (V _ A) as (FA & GA & NA). destruct (V _ B) as (FB & GB & NB). clear V.
  destruct (fsub_R _ _ FA FB) as (FS & VS).
  { apply fits_IZR with 1; [lia|]. apply Rabs_le. lra. }
  destruct (fabs_R _ FS) as (FF & VF).
  rewrite (flt_R _ _ fin_tenth FF). apply Rlt_bool_true. rewrite VF, VS.
  assert (T : (FR (f_lit 1 10) <= / 10 + / 1000000)%R).
  { vm_compute (f_lit 1 10). rewrite FR_finite, bpow_neg_val by lia. cbn. lra. }
  set (x := FR (ADC_ApplyScaling (mkScaling 0 4095 true) (snd (cy_A cy)))) in *.
  set (y := FR (ADC_ApplyScaling (mkScaling 0 4095 true) (snd (cy_B cy)))) in *.
  destruct (Z_le_gt_dec (snd (cy_B cy)) (snd (cy_A cy))) as [G|G].
  - assert (K : (411 <= IZR (snd (cy_A cy)) - IZR (snd (cy_B cy)))%R)
      by (rewrite <- minus_IZR; apply IZR_le; lia).
    assert (0 <= x - y <= 1)%R by lra. pose proof (rnd_near _ H). rewrite Rabs_pos_eq; lra.
  - assert (K : (411 <= IZR (snd (cy_B cy)) - IZR (snd (cy_A cy)))%R)
      by (rewrite <- minus_IZR; apply IZR_le; lia).
    assert (0 <= y - x <= 1)%R by lra. pose proof (rnd_near _ H).
    assert (N : rnd (x - y) = (- rnd (y - x))%R).
    { unfold rnd. replace (x - y)%R with (- (y - x))%R by lra. apply round_NE_opp. }
    rewrite N, Rabs_Ropp, Rabs_pos_eq; lra.
Qed.
