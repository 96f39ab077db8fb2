From Coq Require Import Reals Psatz.
From Coq Require Import Floats.SpecFloat.
From Verif.Base Require Import F32Real.
From Verif.Model Require Import Ecu.
From Verif.Spec Require Import InverterSpec EcuSpec.
From Verif.Proof Require Import F32Facts TorqueProof InverterCmdProof VsmProof EcuProof.
Open Scope Z_scope.

Definition frame_good (t : tx) : Prop :=
  tx_id t = 0x0C0 /\ 0 <= frame_torque (tx_data t) <= 5000 /\
  frame_direction (tx_data t) = DIR_FORWARD /\ frame_discharge (tx_data t) = false.

Definition torque_good (q : f32) : Prop := fin q /\ (0 <= FR q <= 500)%R.

Record ranges (e : ecu) : Prop := mkRanges {
  rg_sent : Forall frame_good (e_sent e);
  rg_bad : e_bad e = false;
  rg_dis : ic_discharge (e_inv e) = false;
  rg_pc : match e_tpc e with
          | TIdle => True
          | TPedal a | TOn a => f_ok a = true
          | TTorque q => torque_good q
          | TRequest q d => torque_good q /\ d = DIR_FORWARD
          end }.

Lemma zero_good : torque_good f_zero.
Proof. split; [split; reflexivity|]. change (FR f_zero) with 0%R. lra. Qed.

Lemma zero_tx_good : forall ok en, frame_good (zero_tx ok en false).
Proof. intros ok []; repeat split; vm_compute; congruence. Qed.

Lemma request_good : forall l ok c q, torque_good q -> ic_discharge c = false ->
  exists r, SendTorqueCommand l ok c q DIR_FORWARD = Some r /\ ir_cmd r = c /\
    Forall frame_good (ir_tx r).
Proof.
  intros l ok c q (F & B) D. unfold SendTorqueCommand.
  assert (R : in_range q) by (unfold in_range; rewrite max_val; lra).
  rewrite (proj2 (range_test q F) R).
  destruct l; cbn [negb]; [|eexists; split; [reflexivity|split; [reflexivity|constructor]]].
  destruct (ic_enabled c); cbn [negb];
    [|eexists; split; [reflexivity|split; [reflexivity|constructor]]].
  destruct (torque_field q F R) as (m & M & B' & _). unfold SendCANCommand. rewrite M.
  eexists. split; [reflexivity|]. split; [reflexivity|]. cbn [ir_tx].
  constructor; [|constructor].
  destruct (torque_field_err q m F R M) as [E1 E2].
  assert (HM : m <= 5000).
  { apply Z.lt_succ_r. apply lt_IZR. unfold Z.succ. rewrite plus_IZR. lra. }
  repeat split; cbn [tx_data].
  - rewrite enc_torque by lia. lia.
  - rewrite enc_torque by lia. lia.
Qed.

Lemma ranges_step : forall c tick e ev, base e -> pedal_ok ev -> ranges e ->
  ranges (ecu_step c tick e ev).
Proof.
  intros c tick e ev B OK [R1 R2 R3 R4]. pose proof B as [_ _ _ _ (F1 & F2 & F3)].
  destruct ev as [i|tl il ok1 ok2|live| | | |il ok|on]; cbn [ecu_step pedal_ok] in *.
  - destruct (e_pend e); [constructor; auto|]. destruct (vsm_step _ _ _ _). constructor; auto.
  - destruct (e_pend e) as [[[|[] l] m']|]; try (constructor; auto; fail).
    cbn [ecu_call]. unfold SendInverterEnabled. rewrite R3.
    destruct il; cbn [negb andb]; constructor; cbn; auto.
    + apply Forall_app. split; auto. apply Forall_app. split.
      * destruct (negb _ && _); constructor; [apply zero_tx_good|constructor].
      * constructor; [apply zero_tx_good|constructor].
    + rewrite app_nil_r. auto.
  - destruct (e_tpc e) eqn:E; constructor; cbn; rewrite ?E; auto.
  - destruct (e_tpc e) eqn:E; constructor; cbn; rewrite ?E; auto.
    destruct (th_enabled (e_thr e)); auto. apply zero_good.
  - destruct (e_tpc e) eqn:E; constructor; cbn; rewrite ?E; auto.
    unfold getTorqueMagnitude. rewrite F1, F3. cbn [negb]. rewrite Z.eqb_refl.
    apply (envelope_fwd accel R4).
  - destruct (e_tpc e) eqn:E; constructor; cbn; rewrite ?E; auto.
  - destruct (e_tpc e) as [| | | |q d] eqn:E; try (constructor; cbn; rewrite ?E; auto; fail).
    destruct R4 as (Q & ->). destruct (request_good il ok (e_inv e) q Q R3) as (r & -> & RC & RF).
    constructor; cbn; auto.
    + apply Forall_app. auto.
    + now rewrite RC.
  - constructor; auto.
Qed.

Lemma ranges_run : forall c tick m0 es, vsm_init c tick = Some m0 -> Forall pedal_ok es ->
  ranges (ecu_run c tick m0 es).
Proof.
  intros c tick m0 es HI. induction es as [|ev es IH] using rev_ind; intros P.
  - constructor; cbn; auto.
  - apply Forall_app in P. destruct P as (P & Pv). inversion Pv; subst.
    rewrite ecu_run_snoc. apply ranges_step; auto. apply (run_base c tick m0 es HI).
Qed.
