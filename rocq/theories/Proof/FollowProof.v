From Coq Require Import Reals Lia ZifyBool ZifyNat.
From Verif.Base Require Import Words F32Real.
From Verif.Model Require Import Vehicle.
From Verif.Spec Require Import FreshSpec SenseSpec InverterSpec EcuSpec TorqueSpec VehicleSpec CommandSpec FollowSpec.
From Verif.Proof Require Import F32Facts TorqueProof InverterCmdProof VsmProof EcuProof EcuFrames EcuPedal FreshProof
  VehicleProof VehicleClaims CommandProof.
Open Scope Z_scope.

Lemma e_proj_waits : forall c tick m0 tr, Forall veh_waits tr ->
  exists es, vh_e (veh_run c tick m0 tr) = ecu_run c tick m0 es /\ Forall waits es.
Proof.
  intros c tick m0 tr. induction tr as [|ev tr IH] using rev_ind; intros W.
  - exists []. split; [reflexivity|constructor].
  - apply Forall_app in W. destruct W as (W & We). inversion We as [|x y WE _]; subst.
    destruct (IH W) as (es & E & P).
    destruct (step_e c tick (ds_from_config c) (veh_run c tick m0 tr) ev) as [S|(e & S & K)].
    + exists es. now rewrite veh_run_snoc, S.
    + exists (es ++ [e]). rewrite veh_run_snoc, S, ecu_run_snoc, <- E. split; auto.
      apply Forall_app. split; auto. constructor; [|constructor].
      destruct ev; try contradiction; try (subst e; exact Logic.I). destruct K as (-> & _). exact WE.
Qed.

Lemma drives_enabled : forall c tick m0 tr, vsm_init c tick = Some m0 -> Forall veh_waits tr ->
  drives_on (veh_run c tick m0 tr) -> th_enabled (e_thr (vh_e (veh_run c tick m0 tr))) = true.
Proof.
  intros c tick m0 tr HI W (S & P). destruct (e_proj_waits c tick m0 tr W) as (es & E & WE).
  destruct (run_base c tick m0 es HI) as (_ & EN & _). specialize (EN WE). cbv zeta in EN.
  rewrite <- E in EN. rewrite EN. unfold enabled_at. rewrite S.
  destruct (e_pend (vh_e (veh_run c tick m0 tr))) as [[[|x l] m']|] eqn:Q; try reflexivity.
  cbn [done_calls towards]. now rewrite (P _ _ eq_refl).
Qed.

(** ** The activation began after the last tick but one *)
Definition late (n : Z) (s : vehicle) : Prop :=
  n <= f_now (vh_f s) /\
  (f_note (vh_f s) T_THROTTLE <> 0 -> n < f_now (vh_f s)) /\
  (forall at_, since (f_stage (vh_f s) T_THROTTLE) = Some at_ -> n < at_).

Lemma late_step : forall c tick d n s ev, late n s -> late n (veh_step c tick d s ev).
Proof.
  intros c tick d n s ev (L & N & A).
  assert (SAME : vh_f (veh_step c tick d s ev) = vh_f s -> late n (veh_step c tick d s ev)).
  { intros E. unfold late. rewrite E. auto. }
  unfold veh_step in *. destruct ev; cbn zeta in *.
  - unfold late. cbn [with_f vh_f fresh_step f_now f_note f_stage]. split; [lia|]. split; [lia|exact A].
  - destruct (on_timer t) eqn:OT; [auto|].
    assert (NE : T_THROTTLE <> t) by (intros <-; discriminate).
    unfold late. cbn [with_f vh_f fresh_step]. destruct (t =? T_SENSE); cbn [f_now f_note f_stage];
      rewrite ?put_other by auto; auto.
  - destruct (may s t a); [|auto]. unfold late. cbn [with_f vh_f].
    destruct (run_act d (vh_f s) t a) as [E|E]; rewrite E; auto.
    rewrite act_now. split; [exact L|].
    destruct (act_cases d (vh_f s) t a T_THROTTLE) as [(S & Q)|[(ET & W & NZ & S & Q)|(_ & _ & _ & S & Q)]]; rewrite Q, S; cbn [since]; auto.
    + split; [congruence|]. intros at_ Z. injection Z as <-. apply N.
      intros Z. apply NZ. rewrite <- ET. exact Z.
    + split; [exact N|discriminate].
  - apply SAME. destruct (is_inside _ && _ && _); reflexivity.
  - apply SAME. destruct (is_inside _ && _ && _); reflexivity.
  - apply SAME. destruct (is_inside _ && _ && _); reflexivity.
  - apply SAME. destruct (is_running _ && _ && _ && _); reflexivity.
  - apply SAME. match goal with |- context [if ?b then _ else _] => destruct b end; reflexivity.
Qed.

Lemma late_run : forall c tick m0 a b, thr_idle (veh_run c tick m0 a) ->
  late (f_now (vh_f (veh_run c tick m0 a))) (veh_run c tick m0 (a ++ b)).
Proof.
  intros c tick m0 a b (W & N). induction b as [|ev b IH] using rev_ind.
  - rewrite app_nil_r. unfold late. rewrite W, N. split; [lia|]. split; [congruence|discriminate].
  - rewrite app_assoc, veh_run_snoc. now apply late_step.
Qed.

(** ** The magnitude is that of the pedal *)
Definition follows c tick m0 tr : Prop :=
  match e_tpc (vh_e (veh_run c tick m0 tr)) with
  | TTorque q | TRequest q _ => exists x, from_pedal c tick m0 tr x /\ q = TorqueMap_Interpolate TorqueMap_Default x
  | _ => True
  end.

Lemma follows_run : forall c tick m0 a b, vsm_init c tick = Some m0 -> calibrated c ->
  veh_not_starved c tick m0 (a ++ b) -> readings_u16 c tick m0 (a ++ b) -> Forall veh_waits (a ++ b) ->
  thr_idle (veh_run c tick m0 a) -> drives_through c tick m0 a b -> follows c tick m0 (a ++ b).
Proof.
  intros c tick m0 a b HI CA. induction b as [|ev b IH] using rev_ind; intros NS U W ID DR.
  - rewrite app_nil_r. unfold follows. destruct ID as (ID & _).
    pose proof (order_run c tick m0 a) as O. now rewrite (or_tpc _ O (or_read _ O ID)).
  - assert (DT : drives_through c tick m0 a b).
    { intros b1 b2 ->. apply (DR b1 (b2 ++ [ev])). now rewrite app_assoc. }
    assert (DN : drives_on (veh_run c tick m0 (a ++ b))) by (apply (DR b [ev]); reflexivity).
    rewrite app_assoc in *. pose proof (not_starved_init _ _ _ _ _ NS) as NS'. pose proof (u16_init _ _ _ _ _ U) as U'.
    apply Forall_app in W. destruct W as (W & _). specialize (IH NS' U' W ID DT).
    pose proof (drives_enabled c tick m0 (a ++ b) HI W DN) as EN.
    pose proof (thr_origin_run c tick m0 (a ++ b) HI CA NS' U') as OR.
    set (tr := a ++ b) in *. clearbody tr.
    pose proof (order_run c tick m0 (tr ++ [ev])) as O'.
    assert (NW : e_tpc (vh_e (veh_run c tick m0 (tr ++ [ev]))) <> TIdle ->
                 f_stage (vh_f (veh_run c tick m0 (tr ++ [ev]))) T_THROTTLE <> Waiting).
    { intros N Q. apply N. apply (or_tpc _ O'). now apply (or_read _ O'). }
    assert (SAME : e_tpc (vh_e (veh_run c tick m0 (tr ++ [ev]))) = e_tpc (vh_e (veh_run c tick m0 tr)) ->
                   follows c tick m0 (tr ++ [ev])).
    { intros E. unfold follows in *. rewrite E in *.
      destruct (e_tpc (vh_e (veh_run c tick m0 tr))); auto.
      - destruct IH as (x & F & ->). exists x. split; auto. apply from_more; auto. apply NW. discriminate.
      - destruct IH as (x & F & ->). exists x. split; auto. apply from_more; auto. apply NW. discriminate. }
    destruct (e_proj c tick m0 tr CA U') as (es & EE & PO).
    destruct (run_base c tick m0 es HI) as ([_ _ _ _ (F1 & F2 & F3)] & _). rewrite <- EE in F1, F2, F3.
    unfold follows, thr_origin in *. rewrite veh_run_snoc in SAME, NW |- *.
    set (s := veh_run c tick m0 tr) in *. set (d := ds_from_config c) in *.
    destruct (step_e c tick d s ev) as [E|(e & E & K)].
    { apply SAME. now rewrite E. }
    destruct (is_vsm e) eqn:IV; [apply SAME; rewrite E; apply tpc_other; auto|].
    destruct (is_pc e) eqn:IP; [apply SAME; rewrite E; apply tpc_other; auto|].
    rewrite E in *.
    destruct ev; try contradiction; [|subst e; discriminate|destruct K as (-> & K)].
    + subst e. cbn [ecu_step] in *. destruct (e_tpc (vh_e s)) eqn:PC; try (apply SAME; exact PC). exact Logic.I.
    + assert (FM : forall x, from_pedal c tick m0 tr x -> f_stage (vh_f (veh_step c tick d s (VWork ev))) T_THROTTLE <> Waiting ->
              from_pedal c tick m0 (tr ++ [VWork ev]) x).
      { intros x F N. apply from_more; auto. now rewrite veh_run_snoc. }
      destruct ev as [i|tl il ok1 ok2|live| | | |il ok|on]; try discriminate; cbn [ecu_step] in *.
      * destruct (e_tpc (vh_e s)) eqn:PC; try (apply SAME; exact PC). cbn [set_tpc e_tpc] in *.
        rewrite EN. exact Logic.I.
      * destruct (e_tpc (vh_e s)) eqn:PC; try (apply SAME; exact PC). cbn [set_tpc e_tpc] in *.
        exists accel. split; [apply FM; auto; apply NW; discriminate|].
        unfold getTorqueMagnitude. rewrite F1, F3. cbn [negb]. now rewrite Z.eqb_refl.
      * destruct (e_tpc (vh_e s)) eqn:PC; try (apply SAME; exact PC). cbn [set_tpc e_tpc] in *.
        destruct IH as (x & F & ->). exists x. split; auto. apply FM; auto. apply NW. discriminate.
      * destruct (e_tpc (vh_e s)) eqn:PC; try (apply SAME; exact PC).
        destruct (SendTorqueCommand _ _ _ _ _); exact Logic.I.
Qed.

Lemma command_follows : forall c tick m0 a b b1 t, vsm_init c tick = Some m0 -> calibrated c ->
  veh_not_starved c tick m0 (a ++ b) -> readings_u16 c tick m0 (a ++ b) -> Forall veh_waits (a ++ b) ->
  thr_idle (veh_run c tick m0 a) -> drives_through c tick m0 a b ->
  (forall n cy, published c tick m0 (a ++ b) n cy -> f_now (vh_f (veh_run c tick m0 a)) < n -> both_read cy) ->
  command_at c tick m0 a b b1 t ->
  exists at_ n cy y,
    f_stage (vh_f (veh_run c tick m0 (a ++ b1))) T_THROTTLE = Running at_ /\
    f_now (vh_f (veh_run c tick m0 a)) < at_ /\
    at_ <= n <= f_now (vh_f (veh_run c tick m0 (a ++ b1))) /\
    published c tick m0 (a ++ b1) n cy /\
    pedal_torque (pedal_of c cy) y /\ stands_for (frame_torque (tx_data t)) y.
Proof.
  intros c tick m0 a b b1 t HI CA NS U W ID DR BR (ev & b2 & -> & RQ & IN).
  rewrite app_assoc in NS, U, W. pose proof (not_starved_init _ _ _ _ _ NS) as NS'.
  assert (U' : readings_u16 c tick m0 (a ++ b1)).
  { intros n cy P. apply (U n cy). now apply published_init. }
  pose proof W as W0. apply Forall_app in W0. destruct W0 as (W' & _).
  assert (DT : drives_through c tick m0 a b1).
  { intros x y ->. apply (DR x (y ++ ev :: b2)). now rewrite app_assoc. }
  pose proof (follows_run c tick m0 a b1 HI CA NS' U' W' ID DT) as FO.
  destruct (late_run c tick m0 a b1 ID) as (_ & _ & LA).
  destruct (e_proj c tick m0 (a ++ b1) CA U') as (es & EE & PO).
  pose proof (ranges_run c tick m0 es HI PO) as [_ _ _ RG]. rewrite <- EE in RG.
  set (s := veh_run c tick m0 (a ++ b1)) in *.
  destruct (fires s ev) eqn:F; [|rewrite quiet_event in IN by auto; destruct IN].
  unfold fires in F.
  apply andb_prop in F. destruct F as (F & PC). apply andb_prop in F. destruct F as (F & RD).
  apply andb_prop in F. destruct F as (F & KA). apply andb_prop in F. destruct F as (_ & RU).
  destruct ev as [| | | | | | |ev]; try discriminate. destruct ev as [| | | | | |il ok|]; try discriminate.
  destruct (sent_grows c tick s (VWork (EvRequest il ok))) as (l & E & H). rewrite H in IN.
  unfold veh_step in E. cbn zeta in E. rewrite RU, KA, RD in E. cbn [andb with_e vh_e ecu_step] in E.
  unfold follows in FO. fold s in FO. destruct (e_tpc (vh_e s)) as [| | | |q dd]; try discriminate.
  destruct (SendTorqueCommand il ok (e_inv (vh_e s)) q dd) as [r|] eqn:SR; cbn [e_sent] in E;
    [|rewrite <- (app_nil_r (e_sent _)) in E at 1; apply app_inv_head in E; subst l; destruct IN].
  apply app_inv_head in E. rewrite <- E in IN. destruct RG as (_ & ->).
  destruct FO as (x & (v & (at_ & n & cy & SI & L & P & SH & _) & -> & OK) & ->).
  destruct (request_origin _ _ _ _ _ _ SR IN OK) as (_ & y & Y1 & Y2).
  fold s in SI, L. specialize (LA at_ SI).
  assert (RUN : f_stage (vh_f s) T_THROTTLE = Running at_).
  { destruct (f_stage (vh_f s) T_THROTTLE); try discriminate. injection SI as ->. reflexivity. }
  assert (B : both_read cy).
  { apply (BR n cy); [|lia]. rewrite app_assoc. now apply published_init. }
  exists at_, n, cy, y. rewrite <- (shown_pedal c cy v SH B). auto 8.
Qed.

(** A frame among the commands was sent by one of the requests. *)
Lemma commands_in : forall c tick m0 a b t, In t (commands c tick m0 a b) ->
  exists b1, command_at c tick m0 a b b1 t.
Proof.
  intros c tick m0 a b t. induction b as [|ev b IH] using rev_ind; [intros []|].
  rewrite commands_snoc. intros IN. apply in_app_or in IN. destruct IN as [IN|IN].
  - destruct (IH IN) as (b1 & e & b2 & -> & Q). exists b1, e, (b2 ++ [ev]). split; [now rewrite <- app_assoc|exact Q].
  - destruct (is_request ev) eqn:R; [|destruct IN]. exists b, ev, []. auto.
Qed.
