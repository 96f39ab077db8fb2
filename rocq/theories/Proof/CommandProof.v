From Coq Require Import Lia ZifyBool ZifyNat.
From Verif.Base Require Import Words F32Real.
From Verif.Model Require Import Vehicle.
From Verif.Spec Require Import FreshSpec SenseSpec InverterSpec EcuSpec VehicleSpec CommandSpec EcuBusSpec.
From Verif.Proof Require Import F32Facts TorqueProof InverterCmdProof VsmProof EcuProof EcuFrames FreshProof VehicleProof VehicleClaims.
Open Scope Z_scope.

(** ** The frames of one event *)
Lemma sent_grows : forall c tick s ev, exists l,
  e_sent (vh_e (veh_step c tick (ds_from_config c) s ev)) = e_sent (vh_e s) ++ l /\ handed c tick s ev = l.
Proof.
  intros c tick s ev.
  assert (X : exists l, e_sent (vh_e (veh_step c tick (ds_from_config c) s ev)) = e_sent (vh_e s) ++ l).
  { destruct (step_e c tick (ds_from_config c) s ev) as [S|(e & S & _)]; rewrite S.
    - exists []. now rewrite app_nil_r.
    - destruct (frames_added c tick (vh_e s) e) as (l & E & _). eauto. }
  destruct X as (l & E). exists l. split; [exact E|].
  unfold handed. rewrite E, skipn_app, skipn_all, Nat.sub_diag, skipn_O. reflexivity.
Qed.

(** ** Enabled for good *)
Lemma enabled_step : forall c tick e ev,
  (ic_enabled (e_inv e) = true -> ic_enabled (e_inv (ecu_step c tick e ev)) = true) /\
  exists l, e_sent (ecu_step c tick e ev) = e_sent e ++ l /\
    forall t, In t l -> frame_enable (tx_data t) = true -> ic_enabled (e_inv (ecu_step c tick e ev)) = true.
Proof.
  intros c tick e ev.
  assert (Z : e_sent (ecu_step c tick e ev) = e_sent e -> e_inv (ecu_step c tick e ev) = e_inv e ->
    (ic_enabled (e_inv e) = true -> ic_enabled (e_inv (ecu_step c tick e ev)) = true) /\
    exists l, e_sent (ecu_step c tick e ev) = e_sent e ++ l /\
      forall t, In t l -> frame_enable (tx_data t) = true -> ic_enabled (e_inv (ecu_step c tick e ev)) = true).
  { intros H1 H2. rewrite H2. split; auto. exists []. rewrite app_nil_r. split; [auto|intros t []]. }
  destruct ev as [i|tl il ok1 ok2|live| | | |il ok|on]; cbn [ecu_step] in *.
  - destruct (e_pend e) as [p|]; auto. destruct (vsm_step _ _ _ _). auto.
  - destruct (e_pend e) as [[[|[] l] m']|]; auto.
    cbn [ecu_call e_sent e_inv] in *. clear Z. unfold SendInverterEnabled.
    destruct il; cbn [negb]; [|cbn [ir_cmd ir_tx]; split; auto; eexists; split; [reflexivity|intros t []]].
    destruct (ic_discharge (e_inv e)); cbn [andb];
      [cbn [ir_cmd ir_tx]; split; auto; eexists; split; [reflexivity|intros t []]|].
    cbn [ir_cmd ic_enabled ir_tx]. split; auto. eexists; split; [reflexivity|auto].
  - destruct (e_tpc e); auto.
  - destruct (e_tpc e); auto.
  - destruct (e_tpc e); auto.
  - destruct (e_tpc e); auto.
  - destruct (e_tpc e) as [| | | |q d] eqn:E; auto.
    destruct (SendTorqueCommand il ok (e_inv e) q d) as [r|] eqn:S; auto. clear Z.
    cbn [e_inv e_sent]. unfold SendTorqueCommand in S.
    destruct (flt q f_zero || fgt q INVERTER_MAX_TORQUE);
      [injection S as <-; cbn [ir_cmd ir_tx]; split; auto; eexists; split; [reflexivity|intros t []]|].
    destruct (negb il);
      [injection S as <-; cbn [ir_cmd ir_tx]; split; auto; eexists; split; [reflexivity|intros t []]|].
    destruct (ic_enabled (e_inv e)) eqn:EN; cbn [negb] in S.
    2:{ injection S as <-; cbn [ir_cmd ir_tx]; split; [congruence|]; eexists; split; [reflexivity|intros t []]. }
    destruct (SendCANCommand _ _ _ _ _); [|discriminate]. injection S as <-. cbn [ir_cmd ir_tx].
    split; auto. eexists; split; [reflexivity|auto].
  - auto.
Qed.

Definition en_ok (e : ecu) : Prop :=
  forall t, In t (e_sent e) -> frame_enable (tx_data t) = true -> ic_enabled (e_inv e) = true.

Lemma en_ok_run : forall c tick m0 tr, en_ok (vh_e (veh_run c tick m0 tr)).
Proof.
  intros c tick m0 tr. induction tr as [|ev tr IH] using rev_ind; [intros t []|].
  rewrite veh_run_snoc.
  destruct (step_e c tick (ds_from_config c) (veh_run c tick m0 tr) ev) as [S|(e & S & _)]; rewrite S; auto.
  destruct (enabled_step c tick (vh_e (veh_run c tick m0 tr)) e) as (A & l & E & B).
  intros t IN F. rewrite E in IN. apply in_app_or in IN. destruct IN as [IN|IN]; [|eauto].
  apply A. exact (IH t IN F).
Qed.

Lemma stays_enabled : forall c tick d s ev,
  ic_enabled (e_inv (vh_e s)) = true -> ic_enabled (e_inv (vh_e (veh_step c tick d s ev))) = true.
Proof.
  intros c tick d s ev H. destruct (step_e c tick d s ev) as [S|(e & S & _)]; rewrite S; auto.
  now apply enabled_step.
Qed.

(** ** What the throttle task still has to send *)
(** A request it owes for a notification not yet taken, and for the present
    activation until it is made. *)
Definition idle_pc (pc : thr_pc) : bool := match pc with TIdle => true | _ => false end.
Definition due (g : stage) (rd : bool) (pc : thr_pc) : Z :=
  match g with Waiting => 0 | _ => if rd && idle_pc pc then 0 else 1 end.
Definition debt (s : vehicle) : Z :=
  (if f_note (vh_f s) T_THROTTLE =? 0 then 0 else 1) +
  due (f_stage (vh_f s) T_THROTTLE) (vh_read s) (e_tpc (vh_e s)).

(** The throttle part of the state under a kernel action. *)
Lemma due_since : forall g g' rd pc, since g' = since g -> due g' rd pc = due g rd pc.
Proof. intros [|a|a|a] [|b|b|b] rd pc E; try discriminate; reflexivity. Qed.

Lemma waits_since : forall g g', since g' = since g -> is_waiting g' = is_waiting g.
Proof. intros [|a|a|a] [|b|b|b] E; try discriminate; reflexivity. Qed.

Lemma run_debt : forall d s t a, order s -> may s t a = true ->
  debt (with_f s (fresh_step d (vh_f s) (FRun t a))) = debt s.
Proof.
  intros d s t a [R T _ _] M. destruct (run_act d (vh_f s) t a) as [E|E]; rewrite E; unfold debt; cbn [with_f vh_f vh_e vh_read].
  - destruct (is_waiting (f_stage (vh_f s) T_THROTTLE)) eqn:W; auto. apply is_waiting_iff in W. now rewrite W.
  - destruct (act_cases d (vh_f s) t a T_THROTTLE) as [(S & N)|[(ET & W & NZ & S & N)|(ET & -> & NW & S & N)]]; rewrite N; try subst t.
    + rewrite (waits_since _ _ S), (due_since _ _ _ _ S).
      destruct (is_waiting (f_stage (vh_f s) T_THROTTLE)) eqn:W; auto. apply is_waiting_iff in W. now rewrite W.
    + rewrite W. cbn [due]. destruct (Z.eqb_spec (f_note (vh_f s) T_THROTTLE) 0) as [Q|Q]; [congruence|].
      rewrite (R W), Z.eqb_refl.
      destruct (f_stage (act_step d (vh_f s) T_THROTTLE a) T_THROTTLE); [discriminate|reflexivity..].
    + rewrite S. cbn [due is_waiting]. unfold may in M. change (T_THROTTLE =? T_THROTTLE) with true in M. cbn iota in M.
      apply andb_prop in M. destruct M as (M1 & M2). rewrite M1. destruct (e_tpc (vh_e s)); try discriminate.
      cbn [idle_pc andb]. destruct (f_stage (vh_f s) T_THROTTLE); reflexivity.
Qed.

(** The work of a request. *)
Definition fires (s : vehicle) (ev : veh_event) : bool :=
  is_request ev && is_running (f_stage (vh_f s) T_THROTTLE) && kernel_allows (vh_f s) T_THROTTLE &&
  vh_read s && match e_tpc (vh_e s) with TRequest _ _ => true | _ => false end.

Lemma tick_note : on_timer T_THROTTLE = true.
Proof. reflexivity. Qed.

Lemma debt_step : forall c tick s ev, order s ->
  debt (veh_step c tick (ds_from_config c) s ev) + (if fires s ev then 1 else 0) <= debt s + veh_ticks [ev] /\
  (ev <> VTick \/ thr_idle s ->
   debt (veh_step c tick (ds_from_config c) s ev) + (if fires s ev then 1 else 0) = debt s + veh_ticks [ev]).
Proof.
  intros c tick s ev O.
  assert (EQ : debt (veh_step c tick (ds_from_config c) s ev) + (if fires s ev then 1 else 0) = debt s + veh_ticks [ev] ->
     debt (veh_step c tick (ds_from_config c) s ev) + (if fires s ev then 1 else 0) <= debt s + veh_ticks [ev] /\
  (ev <> VTick \/ thr_idle s ->
   debt (veh_step c tick (ds_from_config c) s ev) + (if fires s ev then 1 else 0) = debt s + veh_ticks [ev])) by (intros ->; split; [lia|auto]).
  unfold veh_step in *. destruct ev; cbn [veh_ticks] in *; cbn zeta in *.
  - clear EQ. unfold fires. cbn [is_request andb]. unfold debt. cbn [with_f vh_f vh_e vh_read fresh_step f_note f_stage].
    rewrite tick_note. split.
    + assert (Q : due (f_stage (vh_f s) T_THROTTLE) (if is_waiting (f_stage (vh_f s) T_THROTTLE) then false else vh_read s) (e_tpc (vh_e s))
                = due (f_stage (vh_f s) T_THROTTLE) (vh_read s) (e_tpc (vh_e s))) by (destruct (f_stage (vh_f s) T_THROTTLE); reflexivity).
      rewrite Q. destruct (u32 _ =? 0), (f_note (vh_f s) T_THROTTLE =? 0); lia.
    + intros [N|(W & N)]; [congruence|]. rewrite W, N. reflexivity.
  - apply EQ. unfold fires. cbn [is_request andb]. destruct (on_timer t) eqn:OT; [lia|].
    unfold debt. cbn [with_f vh_f vh_e vh_read fresh_step].
    assert (N : T_THROTTLE <> t) by (intros <-; discriminate).
    assert (Q : due (f_stage (vh_f s) T_THROTTLE) (if is_waiting (f_stage (vh_f s) T_THROTTLE) then false else vh_read s) (e_tpc (vh_e s))
                = due (f_stage (vh_f s) T_THROTTLE) (vh_read s) (e_tpc (vh_e s))) by (destruct (f_stage (vh_f s) T_THROTTLE); reflexivity).
    destruct (t =? T_SENSE); cbn [f_note f_stage]; rewrite ?put_other by auto; rewrite Q; lia.
  - apply EQ. unfold fires. cbn [is_request andb]. destruct (may s t a) eqn:M; [|lia].
    rewrite run_debt by auto. lia.
  - apply EQ. unfold fires. cbn [is_request andb].
    destruct (is_inside (f_stage (vh_f s) T_THROTTLE)) eqn:I; cbn [andb]; [|lia].
    destruct (kernel_allows (vh_f s) T_THROTTLE); cbn [andb]; [|lia].
    destruct (vh_read s) eqn:RD; cbn [negb]; [lia|].
    unfold debt. cbn [vh_f vh_e vh_read]. rewrite RD. pose proof (or_tpc _ O RD) as PC.
    cbn [ecu_step]. rewrite PC. cbn [set_tpc e_tpc idle_pc andb].
    destruct (f_stage (vh_f s) T_THROTTLE); cbn [due andb idle_pc]; lia.
  - apply EQ. unfold fires. cbn [is_request andb]. destruct (is_inside _ && _ && _); unfold debt; cbn [vh_f vh_e vh_read]; lia.
  - apply EQ. unfold fires. cbn [is_request andb]. destruct (is_inside _ && _ && _); unfold debt; cbn [vh_f vh_e vh_read]; lia.
  - apply EQ. unfold fires. cbn [is_request andb]. destruct (is_running _ && _ && _ && _); [|lia].
    unfold debt. cbn [vh_f vh_e vh_read]. rewrite tpc_other by auto. lia.
  - apply EQ. unfold fires. destruct ev as [i|tl il ok1 ok2|live| | | |il ok|on]; cbn [is_request andb].
    + lia.
    + destruct (is_running (f_stage (vh_f s) T_VSM) && _ && _); [|lia].
      unfold debt. cbn [with_e vh_f vh_e vh_read]. rewrite tpc_other by auto. lia.
    + lia.
    + destruct (is_running (f_stage (vh_f s) T_THROTTLE)) eqn:W; cbn [andb]; [|lia].
      destruct (kernel_allows (vh_f s) T_THROTTLE); cbn [andb]; [|lia].
      destruct (vh_read s) eqn:RD; [|lia]. unfold debt. cbn [with_e vh_f vh_e vh_read ecu_step]. rewrite RD.
      destruct (e_tpc (vh_e s)) eqn:PC; rewrite ?PC; try lia. cbn [set_tpc e_tpc].
      destruct (th_enabled _); destruct (f_stage (vh_f s) T_THROTTLE); cbn [due idle_pc andb]; lia.
    + destruct (is_running (f_stage (vh_f s) T_THROTTLE)) eqn:W; cbn [andb]; [|lia].
      destruct (kernel_allows (vh_f s) T_THROTTLE); cbn [andb]; [|lia].
      destruct (vh_read s) eqn:RD; [|lia]. unfold debt. cbn [with_e vh_f vh_e vh_read ecu_step]. rewrite RD.
      destruct (e_tpc (vh_e s)) eqn:PC; rewrite ?PC; try lia. cbn [set_tpc e_tpc].
      destruct (f_stage (vh_f s) T_THROTTLE); cbn [due idle_pc andb]; lia.
    + destruct (is_running (f_stage (vh_f s) T_THROTTLE)) eqn:W; cbn [andb]; [|lia].
      destruct (kernel_allows (vh_f s) T_THROTTLE); cbn [andb]; [|lia].
      destruct (vh_read s) eqn:RD; [|lia]. unfold debt. cbn [with_e vh_f vh_e vh_read ecu_step]. rewrite RD.
      destruct (e_tpc (vh_e s)) eqn:PC; rewrite ?PC; try lia. cbn [set_tpc e_tpc].
      destruct (f_stage (vh_f s) T_THROTTLE); cbn [due idle_pc andb]; lia.
    + destruct (is_running (f_stage (vh_f s) T_THROTTLE)) eqn:W; cbn [andb]; [|lia].
      destruct (kernel_allows (vh_f s) T_THROTTLE); cbn [andb]; [|lia].
      destruct (vh_read s) eqn:RD; cbn [andb]; [|lia]. unfold debt. cbn [with_e vh_f vh_e vh_read ecu_step]. rewrite RD.
      destruct (e_tpc (vh_e s)) as [| | | |q dd] eqn:PC; rewrite ?PC; try lia.
      destruct (SendTorqueCommand il ok (e_inv (vh_e s)) q dd); cbn [e_tpc];
        destruct (f_stage (vh_f s) T_THROTTLE); try discriminate; cbn [due idle_pc andb]; lia.
    + unfold debt. cbn [with_e vh_f vh_e vh_read ecu_step e_tpc]. lia.
Qed.

(** ** The frames of a request *)
Lemma quiet_event : forall c tick s ev, is_request ev = true -> fires s ev = false -> handed c tick s ev = [].
Proof.
  intros c tick s ev R F. destruct ev as [| | | | | | |ev]; try discriminate. destruct ev as [| | | | | |il ok|]; try discriminate.
  assert (Q : e_sent (vh_e (veh_step c tick (ds_from_config c) s (VWork (EvRequest il ok)))) = e_sent (vh_e s)).
  { unfold fires in F. cbn [is_request andb] in F. unfold veh_step. cbn zeta.
    destruct (is_running (f_stage (vh_f s) T_THROTTLE) && kernel_allows (vh_f s) T_THROTTLE && vh_read s); auto.
    cbn [andb] in F. cbn [with_e vh_e ecu_step]. destruct (e_tpc (vh_e s)); auto; discriminate. }
  unfold handed. now rewrite Q, skipn_all.
Qed.

Lemma one_frame : forall c tick s ev, (length (handed c tick s ev) <= 1)%nat \/ is_request ev = false.
Proof.
  intros c tick s ev. destruct ev as [| | | | | | |ev]; auto. destruct ev as [| | | | | |il ok|]; auto. left.
  destruct (fires s (VWork (EvRequest il ok))) eqn:F; [|rewrite quiet_event; auto].
  destruct (sent_grows c tick s (VWork (EvRequest il ok))) as (l & E & ->).
  unfold veh_step in E. cbn zeta in E.
  destruct (is_running _ && _ && _).
  2:{ rewrite <- (app_nil_r (e_sent (vh_e s))) in E at 1. apply app_inv_head in E. subst. cbn. lia. }
  cbn [with_e vh_e ecu_step] in E.
  assert (Z : e_sent (vh_e s) = e_sent (vh_e s) ++ l -> (length l <= 1)%nat).
  { intros Q. rewrite <- (app_nil_r (e_sent (vh_e s))) in Q at 1. apply app_inv_head in Q. subst. cbn. lia. }
  destruct (e_tpc (vh_e s)); auto. destruct (SendTorqueCommand il ok (e_inv (vh_e s)) torque dir) as [r|] eqn:S; auto.
  cbn [e_sent] in E. apply app_inv_head in E. subst l. unfold SendTorqueCommand in S.
  repeat match type of S with
         | context [if ?b then _ else _] => destruct b
         | context [match ?b with Some _ => _ | None => _ end] => destruct b
         end; inversion S; subst; cbn; lia.
Qed.

Lemma fired_frame : forall c tick s ev, ranges (vh_e s) -> ic_enabled (e_inv (vh_e s)) = true ->
  request_waits ev -> fires s ev = true -> exists t, handed c tick s ev = [t] /\ keeps_on t.
Proof.
  intros c tick s ev RG EN W F. unfold fires in F.
  apply andb_prop in F. destruct F as (F & PC). apply andb_prop in F. destruct F as (F & RD).
  apply andb_prop in F. destruct F as (F & KA). apply andb_prop in F. destruct F as (RQ & RU).
  destruct ev as [| | | | | | |ev]; try discriminate. destruct ev as [| | | | | |il ok|]; try discriminate.
  cbn [request_waits] in W. subst il.
  destruct (sent_grows c tick s (VWork (EvRequest true ok))) as (l & E & ->).
  unfold veh_step in E. cbn zeta in E. rewrite RU, KA, RD in E. cbn [andb with_e vh_e ecu_step] in E.
  pose proof (rg_pc _ RG) as RP. destruct (e_tpc (vh_e s)) as [| | | |q dd]; try discriminate.
  destruct RP as (G & ->).
  destruct (request_good true ok (e_inv (vh_e s)) q G (rg_dis _ RG)) as (r & S & _ & FG).
  rewrite S in E. cbn [e_sent] in E. apply app_inv_head in E. subst l.
  unfold SendTorqueCommand in S.
  destruct (flt q f_zero || fgt q INVERTER_MAX_TORQUE) eqn:RT.
  { exfalso. destruct G as (F & B). assert (R : in_range q).
    { unfold in_range. rewrite max_val. Lra.lra. }
    rewrite (proj2 (range_test q F) R) in RT. discriminate. }
  rewrite EN in S. cbn [negb] in S. unfold SendCANCommand in S.
  destruct (torqueToMsg q) as [m|]; [|discriminate]. injection S as <-. cbn [ir_tx] in *.
  inversion FG as [|t tl (G1 & G2 & G3 & G4) _]; subst. eexists. split; [reflexivity|].
  unfold keeps_on. repeat split; auto; try apply G2.
Qed.

(** ** Counting *)
Lemma from_snoc : forall c tick b s ev,
  commands_from c tick s (b ++ [ev]) =
  commands_from c tick s b ++
  (if is_request ev then handed c tick (fold_left (veh_step c tick (ds_from_config c)) b s) ev else []).
Proof.
  induction b as [|e b IH]; intros s ev; cbn [app commands_from fold_left].
  - now rewrite app_nil_r.
  - now rewrite IH, app_assoc.
Qed.

Lemma commands_snoc : forall c tick m0 a b ev,
  commands c tick m0 a (b ++ [ev]) =
  commands c tick m0 a b ++ (if is_request ev then handed c tick (veh_run c tick m0 (a ++ b)) ev else []).
Proof. intros. unfold commands. rewrite from_snoc, veh_run_app. reflexivity. Qed.

Lemma debt_nonneg : forall s, 0 <= debt s.
Proof. intros s. unfold debt, due. destruct (f_note (vh_f s) T_THROTTLE =? 0), (f_stage (vh_f s) T_THROTTLE), (vh_read s && idle_pc (e_tpc (vh_e s))); lia. Qed.

Lemma idle_debt : forall s, thr_idle s -> debt s = 0.
Proof. intros s (W & N). unfold debt. now rewrite W, N. Qed.

Lemma at_most : forall c tick m0 tr,
  Z.of_nat (length (commands c tick m0 [] tr)) + debt (veh_run c tick m0 tr) <= veh_ticks tr.
Proof.
  intros c tick m0 tr. induction tr as [|ev tr IH] using rev_ind; [change (0 + debt (veh_init m0) <= 0); replace (debt (veh_init m0)) with 0 by reflexivity; lia|].
  rewrite commands_snoc, veh_run_snoc, veh_ticks_app, app_length. cbn [app].
  destruct (debt_step c tick (veh_run c tick m0 tr) ev (order_run c tick m0 tr)) as (D & _).
  destruct (is_request ev) eqn:R; [|cbn [length]; destruct (fires _ ev); lia].
  destruct (one_frame c tick (veh_run c tick m0 tr) ev) as [L|L]; [|congruence].
  destruct (fires (veh_run c tick m0 tr) ev) eqn:F; [lia|].
  rewrite quiet_event by auto. cbn [length]. lia.
Qed.

Lemma exactly : forall c tick m0 a b,
  vsm_init c tick = Some m0 -> calibrated c -> readings_u16 c tick m0 (a ++ b) ->
  switched_on (veh_run c tick m0 a) -> Forall request_waits b ->
  (forall b1 b2, b = b1 ++ VTick :: b2 -> thr_idle (veh_run c tick m0 (a ++ b1))) ->
  Z.of_nat (length (commands c tick m0 a b)) + debt (veh_run c tick m0 (a ++ b)) =
    debt (veh_run c tick m0 a) + veh_ticks b /\
  Forall keeps_on (commands c tick m0 a b) /\ ic_enabled (e_inv (vh_e (veh_run c tick m0 (a ++ b)))) = true.
Proof.
  intros c tick m0 a b HI CA U (t0 & IN0 & F0).
  induction b as [|ev b IH] using rev_ind; intros W K.
  - rewrite app_nil_r. unfold commands. cbn [commands_from length veh_ticks]. split; [lia|]. split; [constructor|]. exact (en_ok_run c tick m0 a t0 IN0 F0).
  - apply Forall_app in W. destruct W as (W & We). inversion We as [|x y WE _]; subst.
    assert (U' : readings_u16 c tick m0 (a ++ b)) by (rewrite app_assoc in U; exact (u16_init _ _ _ _ _ U)).
    assert (K' : forall b1 b2, b = b1 ++ VTick :: b2 -> thr_idle (veh_run c tick m0 (a ++ b1))).
    { intros b1 b2 ->. apply (K b1 (b2 ++ [ev])). now rewrite <- app_assoc. }
    destruct (IH U' W K') as (E & G & EN).
    rewrite commands_snoc, app_assoc, veh_run_snoc, veh_ticks_app, app_length.
    set (s := veh_run c tick m0 (a ++ b)) in *.
    destruct (debt_step c tick s ev (order_run c tick m0 (a ++ b))) as (_ & D).
    assert (D' : ev <> VTick \/ thr_idle s).
    { destruct ev; try (left; discriminate). right. apply (K b []). reflexivity. }
    specialize (D D').
    assert (EN' : ic_enabled (e_inv (vh_e (veh_step c tick (ds_from_config c) s ev))) = true) by now apply stays_enabled.
    destruct (is_request ev) eqn:R.
    2:{ assert (FN : fires s ev = false) by (unfold fires; now rewrite R).
        rewrite FN in D. rewrite app_nil_r. cbn [length]. split; [lia|auto]. }
    destruct (fires s ev) eqn:F.
    2:{ rewrite quiet_event by auto. rewrite app_nil_r. cbn [length]. split; [lia|auto]. }
    destruct (e_proj c tick m0 (a ++ b) CA U') as (es & EE & PO).
    pose proof (ranges_run c tick m0 es HI PO) as RG. rewrite <- EE in RG. fold s in RG.
    destruct (fired_frame c tick s ev RG EN WE F) as (t & -> & KO).
    cbn [length]. split; [lia|]. split; auto. apply Forall_app. auto.
Qed.

(** ** All frames handed over *)
Lemma sent_split : forall c tick m0 a b, exists l,
  e_sent (vh_e (veh_run c tick m0 (a ++ b))) = e_sent (vh_e (veh_run c tick m0 a)) ++ l /\
  (length (filter asks_torque l) <= length (commands c tick m0 a b))%nat /\
  (Forall keeps_on (commands c tick m0 a b) ->
   (length (commands c tick m0 a b) <= length (filter (fun t => frame_enable (tx_data t)) l))%nat).
Proof.
  intros c tick m0 a b. induction b as [|ev b IH] using rev_ind.
  - exists []. rewrite !app_nil_r. cbn. auto.
  - destruct IH as (l & E & L1 & L2). rewrite commands_snoc, app_assoc, veh_run_snoc.
    set (s := veh_run c tick m0 (a ++ b)) in *.
    destruct (sent_grows c tick s ev) as (k & E' & H). exists (l ++ k).
    rewrite E', E, app_assoc. split; auto. rewrite !filter_app, !app_length.
    destruct (is_request ev) eqn:R.
    + rewrite H. assert (FL : forall (f : tx -> bool), (length (filter f k) <= length k)%nat).
      { intros f. clear. induction k as [|x k IH]; cbn; auto. destruct (f x); cbn; lia. }
      split; [specialize (FL asks_torque); lia|]. intros G. apply Forall_app in G. destruct G as (G1 & G2).
      specialize (L2 G1). enough (length (filter (fun t => frame_enable (tx_data t)) k) = length k) by lia.
      clear - G2. induction G2 as [|x k (_ & Q & _) _ IH]; cbn; auto. rewrite Q. cbn. lia.
    + cbn [length]. rewrite app_nil_r.
      assert (Q : filter asks_torque k = []).
      { destruct (filter asks_torque k) as [|t q] eqn:FT; auto. exfalso.
        assert (IN : In t (filter asks_torque k)) by (rewrite FT; now left).
        apply filter_In in IN. destruct IN as (IN & A).
        destruct (step_e c tick (ds_from_config c) s ev) as [SS|(e & SS & KK)]; rewrite SS in E'.
        - rewrite <- (app_nil_r (e_sent (vh_e s))) in E' at 1. apply app_inv_head in E'. subst k. destruct IN.
        - destruct (frames_added c tick (vh_e s) e) as (l2 & Es2 & _ & FR).
          rewrite E' in Es2. apply app_inv_head in Es2. subst l2.
          destruct (FR t IN A) as (_ & _ & il & ok & ->).
          destruct ev; try contradiction; try discriminate KK. destruct KK as (<- & _). discriminate R. }
      rewrite Q. cbn [length]. split; [lia|]. intros G. specialize (L2 G). lia.
Qed.

(** ** On the bus *)
Lemma e_proj_taken : forall c tick m0 a b, Forall all_accepted b ->
  exists es, vh_e (veh_run c tick m0 (a ++ b)) = fold_left (ecu_step c tick) es (vh_e (veh_run c tick m0 a)) /\
    map all_taken es = es.
Proof.
  intros c tick m0 a b. induction b as [|ev b IH] using rev_ind; intros W.
  - exists []. rewrite app_nil_r. split; reflexivity.
  - apply Forall_app in W. destruct W as (W & We). inversion We as [|x y WE _]; subst.
    destruct (IH W) as (es & E & P). rewrite app_assoc, veh_run_snoc.
    destruct (step_e c tick (ds_from_config c) (veh_run c tick m0 (a ++ b)) ev) as [S|(e & S & K)].
    + exists es. now rewrite S.
    + exists (es ++ [e]). rewrite S, fold_left_app, <- E. split; [reflexivity|]. rewrite map_app, P. cbn [map].
      replace (all_taken e) with e; [reflexivity|].
      destruct ev; try contradiction; try (subst e; reflexivity). destruct K as (-> & _).
      destruct ev; try reflexivity; cbn [all_accepted all_taken] in *; [destruct WE as (-> & ->)|subst canOk]; reflexivity.
Qed.
