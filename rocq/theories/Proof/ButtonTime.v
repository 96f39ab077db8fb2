From Coq Require Import ZifyBool ZifyNat Floats.SpecFloat.
From Verif.Base Require Import Words.
From Verif.Model Require Import Vehicle.
From Verif.Spec Require Import FaultSpec VsmSpec FreshSpec InverterSpec EcuSpec VehicleSpec ButtonSpec.
From Verif.Proof Require Import FaultProof VsmProof EcuProof FreshProof VehicleProof VehicleClaims ButtonProof.
Open Scope Z_scope.

(** ** The moves of the state manager *)
Lemma live_waiting : forall c tick m0 tr,
  f_stage (vh_f (veh_run c tick m0 tr)) T_VSM = Waiting -> vh_live (veh_run c tick m0 tr) = None.
Proof.
  intros c tick m0 tr. induction tr as [|ev tr IH] using rev_ind; [reflexivity|].
  rewrite veh_run_snoc. set (s := veh_run c tick m0 tr) in *. set (d := ds_from_config c).
  assert (WF : forall f, f_stage (vh_f (with_f s f)) T_VSM = Waiting -> vh_live (with_f s f) = None).
  { intros f. cbn [with_f vh_f vh_live]. intros ->. reflexivity. }
  unfold veh_step. destruct ev; cbn zeta.
  - apply WF.
  - destruct (on_timer t); auto.
  - destruct (may s t a); auto.
  - destruct (is_inside _ && _ && _); auto.
  - destruct (is_inside _ && _ && _); auto.
  - destruct (is_inside (f_stage (vh_f s) T_VSM)) eqn:E; cbn [andb]; auto.
    match goal with |- context [if ?b then _ else _] => destruct b end; auto.
    cbn [vh_f]. intros W. rewrite W in E. discriminate.
  - destruct (is_running _ && _ && _ && _); auto.
  - match goal with |- context [if ?b then _ else _] => destruct b end; auto.
Qed.

Inductive vsm_move (c : config) (tick : Z) (s : vehicle) (ev : veh_event) (s' : vehicle) : Prop :=
| mv_stay :
    since (f_stage (vh_f s') T_VSM) = since (f_stage (vh_f s) T_VSM) ->
    f_note (vh_f s') T_VSM = f_note (vh_f s) T_VSM ->
    vh_decided s' = vh_decided s ->
    vh_live s' = vh_live s \/
      (is_inside (f_stage (vh_f s) T_VSM) = true /\ vh_live s' = Some (f_vs (vh_f s))) ->
    vh_e s' = vh_e s \/
      (exists e, (forall i, e <> EvVsm i) /\ (is_vsm e = true -> vh_decided s = true) /\
         (veh_waits ev -> waits e) /\ vh_e s' = ecu_step c tick (vh_e s) e) ->
    vsm_move c tick s ev s'
| mv_start :
    f_stage (vh_f s) T_VSM = Waiting -> f_note (vh_f s) T_VSM <> 0 ->
    since (f_stage (vh_f s') T_VSM) = Some (f_now (vh_f s)) ->
    vh_decided s' = false -> vh_live s' = None -> vh_e s' = vh_e s -> vsm_move c tick s ev s'
| mv_done :
    f_stage (vh_f s) T_VSM <> Waiting -> f_stage (vh_f s') T_VSM = Waiting ->
    vh_decided s = true -> e_pend (vh_e s) = None -> vh_decided s' = false -> vh_live s' = None ->
    f_note (vh_f s') T_VSM = f_note (vh_f s) T_VSM -> vh_e s' = vh_e s -> vsm_move c tick s ev s'
| mv_decide : ev = VDecide ->
    f_stage (vh_f s) T_VSM <> Waiting -> f_stage (vh_f s') T_VSM = f_stage (vh_f s) T_VSM ->
    f_note (vh_f s') T_VSM = f_note (vh_f s) T_VSM ->
    vh_decided s = false -> vh_decided s' = true -> vh_live s' = vh_live s ->
    vh_e s' = ecu_step c tick (vh_e s) (EvVsm (mkVsmIn (vh_snap s) (vh_live s))) ->
    vsm_move c tick s ev s'.

Lemma moves : forall c tick m0 tr ev, ev <> VTick ->
  vsm_move c tick (veh_run c tick m0 tr) ev (veh_run c tick m0 (tr ++ [ev])).
Proof.
  intros c tick m0 tr ev NT. pose proof (live_waiting c tick m0 tr) as LW.
  pose proof (order_run c tick m0 tr) as O. rewrite veh_run_snoc.
  set (s := veh_run c tick m0 tr) in *. set (d := ds_from_config c).
  assert (SAME : vsm_move c tick s ev s) by (apply mv_stay; auto).
  unfold veh_step. destruct ev; cbn zeta; [now elim NT|..].
  - destruct (on_timer t) eqn:OT; auto. apply mv_stay; cbn [with_f vh_f vh_e vh_decided vh_live].
    + cbn [fresh_step]. destruct (t =? T_SENSE); reflexivity.
    + cbn [fresh_step]. destruct (t =? T_SENSE); cbn [f_note]; auto. apply put_other. intros <-. discriminate.
    + replace (f_stage (fresh_step d (vh_f s) (FNotify t)) T_VSM) with (f_stage (vh_f s) T_VSM)
        by (cbn [fresh_step]; destruct (t =? T_SENSE); reflexivity).
      destruct (is_waiting (f_stage (vh_f s) T_VSM)) eqn:W; auto. apply is_waiting_iff in W.
      symmetry. apply (or_snap s O W).
    + left. replace (f_stage (fresh_step d (vh_f s) (FNotify t)) T_VSM) with (f_stage (vh_f s) T_VSM)
        by (cbn [fresh_step]; destruct (t =? T_SENSE); reflexivity).
      destruct (is_waiting (f_stage (vh_f s) T_VSM)) eqn:W; auto. apply is_waiting_iff in W. symmetry. auto.
    + now left.
  - destruct (may s t a) eqn:M; auto.
    destruct (run_act d (vh_f s) t a) as [E|E]; rewrite E.
    { apply mv_stay; cbn [with_f vh_f vh_e vh_decided vh_live]; auto.
      - destruct (is_waiting (f_stage (vh_f s) T_VSM)) eqn:W; auto. apply is_waiting_iff in W.
        symmetry. apply (or_snap s O W).
      - left. destruct (is_waiting (f_stage (vh_f s) T_VSM)) eqn:W; auto. apply is_waiting_iff in W. symmetry. auto. }
    destruct (act_cases d (vh_f s) t a T_VSM) as [(F & N)|[(<- & W & NZ & F & N)|(<- & -> & NW & F & N)]].
    + apply mv_stay; cbn [with_f vh_f vh_e vh_decided vh_live]; auto.
      * destruct (is_waiting (f_stage (act_step d (vh_f s) t a) T_VSM)) eqn:W; auto. apply is_waiting_iff in W.
        rewrite W in F. symmetry in F. cbn [since] in F. apply since_waiting in F. symmetry. apply (or_snap s O F).
      * left. destruct (is_waiting (f_stage (act_step d (vh_f s) t a) T_VSM)) eqn:W; auto. apply is_waiting_iff in W.
        rewrite W in F. symmetry in F. cbn [since] in F. apply since_waiting in F. symmetry. auto.
    + apply mv_start; cbn [with_f vh_f vh_e vh_decided vh_live]; auto.
      * rewrite (proj2 (or_snap s O W)). now destruct (is_waiting _).
      * rewrite (LW W). now destruct (is_waiting _).
    + apply mv_done; cbn [with_f vh_f vh_e vh_decided vh_live]; auto; try (now rewrite F).
      * now apply may_done_vsm.
      * unfold may in M. change (T_VSM =? T_THROTTLE) with false in M. change (T_VSM =? T_VSM) with true in M.
        cbn iota in M. apply andb_prop in M. destruct M as (_ & M). destruct (e_pend (vh_e s)); [discriminate|auto].
  - destruct (is_inside _ && _ && _); auto. apply mv_stay; cbn [vh_f vh_e vh_decided vh_live]; auto.
    right. eexists. repeat split; eauto; discriminate.
  - destruct (is_inside _ && _ && _); auto. apply mv_stay; auto.
  - destruct (is_inside (f_stage (vh_f s) T_VSM)) eqn:IN; cbn [andb]; auto.
    match goal with |- context [if ?b then _ else _] => destruct b end; auto.
    apply mv_stay; cbn [vh_f vh_e vh_decided vh_live]; auto.
  - destruct (is_running (f_stage (vh_f s) T_VSM)) eqn:R; cbn [andb]; auto.
    destruct (kernel_allows (vh_f s) T_VSM); cbn [andb]; auto.
    destruct (is_some (vh_snap s)); cbn [andb]; auto.
    destruct (vh_decided s) eqn:DC; cbn [negb]; auto.
    apply mv_decide; cbn [vh_f vh_e vh_decided vh_live]; auto. intros W. rewrite W in R. discriminate.
  - match goal with |- context [if ?b then _ else _] => destruct b eqn:G end; auto.
    apply mv_stay; cbn [with_e vh_f vh_e vh_decided vh_live]; auto.
    right. exists ev. split; [|split; [|split]]; auto.
    + intros i ->. discriminate.
    + intros IV. destruct ev; try discriminate. apply andb_prop in G. apply G.
Qed.

(** A tick that finds both tasks idle. *)
Lemma tick_idle : forall c tick m0 tr, veh_idle (veh_run c tick m0 tr) ->
  let s := veh_run c tick m0 tr in let s' := veh_run c tick m0 (tr ++ [VTick]) in
  vh_e s' = vh_e s /\ f_stage (vh_f s') T_VSM = Waiting /\ f_note (vh_f s') T_VSM <> 0 /\
  f_now (vh_f s') = f_now (vh_f s) + 1.
Proof.
  intros c tick m0 tr ID s s'. unfold s'. rewrite veh_run_snoc. fold s.
  destruct (ID T_VSM) as (W & N); [cbn; auto|]. fold s in W, N.
  cbn [veh_step with_f vh_e vh_f fresh_step f_stage f_note f_now]. repeat split; auto.
  change (on_timer T_VSM) with true. cbn iota. rewrite N. discriminate.
Qed.

Lemma idle_rest : forall c tick m0 tr, veh_idle (veh_run c tick m0 tr) ->
  let s := veh_run c tick m0 tr in
  f_stage (vh_f s) T_VSM = Waiting /\ f_note (vh_f s) T_VSM = 0 /\ vh_decided s = false /\
  vh_live s = None /\ e_pend (vh_e s) = None /\ e_tpc (vh_e s) = TIdle.
Proof.
  intros c tick m0 tr ID s. pose proof (order_run c tick m0 tr) as O. fold s in O.
  destruct (ID T_VSM) as (W & N); [cbn; auto|]. destruct (ID T_THROTTLE) as (W' & N'); [cbn; auto|].
  fold s in W, N, W', N'. destruct (or_snap s O W) as (_ & D).
  repeat split; auto; [now apply live_waiting|now apply (or_pend s O)|apply (or_tpc s O); now apply (or_read s O)].
Qed.

(** ** The enable flag, over vehicle runs *)
Lemma e_proj_waits : forall c tick m0 tr, exists es,
  vh_e (veh_run c tick m0 tr) = ecu_run c tick m0 es /\ (Forall veh_waits tr -> Forall waits es).
Proof.
  intros c tick m0 tr. induction tr as [|ev tr (es & E & W)] using rev_ind.
  - exists []. split; [reflexivity|constructor].
  - destruct (step_e c tick (ds_from_config c) (veh_run c tick m0 tr) ev) as [S|(e & S & K)].
    + exists es. rewrite veh_run_snoc, S. split; auto. intros H. apply Forall_app in H. tauto.
    + exists (es ++ [e]). rewrite veh_run_snoc, S, ecu_run_snoc, <- E. split; auto.
      intros H. apply Forall_app in H. destruct H as (H1 & H2). apply Forall_app. split; auto.
      constructor; [|constructor]. inversion H2; subst.
      destruct ev; try contradiction; try (subst e; exact Logic.I). destruct K as (-> & _). exact H3.
Qed.

Lemma neutral_off : forall c tick m0 tr, vsm_init c tick = Some m0 -> Forall veh_waits tr ->
  vm_state (e_vsm (vh_e (veh_run c tick m0 tr))) = StActiveNeutral ->
  e_pend (vh_e (veh_run c tick m0 tr)) = None ->
  th_enabled (e_thr (vh_e (veh_run c tick m0 tr))) = false.
Proof.
  intros c tick m0 tr HI W N P. destruct (e_proj_waits c tick m0 tr) as (es & E & WE).
  destruct (run_base c tick m0 es HI) as (_ & EN & _). specialize (EN (WE W)). cbn zeta in EN.
  rewrite E in *. rewrite EN. unfold enabled_at. now rewrite N, P.
Qed.

(** ** Standing: torque is off and stays off while the machine is shown [p] *)
(** [p]: what the button is shown as; a machine in neutral has seen it last as [p]
    if [p] is pressed. *)
Definition calm (p : bool) (m : vsm) : Prop :=
  inv m /\ (vm_state m = StFault \/ (vm_state m = StActiveNeutral /\ (p = true -> vm_prevBtn m = true))).
Record off (p : bool) (e : ecu) : Prop := mkOff {
  of_m : calm p (e_vsm e);
  of_pend : forall cmds m', e_pend e = Some (cmds, m') -> calm p m' /\ ~ In (CmdTorqueEnabled true) cmds;
  of_en : th_enabled (e_thr e) = false }.

Lemma calm_step : forall c tick p m i, calm p m -> button i = Some p \/ button i = None ->
  calm p (fst (vsm_step c tick m i)) /\ ~ In (CmdTorqueEnabled true) (snd (vsm_step c tick m i)).
Proof.
  intros c tick p m i (I & S) B. unfold calm.
  split; [split; [apply step_state|]|].
  - rewrite (proj1 (step_state c tick m i)), step_prev. unfold inv in I. unfold button in B.
    handlers. destruct S as [S|(S & Q)]; rewrite S in *; cbn [h_next h_prev]; [auto|].
    destruct (report c m i); cbn [is_no_fault h_next h_prev]; auto.
    destruct (vi_live i) as [v|]; cbn [h_next h_prev].
    + destruct B as [B|]; [|discriminate]. injection B as ->.
      destruct p; cbn [andb h_next h_prev].
      * rewrite (Q eq_refl). cbn [negb h_next h_prev]. auto.
      * right. split; auto; discriminate.
    + auto.
  - rewrite step_cmds. unfold button in B. handlers.
    destruct S as [S|(S & Q)]; rewrite S in *; cbn [h_cmds In]; [intros [?|[?|[?|[]]]]; discriminate|].
    destruct (report c m i); cbn [is_no_fault h_cmds In]; auto.
    destruct (vi_live i) as [v|]; cbn [h_cmds In]; auto.
    destruct B as [B|]; [|discriminate]. injection B as ->.
    destruct p; cbn [andb h_cmds]; auto. rewrite (Q eq_refl). cbn. auto.
Qed.

Lemma off_step : forall c tick p e ev, off p e ->
  (forall i, ev = EvVsm i -> button i = Some p \/ button i = None) -> off p (ecu_step c tick e ev).
Proof.
  intros c tick p e ev [M P O] B.
  destruct (is_vsm ev) eqn:IV.
  - destruct ev as [i|tl il ok1 ok2| | | | | |]; try discriminate; cbn [ecu_step].
    + destruct (e_pend e) as [q|] eqn:E; [constructor; auto; now rewrite E|].
      destruct (calm_step c tick p (e_vsm e) i M (B i eq_refl)) as (C & D).
      destruct (vsm_step c tick (e_vsm e) i) as [m' cmds]. cbn [fst snd] in *.
      constructor; cbn [e_vsm e_pend e_thr]; auto. intros x y Q. injection Q as <- <-. auto.
    + destruct (e_pend e) as [[[|cmd rest] m']|] eqn:E; [| |constructor; auto; now rewrite E].
      * destruct (P _ _ eq_refl). constructor; cbn [ecu_commit e_vsm e_pend e_thr]; auto. discriminate.
      * destruct (P _ _ eq_refl) as (C & D).
        assert (D' : ~ In (CmdTorqueEnabled true) rest) by (intros Q; apply D; now right).
        assert (Z : forall x y, Some (rest, m') = Some (x, y) -> calm p y /\ ~ In (CmdTorqueEnabled true) x)
          by (intros x y Q; injection Q as <- <-; auto).
        destruct cmd as [on| |dir|on]; constructor; cbn [ecu_call e_vsm e_pend e_thr]; auto.
        -- destruct tl; cbn; auto.
        -- destruct tl; cbn; auto. destruct on; auto. elim D. now left.
  - destruct (non_vsm_frame c tick e ev IV) as (A1 & A2 & A3 & _). constructor; rewrite ?A1, ?A2, ?A3; auto.
Qed.

Lemma off_unloaded : forall c tick p e ev, off p e -> loaded (e_tpc e) = false ->
  loaded (e_tpc (ecu_step c tick e ev)) = false.
Proof.
  intros c tick p e ev [M P O] L. destruct (loaded (e_tpc (ecu_step c tick e ev))) eqn:Q; auto.
  destruct (loaded_after _ _ _ _ Q) as [R|(_ & R & _)]; congruence.
Qed.

Lemma quiet_sends : forall c tick s ev t, loaded (e_tpc (vh_e s)) = false ->
  veh_sends c tick s ev t -> asks_torque t = false.
Proof.
  intros c tick s ev t L SN. destruct (asks_torque t) eqn:A; auto.
  destruct (veh_sends_ecu _ _ _ _ _ SN) as (e & l & _ & E & IN & _).
  destruct (frames_added c tick (vh_e s) e) as (l' & E' & _ & H).
  rewrite E in E'. apply app_inv_head in E'. subst l'. destruct (H t IN A). congruence.
Qed.

Section Neutral.
  Variables (c : config) (tick : Z) (m0 : vsm) (a : list veh_event).
  Notation run tr := (veh_run c tick m0 tr).

  Lemma neutral_run : vsm_init c tick = Some m0 -> Forall veh_waits a -> veh_idle (run a) ->
    vm_state (e_vsm (vh_e (run a))) = StActiveNeutral ->
    forall b, button_stays c tick m0 a b false ->
      off false (vh_e (run (a ++ b))) /\ loaded (e_tpc (vh_e (run (a ++ b)))) = false /\
      (forall v, vh_live (run (a ++ b)) = Some v -> d_buttonPressed (vs_dash v) = false).
  Proof.
    intros HI WA ID N. destruct (idle_rest _ _ _ _ ID) as (_ & _ & _ & L0 & P0 & T0).
    induction b as [|ev b IH] using rev_ind; intros BS.
    - rewrite app_nil_r. split; [|split; [now rewrite T0|intros v; congruence]].
      destruct (granted_run c tick m0 HI a) as ([I _ _ _ _ _] & _).
      constructor.
      + split; auto. right. split; auto. discriminate.
      + intros cmds m' Q. congruence.
      + now apply neutral_off.
    - assert (BS' : button_stays c tick m0 a b false).
      { intros b1 b2 ->. apply (BS b1 (b2 ++ [ev])). now rewrite app_assoc. }
      destruct (IH BS') as (OF & UL & LV). clear IH.
      pose proof (BS' b [] (eq_sym (app_nil_r b))) as LB.
      pose proof (button_shown c tick m0 (a ++ b)) as BT. rewrite LB in BT.
      assert (BV : forall i, vi_live i = vh_live (run (a ++ b)) -> button i = Some false \/ button i = None).
      { intros i Q. unfold button. rewrite Q. destruct (vh_live (run (a ++ b))) as [v|]; auto. left. f_equal. auto. }
      rewrite app_assoc.
      destruct ev; try (match goal with |- context [(a ++ b) ++ [?e]] =>
          assert (NT : e <> VTick) by discriminate; pose proof (moves c tick m0 (a ++ b) e NT) as MV end).
      1:{ rewrite veh_run_snoc. cbn [veh_step with_f vh_e vh_live]. split; [|split]; auto.
          intros v. destruct (is_waiting _); [discriminate|]. apply LV. }
      all: destruct MV as [S1 S2 S3 S4 S5|S1 S2 S3 S4 S5 S6|S1 S2 S3 SP S4 S5 S6 S7|S0 S1 S2 S3 S4 S5 S6 S7].
      all: try (rewrite ?S6, ?S5, ?S7; split; [exact OF|split; [exact UL|]]; intros v Q; congruence).
      all: try discriminate S0.
      all: try (assert (LL : forall v, vh_live (run ((a ++ b) ++ [_])) = Some v -> d_buttonPressed (vs_dash v) = false)
             by (intros v Q; destruct S4 as [S4|(_ & S4)]; rewrite S4 in Q; [auto|injection Q as <-; exact BT]);
           destruct S5 as [S5|(e & NV & _ & _ & S5)]; rewrite S5;
           [split; [exact OF|split; [exact UL|exact LL]]
           |split; [apply off_step; auto; intros i Q; now elim (NV i)|split; [eapply off_unloaded; eauto|exact LL]]]).
      rewrite S7. split; [|split].
      + apply off_step; auto. intros i Q. injection Q as <-. now apply BV.
      + eapply off_unloaded; eauto.
      + intros v Q. rewrite S6 in Q. auto.
  Qed.
End Neutral.

(** ** Pressing the button while driving *)
Definition drives (e : ecu) : Prop :=
  inv (e_vsm e) /\ vm_state (e_vsm e) = StActiveForward /\ vm_prevBtn (e_vsm e) = false /\ e_pend e = None.
Definition stopping (e : ecu) : Prop :=
  exists cmds m', e_pend e = Some (cmds, m') /\ inv m' /\
    ((vm_state m' = StActiveNeutral /\ vm_prevBtn m' = true /\
      (cmds = [CmdTorqueEnabled false] \/ (cmds = [] /\ th_enabled (e_thr e) = false))) \/
     (vm_state m' = StFault /\ cmds = [])).
Definition ended (e : ecu) : Prop :=
  (e_pend e = None /\ inv (e_vsm e) /\ vm_state (e_vsm e) = StFault) \/ off true e.
Definition clearing (e : ecu) : Prop :=
  inv (e_vsm e) /\ vm_state (e_vsm e) = StFault /\
  exists cmds m', e_pend e = Some (cmds, m') /\ inv m' /\ vm_state m' = StFault /\
    (cmds = [CmdMotorDirection DIR_FORWARD; CmdTorqueEnabled false; CmdEcuError true] \/
     cmds = [CmdTorqueEnabled false; CmdEcuError true]).

Section Phases.
  Variables (c : config) (tick : Z).
  Notation step := (ecu_step c tick).

  Lemma drives_other : forall e ev, (forall i, ev <> EvVsm i) -> drives e -> drives (step e ev).
  Proof.
    intros e ev NV (I & S & B & P). destruct (is_vsm ev) eqn:IV.
    - destruct ev as [i| | | | | | |]; try discriminate; [now elim (NV i)|]. cbn [ecu_step]. rewrite P.
      unfold drives. auto.
    - destruct (non_vsm_frame c tick e ev IV) as (A1 & A2 & _). unfold drives. now rewrite A1, A2.
  Qed.

  Lemma drives_vsm : forall e i, drives e -> button i = Some true -> stopping (step e (EvVsm i)).
  Proof.
    intros e i (I & S & B & P) BT. cbn [ecu_step]. rewrite P.
    pose proof (step_state c tick (e_vsm e) i) as (S1 & S2).
    pose proof (step_prev c tick (e_vsm e) i) as S3. pose proof (step_cmds c tick (e_vsm e) i) as S4.
    destruct (vsm_step c tick (e_vsm e) i) as [m' cmds]. cbn [fst snd] in *.
    exists cmds, m'. cbn [e_pend e_thr]. split; [auto|]. split; [exact S2|].
    revert S1 S3 S4. unfold button in BT. handlers. rewrite S. destruct (vi_live i) as [v|]; [|discriminate].
    injection BT as ->. rewrite B. destruct (report c (e_vsm e) i); cbn; intros -> -> ->; auto 8.
  Qed.

  Lemma off_of : forall e m' fr si, inv m' ->
    (vm_state m' = StFault \/ vm_state m' = StActiveNeutral /\ vm_prevBtn m' = true) ->
    th_enabled (e_thr e) = false ->
    off true (mkEcu m' None (e_thr e) (e_tpc e) (e_inv e) (e_pin e) (e_sent e) (e_bad e) fr si).
  Proof.
    intros e m' fr si I S E. constructor; cbn [e_vsm e_pend e_thr]; auto; [|discriminate].
    split; auto. tauto.
  Qed.

  Lemma stopping_other : forall e ev, (forall i, ev <> EvVsm i) -> waits ev -> stopping e ->
    stopping (step e ev) \/ ended (step e ev).
  Proof.
    intros e ev NV W (cmds & m' & P & I & H). destruct (is_vsm ev) eqn:IV.
    - destruct ev as [i|tl il ok1 ok2| | | | | |]; try discriminate; [now elim (NV i)|]. cbn [waits] in W. subst tl.
      cbn [ecu_step]. rewrite P. destruct H as [(S & B & [->|(-> & E)])|(S & ->)].
      + left. exists [], m'. cbn. auto 10.
      + right. right. apply off_of; auto.
      + right. left. cbn. auto.
    - destruct (non_vsm_frame c tick e ev IV) as (A1 & A2 & A3 & _). left. exists cmds, m'. rewrite A2, A3. auto.
  Qed.

  Lemma ended_other : forall e ev, (forall i, ev <> EvVsm i) -> ended e -> ended (step e ev).
  Proof.
    intros e ev NV [(P & I & S)|O].
    - left. destruct (is_vsm ev) eqn:IV.
      + destruct ev as [i| | | | | | |]; try discriminate; [now elim (NV i)|]. cbn [ecu_step]. now rewrite P.
      + destruct (non_vsm_frame c tick e ev IV) as (A1 & A2 & _). now rewrite A1, A2.
    - right. apply off_step; auto. intros i Q. now elim (NV i).
  Qed.

  Lemma ended_vsm : forall e i, ended e -> button i = Some true \/ button i = None ->
    clearing (step e (EvVsm i)) \/ off true (step e (EvVsm i)).
  Proof.
    intros e i [(P & I & S)|O] B.
    - left. cbn [ecu_step]. rewrite P. pose proof (fault_stays_step c tick (e_vsm e) i I S) as F.
      pose proof (fault_cmds c tick (e_vsm e) i S) as C. pose proof (proj2 (step_state c tick (e_vsm e) i)) as J.
      destruct (vsm_step c tick (e_vsm e) i) as [m' cmds]. cbn [fst snd] in *.
      unfold clearing. cbn [e_vsm e_pend]. split; auto. split; auto. exists cmds, m'. auto 10.
    - right. apply off_step; auto. intros j Q. injection Q as <-. auto.
  Qed.

  Lemma clearing_other : forall e ev, (forall i, ev <> EvVsm i) -> waits ev -> clearing e ->
    clearing (step e ev) \/ off true (step e ev).
  Proof.
    intros e ev NV W (I & S & cmds & m' & P & J & F & H). destruct (is_vsm ev) eqn:IV.
    - destruct ev as [i|tl il ok1 ok2| | | | | |]; try discriminate; [now elim (NV i)|]. cbn [waits] in W. subst tl.
      cbn [ecu_step]. rewrite P. destruct H as [->| ->].
      + left. unfold clearing. cbn. split; auto. split; auto. eexists. eexists. split; [reflexivity|]. auto.
      + right. constructor; cbn; auto.
        * split; auto.
        * intros x y Q. injection Q as <- <-. split; [split; auto|]. cbn. intros [Q|[]]. discriminate.
    - destruct (non_vsm_frame c tick e ev IV) as (A1 & A2 & _). left. unfold clearing. rewrite A1, A2.
      split; auto. split; auto. exists cmds, m'. auto.
  Qed.
End Phases.

Definition still_owed (s : vehicle) : Prop :=
  (f_stage (vh_f s) T_VSM = Waiting /\ f_note (vh_f s) T_VSM <> 0) \/
  (f_stage (vh_f s) T_VSM <> Waiting /\ vh_decided s = false).
Definition in_step (s : vehicle) : Prop := f_stage (vh_f s) T_VSM <> Waiting /\ vh_decided s = true.

Section Stop.
  Variables (c : config) (tick : Z) (m0 : vsm) (a : list veh_event).
  Notation run tr := (veh_run c tick m0 tr).
  Let N0 := f_now (vh_f (run a)).

  Definition prog (n : Z) (s : vehicle) : Prop :=
    (n = 0 -> drives (vh_e s) /\ f_stage (vh_f s) T_VSM = Waiting /\ f_note (vh_f s) T_VSM = 0) /\
    (n = 1 -> (drives (vh_e s) /\ still_owed s) \/ (stopping (vh_e s) /\ in_step s) \/ ended (vh_e s) \/
              (clearing (vh_e s) /\ in_step s)) /\
    (n = 2 -> (ended (vh_e s) /\ still_owed s) \/ (clearing (vh_e s) /\ in_step s) \/ off true (vh_e s)) /\
    (3 <= n -> off true (vh_e s) /\ loaded (e_tpc (vh_e s)) = false).

  Definition late (s : vehicle) : Prop :=
    N0 <= f_now (vh_f s) /\
    (forall x, since (f_stage (vh_f s) T_VSM) = Some x -> N0 < x) /\
    (f_note (vh_f s) T_VSM <> 0 -> N0 < f_now (vh_f s)) /\
    (forall v, vh_live s = Some v -> d_buttonPressed (vs_dash v) = true).

  Lemma ticks_snoc : forall b ev, veh_ticks (b ++ [ev]) = veh_ticks b + match ev with VTick => 1 | _ => 0 end.
  Proof. induction b as [|x b IH]; intros ev; [destruct ev; reflexivity|]. cbn [app veh_ticks]. rewrite IH. destruct x; lia. Qed.
  Lemma ticks_pos : forall b, 0 <= veh_ticks b.
  Proof. induction b as [|x b IH]; cbn [veh_ticks]; [lia|]. destruct x; lia. Qed.

  Lemma now_kept : forall tr ev, ev <> VTick -> f_now (vh_f (run (tr ++ [ev]))) = f_now (vh_f (run tr)).
  Proof.
    intros tr ev NT. rewrite veh_run_snoc. set (s := run tr). set (d := ds_from_config c).
    unfold veh_step. destruct ev; cbn zeta; [now elim NT|..].
    - destruct (on_timer t); auto. cbn [with_f vh_f fresh_step]. destruct (t =? T_SENSE); reflexivity.
    - destruct (may s t a0); auto. cbn [with_f vh_f].
      destruct (run_act d (vh_f s) t a0) as [E|E]; rewrite E; auto. apply act_now.
    - destruct (is_inside _ && _ && _); reflexivity.
    - destruct (is_inside _ && _ && _); reflexivity.
    - destruct (is_inside _ && _ && _); reflexivity.
    - destruct (is_running _ && _ && _ && _); reflexivity.
    - match goal with |- context [if ?b then _ else _] => destruct b end; reflexivity.
  Qed.

  Lemma late_run : veh_idle (run a) -> forall b, veh_not_starved c tick m0 (a ++ b) ->
    (forall n cy, published c tick m0 (a ++ b) n cy -> N0 < n -> cy_button cy = true) ->
    late (run (a ++ b)).
  Proof.
    intros ID. destruct (idle_rest _ _ _ _ ID) as (W0 & Z0 & D0 & L0 & P0 & T0).
    induction b as [|ev b IH] using rev_ind; intros NS PU.
    - rewrite app_nil_r. unfold late. rewrite W0, Z0, L0. fold N0. cbn [since]. repeat split; try lia; discriminate.
    - rewrite app_assoc in *. pose proof (not_starved_init _ _ _ _ _ NS) as NS'.
      assert (PU' : forall n cy, published c tick m0 (a ++ b) n cy -> N0 < n -> cy_button cy = true)
        by (intros n cy P; apply PU; now apply published_more).
      destruct (IH NS' PU') as (A & B & C & D). clear IH.
      assert (TI : ev = VTick \/ ev <> VTick) by (destruct ev; ((left; reflexivity) || (right; discriminate))).
      destruct TI as [->|NT].
      { rewrite veh_run_snoc. unfold late. cbn [veh_step with_f vh_f vh_live fresh_step f_stage f_note f_now].
        split; [lia|]. split; [exact B|]. split; [lia|]. intros v. destruct (is_waiting _); [discriminate|]. apply D. }
      pose proof (now_kept (a ++ b) ev NT) as NK.
      unfold late. rewrite NK.
      destruct (moves c tick m0 (a ++ b) ev NT) as [S1 S2 S3 S4 S5|S1 S2 S3 S4 S5 S6|S1 S2 S3 SP S4 S5 S6 S7|S0 S1 S2 S3 S4 S5 S6 S7].
      + rewrite S1, S2. repeat split; auto. intros v Q. destruct S4 as [S4|(IN & S4)]; [apply D; congruence|].
        rewrite S4 in Q. injection Q as <-.
        destruct (inside_current c tick m0 (a ++ b) T_VSM NS') as (x & n & cy & X1 & X2 & X3 & X4 & _); [cbn; auto|exact IN|].
        destruct X4 as (_ & _ & _ & _ & _ & ->). apply (PU' n); auto. specialize (B x X1). lia.
      + rewrite S3, S5. repeat split; auto; try discriminate. intros x Q. injection Q as <-. auto.
      + rewrite S2, S5, S6. cbn [since]. repeat split; auto; discriminate.
      + rewrite S2, S3, S6. auto.
  Qed.

  Lemma owed_kept : forall s s', since (f_stage (vh_f s') T_VSM) = since (f_stage (vh_f s) T_VSM) ->
    f_note (vh_f s') T_VSM = f_note (vh_f s) T_VSM -> vh_decided s' = vh_decided s ->
    (still_owed s -> still_owed s') /\ (in_step s -> in_step s').
  Proof.
    intros s s' S1 S2 S3. unfold still_owed, in_step. rewrite S2, S3.
    assert (Q : f_stage (vh_f s') T_VSM = Waiting <-> f_stage (vh_f s) T_VSM = Waiting)
      by (rewrite <- !since_waiting, S1; tauto).
    rewrite Q. auto.
  Qed.

  Lemma prog_run : vsm_init c tick = Some m0 -> veh_idle (run a) ->
    vm_state (e_vsm (vh_e (run a))) = StActiveForward -> vm_prevBtn (e_vsm (vh_e (run a))) = false ->
    forall b, veh_not_starved c tick m0 (a ++ b) -> veh_keeps_up c tick m0 a b -> Forall veh_waits b ->
    looks_at_button c tick m0 a b ->
    (forall n cy, published c tick m0 (a ++ b) n cy -> N0 < n -> cy_button cy = true) ->
    prog (veh_ticks b) (run (a ++ b)).
  Proof.
    intros HI ID FW PB. destruct (idle_rest _ _ _ _ ID) as (W0 & Z0 & D0 & L0 & P0 & T0).
    induction b as [|ev b IH] using rev_ind; intros NS K W LK PU.
    - rewrite app_nil_r. cbn [veh_ticks]. unfold prog. split; [|repeat split; try discriminate; lia].
      intros _. split; auto. destruct (granted_run c tick m0 HI a) as ([I _ _ _ _ _] & _). unfold drives. auto.
    - rewrite app_assoc in *. pose proof (not_starved_init _ _ _ _ _ NS) as NS'.
      assert (PU' : forall n cy, published c tick m0 (a ++ b) n cy -> N0 < n -> cy_button cy = true)
        by (intros n cy P; apply PU; now apply published_more).
      assert (K' : veh_keeps_up c tick m0 a b).
      { intros b1 b2 ->. apply (K b1 (b2 ++ [ev])). now rewrite <- app_assoc. }
      assert (LK' : looks_at_button c tick m0 a b).
      { intros b1 b2 ->. apply (LK b1 (b2 ++ [ev])). now rewrite <- app_assoc. }
      apply Forall_app in W. destruct W as (W & W1). inversion W1 as [|? ? W2 _]; subst. clear W1.
      destruct (IH NS' K' W LK' PU') as (Q0 & Q1 & Q2 & Q3). clear IH.
      destruct (late_run ID b NS' PU') as (_ & _ & _ & LV).
      pose proof (ticks_pos b) as TP.
      assert (TI : ev = VTick \/ ev <> VTick) by (destruct ev; ((left; reflexivity) || (right; discriminate))).
      rewrite ticks_snoc. destruct TI as [->|NT].
      { pose proof (K b [] eq_refl) as IDB. destruct (idle_rest _ _ _ _ IDB) as (W3 & Z3 & D3 & L3 & P3 & T3).
        destruct (tick_idle _ _ _ _ IDB) as (E & S & N & _).
        set (s' := run ((a ++ b) ++ [VTick])) in *. set (s := run (a ++ b)) in *.
        assert (OW : still_owed s') by (left; auto).
        assert (NOW : ~ still_owed s) by (intros [(_ & X)|(X & _)]; auto).
        assert (NIN : ~ in_step s) by (intros (X & _); auto).
        unfold prog. rewrite E. split; [intros; lia|]. split; [|split; [|intros H; split]].
        - intros X. left. split; auto. apply Q0. lia.
        - intros X. destruct Q1 as [(_ & Y)|[(_ & Y)|[Y|(_ & Y)]]]; try contradiction; [lia|]. auto.
        - destruct (Z.eq_dec (veh_ticks b) 2) as [X|X]; [|apply Q3; lia].
          destruct (Q2 X) as [(_ & Y)|[(_ & Y)|Y]]; try contradiction. exact Y.
        - now rewrite T3. }
      assert (NTK : match ev with VTick => 1 | _ => 0 end = 0) by (destruct ev; auto; now elim NT).
      rewrite NTK, Z.add_0_r. clear NTK.
      set (s' := run ((a ++ b) ++ [ev])) in *. set (s := run (a ++ b)) in *.
      destruct (moves c tick m0 (a ++ b) ev NT) as [S1 S2 S3 S4 S5|S1 S2 S3 S4 S5 S6|S1 S2 S3 SP S4 S5 S6 S7|S0 S1 S2 S3 S4 S5 S6 S7];
        fold s s' in S1, S2, S3, S4, S5; try fold s s' in S6; try fold s s' in S7; try fold s in SP.
      + destruct (owed_kept s s' S1 S2 S3) as (O1 & O2).
        destruct S5 as [S5|(e & NV & _ & WT & S5)]; unfold prog; rewrite S5.
        * split; [|split; [|split]].
          -- intros X. destruct (Q0 X) as (Y1 & Y2 & Y3). split; [exact Y1|]. split; [|congruence].
             apply since_waiting. rewrite S1. now apply since_waiting.
          -- intros X. destruct (Q1 X) as [(Y & Z)|[(Y & Z)|[Y|(Y & Z)]]]; auto 10.
          -- intros X. destruct (Q2 X) as [(Y & Z)|[(Y & Z)|Y]]; auto 10.
          -- exact Q3.
        * specialize (WT W2). split; [|split; [|split; [|intros X; split]]].
          -- intros X. destruct (Q0 X) as (Y1 & Y2 & Y3). split; [now apply drives_other|]. split; [|congruence].
             apply since_waiting. rewrite S1. now apply since_waiting.
          -- intros X. destruct (Q1 X) as [(Y & Z)|[(Y & Z)|[Y|(Y & Z)]]].
             ++ left. split; auto. now apply drives_other.
             ++ destruct (stopping_other c tick _ e NV WT Y); auto 10.
             ++ right. right. left. now apply ended_other.
             ++ destruct (clearing_other c tick _ e NV WT Y) as [V|V]; [auto 10|]. right. right. left. now right.
          -- intros X. destruct (Q2 X) as [(Y & Z)|[(Y & Z)|Y]].
             ++ left. split; auto. now apply ended_other.
             ++ destruct (clearing_other c tick _ e NV WT Y); auto 10.
             ++ right. right. apply off_step; auto. intros i V. now elim (NV i).
          -- apply off_step; [now apply Q3|]. intros i V. now elim (NV i).
          -- apply (off_unloaded c tick true); now apply Q3.
      + assert (OW : still_owed s').
        { right. split; auto. intros X. rewrite X in S3. discriminate. }
        assert (NIN : ~ in_step s) by (intros (X & _); auto).
        unfold prog. rewrite S6. split; [|split; [|split]]; try (now auto).
        * intros X. destruct (Q0 X) as (_ & _ & Y). contradiction.
        * intros X. destruct (Q1 X) as [(Y & Z)|[(Y & Z)|[Y|(Y & Z)]]]; try contradiction; auto 10.
        * intros X. destruct (Q2 X) as [(Y & Z)|[(Y & Z)|Y]]; try contradiction; auto 10.
      + assert (NOW : ~ still_owed s) by (intros [(X & _)|(_ & X)]; congruence).
        unfold prog. rewrite S7. split; [|split; [|split]]; try (now auto).
        * intros X. destruct (Q0 X) as (_ & Y & _). contradiction.
        * intros X. destruct (Q1 X) as [(Y & Z)|[((cm & mm & Y & _) & Z)|[Y|((_ & _ & cm & mm & Y & _) & Z)]]];
            try contradiction; try congruence; auto 10.
        * intros X. destruct (Q2 X) as [(Y & Z)|[((_ & _ & cm & mm & Y & _) & Z)|Y]]; try contradiction; try congruence; auto 10.
      + assert (IS : in_step s') by (split; congruence).
        assert (NIN : ~ in_step s) by (intros (_ & X); congruence).
        assert (BT : button (mkVsmIn (vh_snap s) (vh_live s)) = Some true \/ button (mkVsmIn (vh_snap s) (vh_live s)) = None).
        { unfold button. cbn [vi_live]. destruct (vh_live s) as [v|] eqn:E; auto. left. f_equal. auto. }
        unfold prog. rewrite S7. split; [|split; [|split]].
        * intros X. destruct (Q0 X) as (_ & Y & _). contradiction.
        * intros X. destruct (Q1 X) as [(Y & Z)|[(Y & Z)|[Y|(Y & Z)]]]; try contradiction.
          -- right. left. split; auto. apply drives_vsm; auto. destruct BT as [BT|BT]; auto. exfalso.
             subst ev. apply (LK b [] eq_refl); [apply Y|]. fold s. unfold button in BT. cbn [vi_live] in BT.
             destruct (vh_live s); [discriminate|auto].
          -- destruct (ended_vsm c tick _ _ Y BT) as [V|V]; [auto 10|]. right. right. left. now right.
        * intros X. destruct (Q2 X) as [(Y & Z)|[(Y & Z)|Y]]; try contradiction.
          -- destruct (ended_vsm c tick _ _ Y BT) as [V|V]; auto 10.
          -- right. right. apply off_step; auto. intros i V. injection V as <-. auto.
        * intros X. destruct (Q3 X) as (Y & Z). split; [|now apply (off_unloaded c tick true)].
          apply off_step; auto. intros i V. injection V as <-. auto.
  Qed.
End Stop.

(** ** Checking concrete runs *)
Fixpoint prefixb (c : config) (tick : Z) (p : vehicle -> list veh_event -> bool) (s : vehicle)
         (tr : list veh_event) : bool :=
  p s tr &&
  match tr with
  | [] => true
  | ev :: t => prefixb c tick p (veh_step c tick (ds_from_config c) s ev) t
  end.

Lemma prefixb_ok : forall c tick p tr s a b, prefixb c tick p s tr = true -> tr = a ++ b ->
  p (fold_left (veh_step c tick (ds_from_config c)) a s) b = true.
Proof.
  intros c tick p. induction tr as [|ev tr IH]; intros s a b H E.
  - destruct a; [|discriminate]. cbn [app] in E. subst b. cbn [prefixb] in H. apply andb_prop in H. apply H.
  - cbn [prefixb] in H. apply andb_prop in H. destruct H as (H & H'). destruct a as [|e a].
    + cbn [app] in E. subst b. exact H.
    + cbn [app] in E. injection E as <- E. cbn [fold_left]. now apply IH.
Qed.

Definition shownb (x : bool) (s : vehicle) (_ : list veh_event) : bool :=
  match f_last (vh_f s) with Some (_, cy) => Bool.eqb (cy_button cy) x | None => false end.
Lemma stays_check : forall c tick m0 a b x,
  prefixb c tick (shownb x) (veh_run c tick m0 a) b = true -> button_stays c tick m0 a b x.
Proof.
  intros c tick m0 a b x H b1 b2 E. pose proof (prefixb_ok c tick _ b _ b1 b2 H E) as Q.
  unfold last_button. rewrite veh_run_app. unfold shownb in Q. destruct (f_last _) as [[n cy]|]; [|discriminate].
  f_equal. now apply Bool.eqb_prop.
Qed.

Definition looksb (s : vehicle) (rest : list veh_event) : bool :=
  match rest with
  | VDecide :: _ => negb (vsm_st_eqb (vm_state (e_vsm (vh_e s))) StActiveForward) || is_some (vh_live s)
  | _ => true
  end.
Lemma looks_check : forall c tick m0 a b,
  prefixb c tick looksb (veh_run c tick m0 a) b = true -> looks_at_button c tick m0 a b.
Proof.
  intros c tick m0 a b H b1 b2 E. pose proof (prefixb_ok c tick _ b _ b1 (VDecide :: b2) H E) as Q.
  rewrite <- veh_run_app in Q. unfold looksb in Q. intros F. rewrite F in Q. cbn in Q.
  destruct (vh_live _); [discriminate|]. discriminate.
Qed.
