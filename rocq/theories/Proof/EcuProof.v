From Verif.Model Require Import Ecu.
From Verif.Spec Require Import VsmSpec EcuSpec.
From Verif.Proof Require Import VsmProof.
From Coq Require Import ZifyBool ZifyNat Floats.SpecFloat.

Lemma ecu_run_snoc : forall c tick m0 es ev,
  ecu_run c tick m0 (es ++ [ev]) = ecu_step c tick (ecu_run c tick m0 es) ev.
Proof. intros. unfold ecu_run. now rewrite fold_left_app. Qed.

(** ** A control step under way *)

(** The calls still to make in a step from [s] to [s']. *)
Inductive under_way : vsm_st -> vsm_st -> list vsm_cmd -> Prop :=
| uw_none s s' : (s = s' /\ s <> StInit) \/ diagram s s' -> under_way s s' []
| uw_init : under_way StInit StLvStartup [CmdEcuError true]
| uw_hv : under_way StLvReady StHvActive [CmdEcuError false]
| uw_inv : under_way StHvActive StHvCharging [CmdEnableInverter]
| uw_fwd2 : under_way StActiveNeutral StActiveForward
                      [CmdMotorDirection DIR_FORWARD; CmdTorqueEnabled true]
| uw_fwd1 : under_way StActiveNeutral StActiveForward [CmdTorqueEnabled true]
| uw_back : under_way StActiveForward StActiveNeutral [CmdTorqueEnabled false]
| uw_f3 : under_way StFault StFault
            [CmdMotorDirection DIR_FORWARD; CmdTorqueEnabled false; CmdEcuError true]
| uw_f2 : under_way StFault StFault [CmdTorqueEnabled false; CmdEcuError true]
| uw_f1 : under_way StFault StFault [CmdEcuError true].

(** The calls a complete step makes. *)
Definition whole (s s' : vsm_st) (cmds : list vsm_cmd) : Prop :=
  cmds = match s, s' with
         | StInit, _ => [CmdEcuError true]
         | StLvReady, StHvActive => [CmdEcuError false]
         | StHvActive, StHvCharging => [CmdEnableInverter]
         | StActiveNeutral, StActiveForward =>
             [CmdMotorDirection DIR_FORWARD; CmdTorqueEnabled true]
         | StActiveForward, StActiveNeutral => [CmdTorqueEnabled false]
         | StFault, _ => [CmdMotorDirection DIR_FORWARD; CmdTorqueEnabled false; CmdEcuError true]
         | _, _ => []
         end.

Lemma step_under_way : forall c tick m i, inv m ->
  let r := vsm_step c tick m i in
  inv (fst r) /\ under_way (vm_state m) (vm_state (fst r)) (snd r) /\
  whole (vm_state m) (vm_state (fst r)) (snd r).
Proof.
  intros c tick m i HI. cbv zeta.
  destruct (step_state c tick m i) as (HS & HI').
  split; [exact HI'|]. rewrite HS, (step_cmds c tick m i). clear HS HI'.
  unfold inv in HI. unfold whole. handlers.
  destruct (vm_state m) eqn:ES; cbn [h_next h_cmds];
  repeat match goal with
         | |- context [match ?x with _ => _ end] =>
             destruct x eqn:?; cbn [h_next h_cmds]
         end; rewrite ?HI;
  split; try congruence; try solve [constructor];
  try solve [constructor; left; split; congruence];
  try solve [constructor; right; constructor; congruence].
Qed.

(** ** The invariant of every schedule *)

Definition done_calls (p : option (list vsm_cmd * vsm)) : bool :=
  match p with Some ([], _) => true | _ => false end.

Definition towards (p : option (list vsm_cmd * vsm)) (s : vsm_st) : bool :=
  match p with Some (_, m') => vsm_st_eqb (vm_state m') s | None => false end.

(** Value of [enabled], if the setters never give up. *)
Definition enabled_at (e : ecu) : bool :=
  match vm_state (e_vsm e) with
  | StActiveForward => negb (done_calls (e_pend e) && towards (e_pend e) StActiveNeutral)
  | StActiveNeutral => done_calls (e_pend e) && towards (e_pend e) StActiveForward
  | StFault => (e_since e =? 0) && vsm_st_eqb (e_from e) StActiveForward &&
               match e_pend e with Some ([_], _) | Some ([], _) => false | _ => true end
  | _ => false
  end.

(** Level of the ECU error output, without PC commands. *)
Definition pin_at (e : ecu) : bool :=
  match vm_state (e_vsm e) with
  | StInit => done_calls (e_pend e)
  | StLvStartup => true
  | StLvReady => negb (done_calls (e_pend e) && towards (e_pend e) StHvActive)
  | StFault => negb (e_since e =? 0) || vsm_st_eqb (e_from e) StLvStartup ||
               vsm_st_eqb (e_from e) StLvReady || done_calls (e_pend e)
  | _ => false
  end.

Record base (e : ecu) : Prop := mkBase {
  b_inv : inv (e_vsm e);
  b_pend : match e_pend e with
           | Some (cmds, m') => inv m' /\ under_way (vm_state (e_vsm e)) (vm_state m') cmds
           | None => True
           end;
  b_since : 0 <= e_since e;
  b_from : vm_state (e_vsm e) <> StInit -> diagram (e_from e) (vm_state (e_vsm e));
  b_maps : th_fwd (e_thr e) = TorqueMap_Default /\ th_rev (e_thr e) = TorqueMap_DefaultReverse /\
           th_dir (e_thr e) = DIR_FORWARD }.

Lemma init_base : forall c tick m0, vsm_init c tick = Some m0 ->
  base (ecu_init m0) /\ th_enabled (e_thr (ecu_init m0)) = enabled_at (ecu_init m0) /\
  e_pin (ecu_init m0) = pin_at (ecu_init m0).
Proof.
  intros c tick m0 H. destruct (init_inv _ _ _ H) as (I1 & I2 & _).
  split; [constructor|]; cbn [ecu_init e_vsm e_pend e_since e_from e_thr]; auto.
  - lia.
  - intros; congruence.
  - unfold enabled_at, pin_at. cbn [ecu_init e_vsm e_pend e_thr e_pin]. rewrite I2. auto.
Qed.

(** What does not touch machine, pending step, throttle flags or pin. *)
Definition frame_eq (e e' : ecu) : Prop :=
  e_vsm e' = e_vsm e /\ e_pend e' = e_pend e /\ e_thr e' = e_thr e /\ e_from e' = e_from e /\
  e_since e' = e_since e.

Lemma non_vsm_frame : forall c tick e ev, is_vsm ev = false -> frame_eq e (ecu_step c tick e ev).
Proof.
  intros c tick e ev H. unfold frame_eq.
  destruct ev; try discriminate; cbn [ecu_step];
  repeat match goal with
         | |- context [match ?x with _ => _ end] => destruct x
         end; cbn; auto 10.
Qed.

Lemma non_pc_pin : forall c tick e ev, is_vsm ev = false -> is_pc ev = false ->
  e_pin (ecu_step c tick e ev) = e_pin e.
Proof.
  intros c tick e ev H H'. destruct ev; try discriminate; cbn [ecu_step];
  repeat match goal with
         | |- context [match ?x with _ => _ end] => destruct x
         end; reflexivity.
Qed.

Lemma frame_enabled_at : forall e e', frame_eq e e' -> enabled_at e' = enabled_at e.
Proof. intros e e' (A & B & C & D & E). unfold enabled_at. now rewrite A, B, D, E. Qed.
Lemma frame_pin_at : forall e e', frame_eq e e' -> pin_at e' = pin_at e.
Proof. intros e e' (A & B & C & D & E). unfold pin_at. now rewrite A, B, D, E. Qed.
Lemma frame_base : forall e e', frame_eq e e' -> base e -> base e'.
Proof.
  intros e e' (A & B & C & D & E) []. constructor; rewrite ?A, ?B, ?C, ?D, ?E; auto.
Qed.

(** The state manager starts a step. *)
Lemma start_step : forall c tick e i, base e ->
  let e' := ecu_step c tick e (EvVsm i) in
  base e' /\ enabled_at e' = enabled_at e /\ pin_at e' = pin_at e /\
  e_thr e' = e_thr e /\ e_pin e' = e_pin e.
Proof.
  intros c tick e i B. cbn [ecu_step].
  destruct (e_pend e) as [p|] eqn:EP; [tauto|].
  destruct B as [B1 B2 B3 B4 B5].
  destruct (step_under_way c tick (e_vsm e) i B1) as (I' & U & W).
  destruct (vsm_step c tick (e_vsm e) i) as [m' cmds]. cbn [fst snd] in *.
  split; [constructor; cbn; auto|].
  unfold enabled_at, pin_at; cbn [e_vsm e_pend e_since e_from e_thr e_pin]. rewrite EP.
  unfold whole in W.
  destruct (vm_state (e_vsm e)) eqn:ES, (vm_state m') eqn:ES';
    try (inversion U as [? ? [[? ?]|D]| | | | | | | | |]; subst; try congruence; inversion D; fail);
    subst cmds; cbn [done_calls towards andb negb]; rewrite ?ES', ?andb_true_r, ?orb_false_r;
    cbn; auto.
Qed.

(** It makes one call. *)
Lemma call_step : forall c tick e tl il ok1 ok2 cmd rest m', base e ->
  e_pend e = Some (cmd :: rest, m') ->
  let e' := ecu_step c tick e (EvCmd tl il ok1 ok2) in
  base e' /\
  (tl = true -> th_enabled (e_thr e) = enabled_at e -> th_enabled (e_thr e') = enabled_at e') /\
  (e_pin e = pin_at e -> e_pin e' = pin_at e').
Proof.
  intros c tick e tl il ok1 ok2 cmd rest m' [B1 B2 B3 B4 B5] EP.
  rewrite EP in B2. destruct B2 as (I' & U). destruct B5 as (F1 & F2 & F3).
  cbn [ecu_step]. rewrite EP.
  unfold enabled_at, pin_at. rewrite EP.
  inversion U as [s s' D E1 E2 E3|E1 E2 E3|E1 E2 E3|E1 E2 E3|E1 E2 E3|E1 E2 E3|E1 E2 E3|
                  E1 E2 E3|E1 E2 E3|E1 E2 E3]; subst cmd rest;
  cbn [ecu_call]; (split; [|cbn [e_vsm e_pend e_since e_from e_thr e_pin]; rewrite <- E1;
     cbn [done_calls towards andb negb orb]; rewrite <- ?E2]).
  all: try solve [constructor;
     cbn [e_vsm e_pend e_since e_from e_thr SetMotorDirection SetTorqueEnabled fst]; auto;
     try solve [destruct tl; cbn; auto];
     rewrite <- E1, <- E2; split; auto;
     solve [constructor; left; split; congruence | constructor; right; constructor; congruence
           | constructor]].
  all: (split; [intros -> H|intros H]); cbn in *; auto;
  rewrite ?orb_false_r, ?orb_true_r, ?andb_true_r, ?andb_false_r in *; auto.
Qed.

(** It commits. *)
Lemma commit_step : forall c tick e tl il ok1 ok2 m', base e ->
  e_pend e = Some ([], m') ->
  let e' := ecu_step c tick e (EvCmd tl il ok1 ok2) in
  base e' /\ e_thr e' = e_thr e /\ e_pin e' = e_pin e /\
  enabled_at e' = enabled_at e /\ pin_at e' = pin_at e.
Proof.
  intros c tick e tl il ok1 ok2 m' [B1 B2 B3 B4 B5] EP.
  rewrite EP in B2. destruct B2 as (I' & U). cbn [ecu_step]. rewrite EP.
  inversion U as [s s' D E1 E2 E3| | | | | | | | |]; subst s s'. clear U.
  unfold ecu_commit, enabled_at, pin_at. rewrite EP.
  cbn [e_vsm e_pend e_since e_from e_thr e_pin done_calls towards andb].
  split; [constructor; cbn [e_vsm e_pend e_since e_from e_thr e_pin]; auto|].
  - destruct (vsm_st_eqb _ _); lia.
  - intros NI. destruct (vsm_st_eqb (vm_state (e_vsm e)) (vm_state m')) eqn:EQ.
    + apply eqb_st in EQ. rewrite <- EQ in *. auto.
    + apply eqb_st_false in EQ. destruct D as [[D _]|D]; congruence.
  - repeat split.
    + destruct D as [[D N]|D].
      * rewrite <- D. destruct (vm_state (e_vsm e)) eqn:ES; cbn [vsm_st_eqb andb negb]; auto.
        replace (e_since e + 1 =? 0) with false by lia. now rewrite andb_false_r.
      * destruct D as [| | | | | | |s NI NF]; cbn; auto.
        destruct s; try congruence; cbn; auto.
    + destruct D as [[D N]|D].
      * rewrite <- D. destruct (vm_state (e_vsm e)) eqn:ES; cbn [vsm_st_eqb andb negb orb];
        try congruence; auto.
        replace (e_since e + 1 =? 0) with false by lia. now rewrite orb_true_r.
      * destruct D as [| | | | | | |s NI NF]; cbn; auto.
        destruct s; try congruence; cbn; auto.
Qed.

Lemma event_step : forall c tick e ev, base e ->
  let e' := ecu_step c tick e ev in
  base e' /\
  (waits ev -> th_enabled (e_thr e) = enabled_at e -> th_enabled (e_thr e') = enabled_at e') /\
  (is_pc ev = false -> e_pin e = pin_at e -> e_pin e' = pin_at e').
Proof.
  intros c tick e ev B. cbv zeta. destruct (is_vsm ev) eqn:V.
  - destruct ev as [i|tl il ok1 ok2| | | | | |]; try discriminate.
    + destruct (start_step c tick e i B) as (B' & E1 & E2 & E3 & E4). cbv zeta in *.
      rewrite E1, E2, E3, E4. tauto.
    + destruct (e_pend e) as [[[|cmd rest] m']|] eqn:EP.
      * destruct (commit_step c tick e tl il ok1 ok2 m' B EP) as (B' & E1 & E2 & E3 & E4).
        cbv zeta in *. rewrite E1, E2, E3, E4. tauto.
      * destruct (call_step c tick e tl il ok1 ok2 cmd rest m' B EP) as (B' & E1 & E2).
        cbv zeta in *. cbn [waits]. tauto.
      * cbn [ecu_step]. rewrite EP. tauto.
  - pose proof (non_vsm_frame c tick e ev V) as F.
    rewrite (frame_enabled_at _ _ F), (frame_pin_at _ _ F).
    split; [exact (frame_base _ _ F B)|]. destruct F as (_ & _ & -> & _).
    split; auto. intros P. now rewrite (non_pc_pin c tick e ev V P).
Qed.

Lemma run_base : forall c tick m0 es, vsm_init c tick = Some m0 ->
  base (ecu_run c tick m0 es) /\
  (Forall waits es -> let e := ecu_run c tick m0 es in th_enabled (e_thr e) = enabled_at e) /\
  (forallb (fun ev => negb (is_pc ev)) es = true ->
   let e := ecu_run c tick m0 es in e_pin e = pin_at e).
Proof.
  intros c tick m0 es HI. induction es as [|ev es IH] using rev_ind.
  - destruct (init_base c tick m0 HI) as (A & B & C). unfold ecu_run. cbn. auto.
  - destruct IH as (B & E & P). rewrite ecu_run_snoc.
    destruct (event_step c tick (ecu_run c tick m0 es) ev B) as (B' & E' & P').
    cbv zeta in *. split; [exact B'|]. split.
    + intros F. apply Forall_app in F. destruct F as (F1 & F2). inversion F2; subst.
      apply E'; auto.
    + intros F. rewrite forallb_app in F. cbn in F. apply andb_prop in F. destruct F as (F1 & F2).
      apply P'; auto. destruct (is_pc ev); [discriminate|reflexivity].
Qed.

(** ** C13 *)

Lemma enabled_driving : forall e, base e -> enabled_at e = true -> driving e.
Proof.
  intros e B H. unfold enabled_at in H. unfold driving.
  destruct (vm_state (e_vsm e)) eqn:ES; try discriminate; auto.
  - apply andb_prop in H. destruct H as (H & _). apply andb_prop in H. destruct H as (H1 & H2).
    apply eqb_st in H2. right; right. repeat split; auto. lia.
  - right; left. split; auto. destruct (e_pend e) as [[[|x l] m']|]; try discriminate.
    exists m'. split; auto. apply eqb_st. exact H.
Qed.

(** The throttle task carries a request it computed while it saw [enabled]. *)
Definition loaded (pc : thr_pc) : bool :=
  match pc with
  | TOn _ => true
  | TTorque q | TRequest q _ => negb (match q with S754_zero false => true | _ => false end)
  | _ => false
  end.

Lemma loaded_after : forall c tick e ev,
  loaded (e_tpc (ecu_step c tick e ev)) = true ->
  loaded (e_tpc e) = true \/
  (ev = EvReadEnabled /\ th_enabled (e_thr e) = true /\ exists a, e_tpc e = TPedal a).
Proof.
  intros c tick e ev H. destruct ev; cbn [ecu_step] in H.
  - destruct (e_pend e) as [p|]; auto. destruct (vsm_step _ _ _ _). auto.
  - destruct (e_pend e) as [[[|[] l] m']|]; auto.
  - destruct (e_tpc e) eqn:E; cbn in H; auto; try (rewrite E in H; auto); discriminate.
  - destruct (e_tpc e) eqn:E; cbn in H; auto; try (rewrite E in H; auto).
    destruct (th_enabled (e_thr e)) eqn:T; [|discriminate]. right. eauto.
  - destruct (e_tpc e) eqn:E; cbn in H; auto; try (rewrite E in H; auto).
  - destruct (e_tpc e) eqn:E; cbn in H; auto; try (rewrite E in H; auto).
  - destruct (e_tpc e) eqn:E; cbn in H; auto; try (rewrite E in H; auto).
    destruct (SendTorqueCommand _ _ _ _ _); cbn in H; discriminate.
  - cbn in H. auto.
Qed.

Lemma zero_frame_quiet : forall l ok c d r t,
  SendTorqueCommand l ok c f_zero d = Some r -> In t (ir_tx r) -> asks_torque t = false.
Proof.
  unfold SendTorqueCommand. intros l ok c d r t H.
  replace (flt f_zero f_zero || fgt f_zero INVERTER_MAX_TORQUE) with false in H
    by (vm_compute; reflexivity).
  destruct l; cbn [negb] in H; [|inversion H; subst; intros []].
  destruct (ic_enabled c); cbn [negb] in H; [|inversion H; subst; intros []].
  unfold SendCANCommand in H.
  replace (torqueToMsg f_zero) with (Some 0) in H by (vm_compute; reflexivity).
  inversion H; subst. cbn [ir_tx In]. intros [<-|[]]. reflexivity.
Qed.

(** Every event only adds frames, and only a loaded throttle task asks for torque. *)
Lemma frames_added : forall c tick e ev,
  exists l, e_sent (ecu_step c tick e ev) = e_sent e ++ l /\
    (length (filter asks_torque l) <= 1)%nat /\
    forall t, In t l -> asks_torque t = true ->
      loaded (e_tpc e) = true /\ e_tpc (ecu_step c tick e ev) = TIdle /\
      exists il ok, ev = EvRequest il ok.
Proof.
  intros c tick e ev.
  assert (Z : e_sent (ecu_step c tick e ev) = e_sent e ->
     exists l, e_sent (ecu_step c tick e ev) = e_sent e ++ l /\
    (length (filter asks_torque l) <= 1)%nat /\
    forall t, In t l -> asks_torque t = true ->
      loaded (e_tpc e) = true /\ e_tpc (ecu_step c tick e ev) = TIdle /\
      exists il ok, ev = EvRequest il ok).
  { intros H. exists []. rewrite app_nil_r. split; [auto|]. split; [cbn; auto|]. intros t []. }
  destruct ev as [i|tl il ok1 ok2|live| | | |il ok|on]; cbn [ecu_step] in *.
  - destruct (e_pend e) as [p|]; auto. destruct (vsm_step _ _ _ _). auto.
  - destruct (e_pend e) as [[[|[] l] m']|]; auto.
    cbn [ecu_call e_sent e_tpc] in *. clear Z.
    exists (ir_tx (SendInverterEnabled il ok1 ok2 (e_inv e) true)).
    assert (A : forall t, In t (ir_tx (SendInverterEnabled il ok1 ok2 (e_inv e) true)) ->
                asks_torque t = false).
    { unfold SendInverterEnabled. intros t.
      destruct il; cbn [negb]; [|intros []].
      destruct (ic_discharge (e_inv e)); cbn [andb]; [intros []|].
      destruct (ic_enabled (e_inv e)); cbn; intros [<-|H]; auto;
        [destruct H|destruct H as [<-|[]]; auto]. }
    split; [reflexivity|]. split.
    + replace (filter asks_torque _) with (@nil tx); [auto|].
      symmetry. revert A. generalize (ir_tx (SendInverterEnabled il ok1 ok2 (e_inv e) true)).
      induction l0 as [|x l0 IH]; cbn; intros A; auto. rewrite (A x) by auto. apply IH. auto.
    + intros t H1 H2. rewrite (A t H1) in H2. discriminate.
  - destruct (e_tpc e); auto.
  - destruct (e_tpc e); auto.
  - destruct (e_tpc e); auto.
  - destruct (e_tpc e); auto.
  - destruct (e_tpc e) as [| | | |q d] eqn:E; auto.
    destruct (SendTorqueCommand il ok (e_inv e) q d) as [r|] eqn:S; auto. clear Z.
    exists (ir_tx r). cbn [e_sent e_tpc]. split; [reflexivity|]. split.
    + unfold SendTorqueCommand in S.
      repeat match type of S with
             | context [if ?b then _ else _] => destruct b
             | context [match ?b with Some _ => _ | None => _ end] => destruct b
             end; inversion S; subst; cbn [ir_tx filter]; try (destruct (asks_torque _)); cbn; auto.
    + intros t H1 H2. split; [|eauto].
      cbn [loaded]. destruct q as [[]| | |]; auto.
      rewrite (zero_frame_quiet _ _ _ _ _ _ S H1) in H2. discriminate.
  - auto.
Qed.

(** The history of the request the throttle task is carrying. *)
Lemma loaded_history : forall c tick m0 es, vsm_init c tick = Some m0 -> Forall waits es ->
  loaded (e_tpc (ecu_run c tick m0 es)) = true ->
  exists es1 es2, es = es1 ++ EvReadEnabled :: es2 /\
    driving (ecu_run c tick m0 es1) /\
    forall a b, es2 = a ++ b -> e_tpc (ecu_run c tick m0 (es1 ++ EvReadEnabled :: a)) <> TIdle.
Proof.
  intros c tick m0 es HI. induction es as [|ev es IH] using rev_ind; [discriminate|].
  intros W L. apply Forall_app in W. destruct W as (W & Wv). rewrite ecu_run_snoc in L.
  destruct (loaded_after _ _ _ _ L) as [L0|(-> & EN & a & PC)].
  - destruct (IH W L0) as (es1 & es2 & -> & D & N).
    exists es1, (es2 ++ [ev]). split; [now rewrite <- app_assoc|]. split; [exact D|].
    intros x y EQ. destruct (rev_ind (fun y => y = [] \/ exists y' z, y = y' ++ [z])
                               (or_introl eq_refl) (fun z l _ => or_intror (ex_intro _ l (ex_intro _ z eq_refl))) y)
      as [->|(y' & z & ->)].
    + rewrite app_nil_r in EQ. subst x.
      replace (es1 ++ EvReadEnabled :: es2 ++ [ev]) with ((es1 ++ EvReadEnabled :: es2) ++ [ev])
        by (now rewrite <- app_assoc).
      rewrite ecu_run_snoc. intros C. rewrite C in L. discriminate.
    + rewrite app_assoc in EQ. apply app_inj_tail in EQ. destruct EQ as (EQ & _).
      apply (N _ _ EQ).
  - exists es, []. split; [reflexivity|]. destruct (run_base c tick m0 es HI) as (B & E & _).
    split; [apply enabled_driving; auto; rewrite <- (E W); exact EN|].
    intros x y EQ. symmetry in EQ. apply app_eq_nil in EQ. destruct EQ as (-> & ->).
    rewrite ecu_run_snoc. intros C. rewrite C in L. discriminate.
Qed.

Lemma torque_history : forall c tick m0 es ev t, vsm_init c tick = Some m0 -> Forall waits es ->
  sends c tick (ecu_run c tick m0 es) ev t -> asks_torque t = true ->
  exists es1 es2, es = es1 ++ EvReadEnabled :: es2 /\
    driving (ecu_run c tick m0 es1) /\
    forall a b, es2 = a ++ b -> e_tpc (ecu_run c tick m0 (es1 ++ EvReadEnabled :: a)) <> TIdle.
Proof.
  intros c tick m0 es ev t HI W (l & E & IN) A.
  destruct (frames_added c tick (ecu_run c tick m0 es) ev) as (l' & E' & _ & F).
  rewrite E in E'. apply app_inv_head in E'. subst l'.
  destruct (F t IN A) as (L & _). apply loaded_history; auto.
Qed.

Lemma driving_frame : forall e e', frame_eq e e' -> driving e -> driving e'.
Proof. intros e e' (A & B & C & D & E). unfold driving. now rewrite A, B, D, E. Qed.

Lemma driving_undisturbed : forall c tick es e, forallb (fun ev => negb (is_vsm ev)) es = true ->
  driving e -> driving (fold_left (ecu_step c tick) es e).
Proof.
  induction es as [|ev es IH]; intros e H D; auto. cbn in H. apply andb_prop in H.
  destruct H as (H & H'). cbn [fold_left]. apply IH; auto.
  apply (driving_frame e); auto. apply non_vsm_frame. now destruct (is_vsm ev).
Qed.

(** At most one late request. *)
Lemma late_aux : forall c tick es e,
  (forall a b, es = a ++ b -> b <> [] -> th_enabled (e_thr (fold_left (ecu_step c tick) a e)) = false) ->
  exists l, e_sent (fold_left (ecu_step c tick) es e) = e_sent e ++ l /\
    (length (filter asks_torque l) +
     (if loaded (e_tpc (fold_left (ecu_step c tick) es e)) then 1 else 0) <=
     (if loaded (e_tpc e) then 1 else 0))%nat.
Proof.
  induction es as [|ev es IH]; intros e H.
  - exists []. cbn. rewrite app_nil_r. auto.
  - cbn [fold_left]. destruct (IH (ecu_step c tick e ev)) as (l & E & LE).
    { intros a b -> NE. apply (H (ev :: a) b); auto. }
    destruct (frames_added c tick e ev) as (l0 & E0 & L0 & F0).
    exists (l0 ++ l). split; [now rewrite E, E0, <- app_assoc|].
    rewrite filter_app, app_length.
    assert (EN : th_enabled (e_thr e) = false) by (apply (H [] (ev :: es)); [auto|congruence]).
    assert (Q : (length (filter asks_torque l0) +
                 (if loaded (e_tpc (ecu_step c tick e ev)) then 1 else 0) <=
                 if loaded (e_tpc e) then 1 else 0)%nat).
    { destruct (filter asks_torque l0) as [|t r] eqn:FL.
      - cbn [length]. destruct (loaded (e_tpc (ecu_step c tick e ev))) eqn:L1; [|lia].
        destruct (loaded_after _ _ _ _ L1) as [->|(_ & C & _)]; [lia|congruence].
      - assert (IN : In t (filter asks_torque l0)) by (rewrite FL; left; auto).
        apply filter_In in IN. destruct (F0 t) as (A & B & _); try tauto.
        rewrite A, B. cbn [loaded]. lia. }
    lia.
Qed.

Lemma at_most_one_late : forall c tick m0 es es1, vsm_init c tick = Some m0 ->
  Forall waits (es ++ es1) ->
  (forall a b, es1 = a ++ b -> ~ driving (ecu_run c tick m0 (es ++ a))) ->
  exists l, e_sent (ecu_run c tick m0 (es ++ es1)) = e_sent (ecu_run c tick m0 es) ++ l /\
    (length (filter asks_torque l) <= 1)%nat.
Proof.
  intros c tick m0 es es1 HI W ND. unfold ecu_run. rewrite fold_left_app.
  destruct (late_aux c tick es1 (fold_left (ecu_step c tick) es (ecu_init m0))) as (l & E & LE).
  - intros a b -> NE. rewrite <- fold_left_app.
    destruct (run_base c tick m0 (es ++ a) HI) as (B & E & _).
    assert (W' : Forall waits (es ++ a)).
    { rewrite app_assoc in W. apply Forall_app in W. tauto. }
    specialize (E W'). cbv zeta in E. fold (ecu_run c tick m0 (es ++ a)). rewrite E.
    destruct (enabled_at _) eqn:EN; auto. exfalso. apply (ND a b eq_refl).
    apply enabled_driving; auto.
  - exists l. split; auto. destruct (loaded _) in LE at 2; lia.
Qed.

(** ** C58 *)
Lemma hv_pin_low : forall e, hv_state (vm_state (e_vsm e)) -> pin_at e = false.
Proof. unfold pin_at, hv_state. intros e [->|[->|[->| ->]]]; reflexivity. Qed.

Lemma release_only : forall c tick e ev, base e ->
  e_pin e = true -> e_pin (ecu_step c tick e ev) = false ->
  ev = EvPcEcu false \/
  (vm_state (e_vsm e) = StLvReady /\ (exists tl il a b, ev = EvCmd tl il a b) /\
   exists m', e_pend e = Some ([CmdEcuError false], m') /\ vm_state m' = StHvActive).
Proof.
  intros c tick e ev B P P'. destruct (is_vsm ev) eqn:V.
  - destruct ev as [i|tl il ok1 ok2| | | | | |]; try discriminate.
    + destruct (start_step c tick e i B) as (_ & _ & _ & _ & E). cbv zeta in E. congruence.
    + destruct (e_pend e) as [[[|cmd rest] m']|] eqn:EP.
      * destruct (commit_step c tick e tl il ok1 ok2 m' B EP) as (_ & _ & E & _). cbv zeta in E.
        congruence.
      * cbn [ecu_step] in P'. rewrite EP in P'. destruct B as [_ B2 _ _ _].
        rewrite EP in B2. destruct B2 as (_ & U).
        right. inversion U; subst; cbn in P'; try congruence.
        split; auto. split; eauto 10.
      * cbn [ecu_step] in P'. rewrite EP in P'. congruence.
  - destruct (is_pc ev) eqn:PC.
    + destruct ev; try discriminate. cbn in P'. subst on. auto.
    + rewrite (non_pc_pin c tick e ev V PC) in P'. congruence.
Qed.

(** Once a step in FAULT has been started, its last call asserts the pin. *)
Definition fault_step_pin (e : ecu) : Prop :=
  vm_state (e_vsm e) = StFault /\
  (e_pin e = true \/ exists cmd rest m', e_pend e = Some (cmd :: rest, m')).

Lemma fault_step_keeps : forall c tick e ev, base e -> is_pc ev = false ->
  fault_step_pin e -> fault_step_pin (ecu_step c tick e ev).
Proof.
  intros c tick e ev B PC (S & P). pose proof B as [B1 B2 _ _ _].
  destruct (is_vsm ev) eqn:V.
  - destruct ev as [i|tl il ok1 ok2| | | | | |]; try discriminate.
    + destruct (start_step c tick e i B) as (_ & _ & _ & _ & E). cbv zeta in E.
      unfold fault_step_pin. rewrite E. cbn [ecu_step]. destruct (e_pend e) as [p|] eqn:EP.
      * rewrite EP. auto.
      * destruct (vsm_step _ _ _ _). cbn. split; auto.
        destruct P as [P|(x & y & z & P)]; [auto|discriminate].
    + cbn [ecu_step]. destruct (e_pend e) as [[[|cmd rest] m']|] eqn:EP; cbv beta iota.
      * destruct B2 as (_ & U). rewrite S in U.
        inversion U as [s s' D E1 E2 E3| | | | | | | | |]; subst s.
        assert (F : vm_state m' = StFault).
        { destruct D as [[<- _]|D]; auto. inversion D; congruence. }
        unfold fault_step_pin, ecu_commit. cbn. split; auto.
        destruct P as [P|(x & y & z & P)]; [auto|discriminate].
      * destruct B2 as (_ & U). rewrite S in U. unfold fault_step_pin.
        inversion U; subst; cbn; split; eauto 10.
      * split; auto. destruct P as [P|(x & y & z & P)]; [auto|congruence].
  - unfold fault_step_pin. rewrite (non_pc_pin c tick e ev V PC).
    destruct (non_vsm_frame c tick e ev V) as (-> & -> & _). split; auto.
Qed.

Lemma fault_reasserts : forall c tick m0 es0 i es1, vsm_init c tick = Some m0 ->
  vm_state (e_vsm (ecu_run c tick m0 es0)) = StFault ->
  e_pend (ecu_run c tick m0 es0) = None ->
  forallb (fun ev => negb (is_pc ev)) es1 = true ->
  e_pend (ecu_run c tick m0 (es0 ++ EvVsm i :: es1)) = None ->
  e_pin (ecu_run c tick m0 (es0 ++ EvVsm i :: es1)) = true.
Proof.
  intros c tick m0 es0 i es1 HI S N PC N'.
  assert (K : fault_step_pin (ecu_run c tick m0 (es0 ++ EvVsm i :: es1))).
  { clear N'. induction es1 as [|ev es1 IH] using rev_ind.
    - rewrite ecu_run_snoc. cbn [ecu_step]. rewrite N.
      destruct (run_base c tick m0 es0 HI) as ([B1 _ _ _ _] & _).
      destruct (step_under_way c tick (e_vsm (ecu_run c tick m0 es0)) i B1) as (_ & _ & W).
      destruct (vsm_step _ _ _ _) as [m' cmds]. cbn [fst snd] in W.
      unfold whole in W. rewrite S in W. subst cmds. split; [exact S|]. right. cbn. eauto.
    - rewrite forallb_app in PC. cbn in PC. apply andb_prop in PC. destruct PC as (P1 & P2).
      replace (es0 ++ EvVsm i :: es1 ++ [ev]) with ((es0 ++ EvVsm i :: es1) ++ [ev])
        by (now rewrite <- app_assoc).
      rewrite ecu_run_snoc. apply fault_step_keeps; auto.
      + apply (run_base c tick m0 (es0 ++ EvVsm i :: es1) HI).
      + destruct (is_pc ev); [discriminate|reflexivity]. }
  destruct K as (_ & [K|(x & y & z & K)]); [exact K|congruence].
Qed.
