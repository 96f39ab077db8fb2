From Coq Require Import ZifyBool ZifyNat Floats.SpecFloat.
From Verif.Base Require Import Words.
From Verif.Model Require Import Vehicle.
From Verif.Spec Require Import FaultSpec VsmSpec FreshSpec InverterSpec EcuSpec VehicleSpec ButtonSpec.
From Verif.Proof Require Import FaultProof VsmProof EcuProof FreshProof VehicleProof VehicleClaims.
Open Scope Z_scope.

(** ** What the machine has been shown *)
Definition asked (P1 P2 P3 : Prop) (m : vsm) : Prop :=
  (hv_state (vm_state m) -> P1) /\
  (vm_state m = StHvActive \/ vm_state m = StHvCharging -> vm_prevBtn m = true) /\
  (vm_state m = StActiveNeutral -> vm_prevBtn m = false -> P2) /\
  (vm_state m = StActiveForward -> P3).

Lemma asked_more : forall (P1 P2 P3 Q1 Q2 Q3 : Prop) m, (P1 -> Q1) -> (P2 -> Q2) -> (P3 -> Q3) ->
  asked P1 P2 P3 m -> asked Q1 Q2 Q3 m.
Proof. unfold asked. intros. intuition. Qed.

Lemma asked_step : forall c tick (P1 P2 P3 Q1 Q2 Q3 : Prop) m i, inv m -> asked P1 P2 P3 m ->
  (P1 -> Q1) -> (P2 -> Q2) -> (P3 -> Q3) ->
  (button i = Some true -> Q1) -> (P1 -> button i = Some false -> Q2) ->
  (P2 -> button i = Some true -> Q3) ->
  asked Q1 Q2 Q3 (fst (vsm_step c tick m i)) /\
  (In CmdEnableInverter (snd (vsm_step c tick m i)) -> Q1) /\
  (In (CmdTorqueEnabled true) (snd (vsm_step c tick m i)) -> Q3).
Proof.
  intros c tick P1 P2 P3 Q1 Q2 Q3 m i I (A1 & A2 & A3 & A4) H1 H2 H3 B1 B2 B3.
  unfold asked. rewrite (proj1 (step_state c tick m i)), step_prev, step_cmds.
  unfold inv in I. unfold hv_state, button in *.
  handlers. destruct (vm_state m) eqn:E; destruct (report c m i) eqn:R; cbn [is_no_fault h_next h_prev h_cmds];
    try (destruct (vi_live i) as [d|]; cbn [h_next h_prev h_cmds]);
    try (destruct (d_buttonPressed (vs_dash d)) eqn:BT; cbn [andb h_next h_prev h_cmds]);
    try (destruct (vm_prevBtn m) eqn:PB; cbn [negb andb h_next h_prev h_cmds]);
    repeat match goal with |- context [if ?b then _ else _] => destruct b; cbn [h_next h_prev h_cmds] end;
    rewrite ?I; cbn [In]; intuition (try congruence; try discriminate).
Qed.

(** ** The whole ECU *)
Record granted (P1 P2 P3 : Prop) (e : ecu) : Prop := mkGranted {
  gr_inv : inv (e_vsm e);
  gr_m : asked P1 P2 P3 (e_vsm e);
  gr_pend : forall cmds m', e_pend e = Some (cmds, m') ->
    inv m' /\ asked P1 P2 P3 m' /\ (In CmdEnableInverter cmds -> P1) /\ (In (CmdTorqueEnabled true) cmds -> P3);
  gr_on : th_enabled (e_thr e) = true -> P3;
  gr_load : loaded (e_tpc e) = true -> P3;
  gr_drv : ic_enabled (e_inv e) = true -> P1 }.

Lemma granted_more : forall (P1 P2 P3 Q1 Q2 Q3 : Prop) e, (P1 -> Q1) -> (P2 -> Q2) -> (P3 -> Q3) ->
  granted P1 P2 P3 e -> granted Q1 Q2 Q3 e.
Proof.
  intros P1 P2 P3 Q1 Q2 Q3 e H1 H2 H3 [I M P O L D]. constructor; auto.
  - now apply (asked_more P1 P2 P3).
  - intros cmds m' E. destruct (P cmds m' E) as (A & B & C & F). split; auto.
    split; [now apply (asked_more P1 P2 P3)|]. auto.
Qed.

Lemma granted_step : forall c tick P1 P2 P3 e ev, granted P1 P2 P3 e ->
  (forall i, ev <> EvVsm i) -> granted P1 P2 P3 (ecu_step c tick e ev).
Proof.
  intros c tick P1 P2 P3 e ev G NV.
  assert (LD : loaded (e_tpc (ecu_step c tick e ev)) = true -> P3).
  { intros L. destruct (loaded_after _ _ _ _ L) as [Q|(_ & Q & _)]; [now apply (gr_load _ _ _ _ G)|now apply (gr_on _ _ _ _ G)]. }
  destruct G as [I M P O L D].
  destruct ev as [i|tl il ok1 ok2|live| | | |il ok|on]; [now elim (NV i)|..]; cbn [ecu_step] in *.
  - destruct (e_pend e) as [[[|cmd rest] m']|] eqn:E; [|
      |constructor; auto; congruence].
    + destruct (P _ _ eq_refl) as (A & B & _ & _). constructor; cbn [ecu_commit e_vsm e_pend e_thr e_tpc e_inv]; auto.
      intros; discriminate.
    + destruct (P _ _ eq_refl) as (A & B & C & F).
      destruct cmd as [on| |dir|on]; constructor; cbn [ecu_call e_vsm e_pend e_thr e_tpc e_inv] in *; auto;
        try (intros cmds m2 Q; injection Q as <- <-; cbn [In] in C, F; now auto 12).
      * unfold SendInverterEnabled. destruct il; cbn [negb ir_cmd]; auto.
        destruct (ic_discharge (e_inv e)); cbn [andb ir_cmd ic_enabled]; auto.
        intros _. apply C. now left.
      * destruct tl; cbn; auto.
      * destruct tl; cbn; auto. intros Q. apply F. left. congruence.
  - destruct (e_tpc e); constructor; auto.
  - destruct (e_tpc e); constructor; auto.
  - destruct (e_tpc e); constructor; auto.
  - destruct (e_tpc e); constructor; auto.
  - destruct (e_tpc e) as [| | | |q d] eqn:PC; try (constructor; auto; fail).
    destruct (SendTorqueCommand il ok (e_inv e) q d) as [r|] eqn:SR; constructor; cbn [e_vsm e_pend e_thr e_tpc e_inv]; auto.
    unfold SendTorqueCommand in SR.
    repeat match type of SR with
           | context [if ?b then _ else _] => destruct b
           | context [match ?b with Some _ => _ | None => _ end] => destruct b
           end; inversion SR; subst; cbn [ir_cmd]; auto.
  - constructor; auto.
Qed.

Lemma enable_byte : forall q d, frame_enable (command_bytes q d false false) = false.
Proof. reflexivity. Qed.

(** Frames that enable the inverter. *)
Lemma enable_frames : forall c tick P1 P2 P3 e ev l t, granted P1 P2 P3 e ->
  e_sent (ecu_step c tick e ev) = e_sent e ++ l -> In t l -> frame_enable (tx_data t) = true -> P1.
Proof.
  intros c tick P1 P2 P3 e ev l t [I M P O L D] E IN F.
  assert (Z : e_sent (ecu_step c tick e ev) <> e_sent e).
  { intros Q. rewrite Q in E. rewrite <- (app_nil_r (e_sent e)) in E at 1. apply app_inv_head in E. subst l. destruct IN. }
  destruct ev as [i|tl il ok1 ok2|live| | | |il ok|on]; cbn [ecu_step] in *.
  - destruct (e_pend e) as [p|]; [now elim Z|]. destruct (vsm_step _ _ _ _). now elim Z.
  - destruct (e_pend e) as [[[|[] rest] m']|]; try now elim Z.
    destruct (P _ _ eq_refl) as (_ & _ & C & _). apply C. now left.
  - destruct (e_tpc e); now elim Z.
  - destruct (e_tpc e); now elim Z.
  - destruct (e_tpc e); now elim Z.
  - destruct (e_tpc e); now elim Z.
  - destruct (e_tpc e) as [| | | |q d]; try now elim Z.
    destruct (SendTorqueCommand il ok (e_inv e) q d) as [r|] eqn:SR; [|now elim Z].
    cbn [e_sent] in E. apply app_inv_head in E. subst l. unfold SendTorqueCommand in SR.
    destruct (flt q f_zero || fgt q INVERTER_MAX_TORQUE); [injection SR as <-; destruct IN|].
    destruct il; cbn [negb] in SR; [|injection SR as <-; destruct IN].
    destruct (ic_enabled (e_inv e)) eqn:EN; cbn [negb] in SR; [auto|injection SR as <-; destruct IN].
  - now elim Z.
Qed.

(** ** The run of the vehicle *)
Section Button.
  Variables (c : config) (tick : Z) (m0 : vsm).
  Notation run tr := (veh_run c tick m0 tr).
  Notation went tr bs := (button_went c tick m0 tr bs).
  Notation last tr := (last_button c tick m0 tr).
  Let d := ds_from_config c.

  Lemma went_more : forall bs tr e, went tr bs -> went (tr ++ e) bs.
  Proof.
    intros [|b bs] tr e H; [exact Logic.I|]. destruct H as (x & y & -> & L & W).
    exists x, (y ++ e). now rewrite app_assoc.
  Qed.

  Lemma last_step : forall s ev, f_last (vh_f (veh_step c tick d s ev)) = None -> f_last (vh_f s) = None.
  Proof.
    intros s ev. destruct (step_f c tick d s ev) as [E|(fe & E)]; rewrite E; auto.
    destruct fe; cbn [fresh_step f_last]; auto.
    - destruct (t =? T_SENSE); auto.
    - destruct (existsb _ _ && _); auto. unfold act_step.
      destruct a, (f_stage (vh_f s) t); auto;
        repeat match goal with |- context [if ?b then _ else _] => destruct b end; cbn; auto; try discriminate.
  Qed.

  Lemma last_some : forall tr e b, last tr = Some b -> exists b', last (tr ++ e) = Some b'.
  Proof.
    intros tr e b L. induction e as [|ev e IH] using rev_ind; [rewrite app_nil_r; eauto|].
    destruct IH as (b' & IH). rewrite app_assoc. unfold last_button in *. rewrite veh_run_snoc.
    destruct (f_last (vh_f (veh_step c tick (ds_from_config c) (run (tr ++ e)) ev))) as [[n cy]|] eqn:F; [eauto|].
    apply last_step in F. rewrite F in IH. discriminate.
  Qed.

  Lemma went_some : forall tr b bs, went tr (b :: bs) -> exists b', last tr = Some b'.
  Proof. intros tr b bs (x & y & -> & L & _). now apply (last_some x y b). Qed.

  (** The button in the vehicle state is the one last published. *)
  Lemma button_shown : forall tr,
    d_buttonPressed (vs_dash (f_vs (vh_f (run tr)))) = match last tr with Some b => b | None => false end.
  Proof.
    intros tr. induction tr as [|ev tr IH] using rev_ind; [reflexivity|].
    unfold last_button in *. rewrite veh_run_snoc. set (s := run tr) in *. fold d.
    destruct (step_f c tick d s ev) as [E|(fe & E)]; rewrite E; auto.
    destruct fe; cbn [fresh_step]; auto.
    - destruct (t =? T_SENSE); auto.
    - destruct (existsb _ _ && _); auto. unfold act_step.
      destruct a, (f_stage (vh_f s) t); auto.
      + destruct (f_note _ _ =? 0); auto.
      + destruct ((t =? T_SENSE) && f_pub (vh_f s)); auto.
      + destruct (f_holder (vh_f s)); auto.
      + destruct (t =? T_SENSE); auto.
      + destruct (t =? T_SENSE); auto.
      + destruct ((t =? T_SENSE) && negb (f_pub (vh_f s))); auto.
      + destruct ((t =? T_SENSE) && negb (f_pub (vh_f s))); auto.
  Qed.

  Definition p1 tr : Prop := went tr [true].
  Definition p2 tr : Prop := went tr [false; true].
  Definition p3 tr : Prop := went tr [true; false; true].

  Definition look_ok (tr : list veh_event) : Prop :=
    forall v, vh_live (run tr) = Some v -> vh_decided (run tr) = false ->
    exists x y, tr = x ++ y /\ asked (p1 x) (p2 x) (p3 x) (e_vsm (vh_e (run tr))) /\
      d_buttonPressed (vs_dash v) = match last x with Some b => b | None => false end.

  Lemma vsm_kept : forall s ev, order s -> vh_decided s = false ->
    e_vsm (vh_e (veh_step c tick d s ev)) = e_vsm (vh_e s).
  Proof.
    intros s ev O D. pose proof (or_pend s O D) as PE.
    destruct (step_e c tick d s ev) as [E|(e & E & K)]; [now rewrite E|]. rewrite E.
    destruct (is_vsm e) eqn:IV.
    - destruct e; try discriminate; cbn [ecu_step]; rewrite PE; auto. destruct (vsm_step _ _ _ _); reflexivity.
    - apply (non_vsm_frame c tick (vh_e s) e IV).
  Qed.

  Lemma look_step : forall tr ev, granted (p1 tr) (p2 tr) (p3 tr) (vh_e (run tr)) -> look_ok tr -> look_ok (tr ++ [ev]).
  Proof.
    intros tr ev G LK v. rewrite veh_run_snoc. fold d. intros LV DC.
    pose proof (order_run c tick m0 tr) as O. pose proof (button_shown tr) as BS.
    set (s := run tr) in *.
    assert (OLD : vh_live s = Some v -> vh_decided s = false ->
              exists x y, tr ++ [ev] = x ++ y /\ asked (p1 x) (p2 x) (p3 x) (e_vsm (vh_e (veh_step c tick d s ev))) /\
              d_buttonPressed (vs_dash v) = match last x with Some b => b | None => false end).
    { intros A B. destruct (LK v A B) as (x & y & -> & H1 & H2). exists x, (y ++ [ev]).
      rewrite (vsm_kept s ev O B). split; [now rewrite app_assoc|]. auto. }
    assert (WF : forall f, vh_live (with_f s f) = Some v -> vh_decided (with_f s f) = false ->
                   vh_live s = Some v /\ vh_decided s = false).
    { intros f. cbn [with_f vh_live vh_decided]. destruct (is_waiting _); [discriminate|]. auto. }
    unfold veh_step in LV, DC. destruct ev; cbn zeta in LV, DC.
    - destruct (WF _ LV DC); auto.
    - destruct (on_timer t); [|destruct (WF _ LV DC)]; auto.
    - destruct (may s t a); [destruct (WF _ LV DC)|]; auto.
    - destruct (is_inside _ && _ && _); cbn [vh_live vh_decided] in *; auto.
    - destruct (is_inside _ && _ && _); cbn [vh_live vh_decided] in *; auto.
    - destruct (is_inside (f_stage (vh_f s) T_VSM) && _ && _) eqn:Q; cbn [vh_live vh_decided] in *; auto.
      injection LV as <-. exists tr, [VLook]. split; auto. rewrite (vsm_kept s VLook O DC).
      split; [exact (gr_m _ _ _ _ G)|exact BS].
    - destruct (is_running _ && _ && _ && _); cbn [vh_live vh_decided] in *; auto. discriminate.
    - match goal with H : context [if ?b then _ else _] |- _ => destruct b end; cbn [with_e vh_live vh_decided] in *; auto.
  Qed.

  Lemma granted_run : vsm_init c tick = Some m0 ->
    forall tr, granted (p1 tr) (p2 tr) (p3 tr) (vh_e (run tr)) /\ look_ok tr.
  Proof.
    intros HI tr. induction tr as [|ev tr (IH & LK)] using rev_ind.
    - split; [|intros v; discriminate]. destruct (init_inv _ _ _ HI) as (I1 & I2 & _).
      constructor; cbn; auto; try discriminate. unfold asked, hv_state. rewrite I2.
      intuition discriminate.
    - split; [|now apply look_step].
      assert (MORE : granted (p1 (tr ++ [ev])) (p2 (tr ++ [ev])) (p3 (tr ++ [ev])) (vh_e (run tr)))
        by (revert IH; apply granted_more; apply went_more).
      pose proof (order_run c tick m0 tr) as O.
      rewrite veh_run_snoc. fold d. set (s := run tr) in *.
      destruct (step_e c tick d s ev) as [E|(e & E & K)]; [now rewrite E|].
      destruct (is_vsm e) eqn:IV; [destruct e as [i| | | | | | |]|]; try discriminate.
      2,3: rewrite E; apply granted_step; auto; intros j Q; subst; discriminate.
      destruct ev; try contradiction; [discriminate| |].
      2:{ unfold veh_step in E |- *. destruct K as (<- & _). exact MORE. }
      injection K as ->. rewrite E. cbn [ecu_step].
      destruct (e_pend (vh_e s)) as [p|] eqn:PE; [exact MORE|].
      (* the handler runs *)
      assert (ST : asked (p1 (tr ++ [VDecide])) (p2 (tr ++ [VDecide])) (p3 (tr ++ [VDecide]))
                     (fst (vsm_step c tick (e_vsm (vh_e s)) (mkVsmIn (vh_snap s) (vh_live s)))) /\
                   (In CmdEnableInverter (snd (vsm_step c tick (e_vsm (vh_e s)) (mkVsmIn (vh_snap s) (vh_live s)))) -> p1 (tr ++ [VDecide])) /\
                   (In (CmdTorqueEnabled true) (snd (vsm_step c tick (e_vsm (vh_e s)) (mkVsmIn (vh_snap s) (vh_live s)))) -> p3 (tr ++ [VDecide]))).
      { destruct (vh_live s) as [v|] eqn:LV.
        - assert (DC : vh_decided s = false).
          { destruct (vh_decided s) eqn:DC; auto. exfalso. unfold veh_step in E. cbn zeta in E. rewrite DC in E.
            cbn [negb] in E. rewrite andb_false_r in E. apply (f_equal e_pend) in E. cbn [ecu_step] in E.
            rewrite PE in E. destruct (vsm_step _ _ _ _). discriminate. }
          destruct (LK v LV DC) as (x & y & EQ & A & B). subst tr.
          apply (asked_step c tick (p1 x) (p2 x) (p3 x)); auto.
          + apply (gr_inv _ _ _ _ MORE).
          + rewrite <- app_assoc. apply went_more.
          + rewrite <- app_assoc. apply went_more.
          + rewrite <- app_assoc. apply went_more.
          + unfold button. cbn [vi_live]. rewrite B. intros Q. exists x, (y ++ [VDecide]).
            split; [now rewrite app_assoc|]. split; [|exact Logic.I]. destruct (last x); congruence.
          + unfold button. cbn [vi_live]. rewrite B. intros P Q. exists x, (y ++ [VDecide]).
            split; [now rewrite app_assoc|]. split; [|exact P].
            destruct (went_some x true [] P) as (b & LB). rewrite LB in *. congruence.
          + unfold button. cbn [vi_live]. rewrite B. intros P Q. exists x, (y ++ [VDecide]).
            split; [now rewrite app_assoc|]. split; [|exact P]. destruct (last x); congruence.
        - apply (asked_step c tick (p1 (tr ++ [VDecide])) (p2 (tr ++ [VDecide])) (p3 (tr ++ [VDecide]))); auto;
            try apply MORE; unfold button; cbn [vi_live]; discriminate. }
      destruct ST as (S1 & S2 & S3).
      pose proof (proj2 (step_state c tick (e_vsm (vh_e s)) (mkVsmIn (vh_snap s) (vh_live s)))) as S0.
      destruct (vsm_step c tick (e_vsm (vh_e s)) (mkVsmIn (vh_snap s) (vh_live s))) as [m' cmds].
      cbn [fst snd] in *. destruct MORE as [I M P OO L D].
      constructor; cbn [e_vsm e_pend e_thr e_tpc e_inv]; auto.
      intros cmds' m'' Q. injection Q as <- <-. auto.
  Qed.

  Lemma hv_needs_press : forall tr, vsm_init c tick = Some m0 ->
    hv_state (vm_state (e_vsm (vh_e (run tr)))) -> went tr [true].
  Proof. intros tr HI H. destruct (granted_run HI tr) as ([_ (M & _) _ _ _ _] & _). now apply M. Qed.

  Lemma enable_needs_press : forall tr ev t, vsm_init c tick = Some m0 ->
    veh_sends c tick (run tr) ev t -> frame_enable (tx_data t) = true -> went tr [true].
  Proof.
    intros tr ev t HI SN F. destruct (granted_run HI tr) as (G & _).
    destruct (veh_sends_ecu _ _ _ _ _ SN) as (e & l & _ & E & IN & _).
    eapply enable_frames; eauto.
  Qed.

  Lemma torque_needs_presses : forall tr ev t, vsm_init c tick = Some m0 ->
    veh_sends c tick (run tr) ev t -> asks_torque t = true -> went tr [true; false; true].
  Proof.
    intros tr ev t HI SN A. destruct (granted_run HI tr) as (G & _).
    destruct (veh_sends_ecu _ _ _ _ _ SN) as (e & l & _ & E & IN & _).
    destruct (frames_added c tick (vh_e (run tr)) e) as (l' & E' & _ & H).
    rewrite E in E'. apply app_inv_head in E'. subst l'.
    apply (gr_load _ _ _ _ G). now apply (H t IN A).
  Qed.
End Button.
