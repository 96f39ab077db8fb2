(** C13, C58 and the whole-ECU part of C14: the state-manager task, the throttle
    task and the inverter command path under every schedule. [ecu_run c tick m0 es]
    is the ECU after the events [es] from power-up. *)
From Coq Require Import Floats.SpecFloat.
From Verif.Model Require Import Ecu.
From Verif.Spec Require Import VsmSpec InverterSpec EcuSpec.
From Verif.Proof Require Import VsmProof EcuProof EcuFrames.
From Verif.Props Require Import FaultProps VsmProps.
Open Scope Z_scope.

(** Concrete schedules. [step i k]: the state manager runs a step on [i] that
    makes [k] calls. [pedal x]: the throttle task runs without interruption. *)
Definition run_cmd := EvCmd true true true true.
Definition step (i : vsm_in) (k : nat) : list ecu_event := EvVsm i :: repeat run_cmd (S k).
Definition foot (x : f32) : option vstate :=
  Some (set_inputs healthy (mkInputs x x x 0 0 true f_zero f_zero 0 0)).
Definition pedal (x : f32) : list ecu_event :=
  [EvPedal (foot x); EvReadEnabled; EvReadDir; EvReadDir2; EvRequest true true].
Definition drive : list ecu_event :=
  concat (map (fun i => step i 3) to_forward_h).

(** Frames that ask for torque, among those the event adds. *)
Definition new_torques (es : list ecu_event) (ev : ecu_event) : list Z :=
  let e := ecu_run default_config 10 shipped_vsm es in
  map (fun t => frame_torque (tx_data t))
      (skipn (length (e_sent e)) (e_sent (ecu_step default_config 10 e ev))).
Definition now (es : list ecu_event) : ecu := ecu_run default_config 10 shipped_vsm es.

Example drive_example :
  let e := now drive in
  vm_state (e_vsm e) = StActiveForward /\ e_pend e = None /\ e_pin e = false /\
  new_torques (drive ++ firstn 4 (pedal f_one)) (EvRequest true true) = [5000].
Proof. vm_compute. auto. Qed.

(** ** C13 *)
(** Every frame that asks for torque goes back to a moment at which the throttle
    task, in the same activation, saw torque enabled, and at that moment the
    vehicle may be driven. What is missing from the property: the frame itself
    may leave later (see the refutations below). *)
Theorem C13_request_decided_while_driving_partial :
  forall c tick m0 es ev t, vsm_init c tick = Some m0 -> Forall waits es ->
    sends c tick (ecu_run c tick m0 es) ev t -> asks_torque t = true ->
    exists es1 es2, es = es1 ++ EvReadEnabled :: es2 /\
      driving (ecu_run c tick m0 es1) /\
      forall a b, es2 = a ++ b ->
        e_tpc (ecu_run c tick m0 (es1 ++ EvReadEnabled :: a)) <> TIdle.
Proof. exact torque_history. Qed.
Print Assumptions C13_request_decided_while_driving_partial.

(** If the state manager does not run inside the activation, the frame leaves
    while the vehicle may be driven. *)
Theorem C13_uninterrupted_request_partial :
  forall c tick m0 es es1 ev t, vsm_init c tick = Some m0 -> Forall waits (es ++ es1) ->
    e_tpc (ecu_run c tick m0 es) = TIdle ->
    forallb (fun x => negb (is_vsm x)) es1 = true ->
    sends c tick (ecu_run c tick m0 (es ++ es1)) ev t -> asks_torque t = true ->
    driving (ecu_run c tick m0 (es ++ es1)).
Proof.
  intros c tick m0 es es1 ev t HI W ID NV SN A.
  destruct (torque_history c tick m0 _ ev t HI W SN A) as (x & y & E & D & N).
  assert (L : exists z, x = es ++ z).
  { destruct (Nat.le_gt_cases (length es) (length x)) as [G|G].
    - exists (skipn (length es) x).
      apply (f_equal (firstn (length es))) in E.
      rewrite !firstn_app, Nat.sub_diag, firstn_all, firstn_O, app_nil_r in E.
      replace (length es - length x)%nat with 0%nat in E by lia.
      rewrite firstn_O, app_nil_r in E. rewrite E at 1. symmetry. apply firstn_skipn.
    - exfalso.
      assert (Q : exists a b, es = x ++ EvReadEnabled :: a /\ y = a ++ b).
      { exists (skipn (S (length x)) es), es1.
        pose proof E as E'.
        apply (f_equal (firstn (length es))) in E'.
        rewrite firstn_app, Nat.sub_diag, firstn_all, firstn_O, app_nil_r in E'.
        rewrite firstn_app, firstn_all2 in E' by lia.
        destruct (length es - length x)%nat as [|k] eqn:K; [lia|].
        cbn [firstn] in E'.
        assert (SK : skipn (S (length x)) es = firstn k y).
        { rewrite E'. rewrite skipn_app, skipn_all2 by lia.
          replace (S (length x) - length x)%nat with 1%nat by lia. reflexivity. }
        split; [now rewrite SK|]. rewrite SK.
        apply (f_equal (skipn (length es))) in E.
        rewrite skipn_app, Nat.sub_diag, skipn_all in E. cbn [skipn app] in E.
        rewrite E, skipn_app, skipn_all2 by lia. rewrite K. cbn [skipn app].
        symmetry. apply firstn_skipn. }
      destruct Q as (a & b & E1 & E2). apply (N a b E2). now rewrite <- E1. }
  destruct L as (z & ->). rewrite <- app_assoc in E. apply app_inv_head in E. subst es1.
  replace (es ++ z ++ EvReadEnabled :: y) with ((es ++ z) ++ EvReadEnabled :: y)
    by (now rewrite <- app_assoc).
  unfold ecu_run. rewrite fold_left_app. apply driving_undisturbed; auto.
  rewrite forallb_app in NV. apply andb_prop in NV. tauto.
Qed.
Print Assumptions C13_uninterrupted_request_partial.

(** While the vehicle may not be driven, at most one frame that asks for torque
    leaves: the request that was under way when driving ended. *)
Theorem C13_at_most_one_late_request_partial :
  forall c tick m0 es es1, vsm_init c tick = Some m0 -> Forall waits (es ++ es1) ->
    (forall a b, es1 = a ++ b -> ~ driving (ecu_run c tick m0 (es ++ a))) ->
    exists l, e_sent (ecu_run c tick m0 (es ++ es1)) = e_sent (ecu_run c tick m0 es) ++ l /\
      (length (filter asks_torque l) <= 1)%nat.
Proof. exact at_most_one_late. Qed.
Print Assumptions C13_at_most_one_late_request_partial.

(** The property as stated fails in two ways, both with every lock obtained and
    every frame taken. A late request: the throttle task saw torque enabled, then
    the state manager went back to ACTIVE_NEUTRAL (and completed two more steps
    there), then the request left. *)
Definition late_es : list ecu_event :=
  drive ++ step (ok_in false 5) 0 ++ firstn 2 (pedal f_one) ++
  step (ok_in true 5) 1 ++ step (ok_in false 5) 0 ++ step (ok_in false 5) 0 ++
  [EvReadDir; EvReadDir2].
Theorem C13_late_request_refuted :
  exists es, Forall waits es /\
    vm_state (e_vsm (now es)) = StActiveNeutral /\ e_pend (now es) = None /\
    e_since (now es) = 2 /\ new_torques es (EvRequest true true) = [5000].
Proof.
  exists late_es. split.
  - apply Forall_forall. intros x H.
    assert (F : forallb (fun ev => match ev with EvCmd b _ _ _ => b | _ => true end) late_es = true)
      by (vm_compute; reflexivity).
    rewrite forallb_forall in F. specialize (F x H). now destruct x.
  - vm_compute. auto.
Qed.
Print Assumptions C13_late_request_refuted.

(** An early request: torque is enabled before ACTIVE_FORWARD is committed. *)
Definition early_es : list ecu_event :=
  concat (map (fun i => step i 3) (to_neutral_h ++ [ok_in false 5])) ++
  [EvVsm (ok_in true 5); run_cmd; run_cmd] ++ firstn 4 (pedal f_one).
Theorem C13_early_request_refuted :
  vm_state (e_vsm (now early_es)) = StActiveNeutral /\
  new_torques early_es (EvRequest true true) = [5000].
Proof. vm_compute. auto. Qed.
Print Assumptions C13_early_request_refuted.

(** ** C14 on the whole ECU *)
(** Whatever the pedal sensor reports and however the tasks are scheduled, every
    frame handed to the CAN driver asks for between 0 and 500.0 Nm, forwards, with
    discharge off, and no undefined conversion is ever executed. *)
Theorem C14_every_frame_in_range :
  forall c tick m0 es, vsm_init c tick = Some m0 -> Forall pedal_ok es ->
    e_bad (ecu_run c tick m0 es) = false /\
    forall t, In t (e_sent (ecu_run c tick m0 es)) ->
      tx_id t = 0x0C0 /\ 0 <= frame_torque (tx_data t) <= 5000 /\
      frame_direction (tx_data t) = 1 /\ frame_discharge (tx_data t) = false.
Proof.
  intros c tick m0 es HI P. destruct (ranges_run c tick m0 es HI P) as [R1 R2 _ _].
  split; [exact R2|]. intros t IN. rewrite Forall_forall in R1. exact (R1 t IN).
Qed.
Print Assumptions C14_every_frame_in_range.

(** ** C58 *)
(** Without PC commands the level of the output is a function of where the state
    manager is. It is low only before the very first call, from the call that
    releases it in the step LV_READY -> HV_ACTIVE on, and, when FAULT is entered
    from a high-voltage state, until the last call of the first step in FAULT. *)
Theorem C58_output_level :
  forall c tick m0 es, vsm_init c tick = Some m0 ->
    forallb (fun ev => negb (is_pc ev)) es = true ->
    let e := ecu_run c tick m0 es in
    (e_pin e = false <->
     (vm_state (e_vsm e) = StInit /\ ~ (exists m', e_pend e = Some ([], m'))) \/
     (vm_state (e_vsm e) = StLvReady /\
      exists m', e_pend e = Some ([], m') /\ vm_state m' = StHvActive) \/
     hv_state (vm_state (e_vsm e)) \/
     (vm_state (e_vsm e) = StFault /\ hv_state (e_from e) /\ e_since e = 0 /\
      ~ (exists m', e_pend e = Some ([], m')))).
Proof.
  intros c tick m0 es HI NP. destruct (run_base c tick m0 es HI) as (B & _ & P).
  specialize (P NP). cbv zeta in *.
  generalize (ecu_run c tick m0 es) B P. clear. intros e B P. rewrite P. unfold pin_at, hv_state.
  destruct B as [_ B2 B3 B4 _].
  assert (DC : done_calls (e_pend e) = true <-> exists m', e_pend e = Some ([], m')).
  { destruct (e_pend e) as [[[|x l] m]|]; cbn; split; try discriminate; eauto;
    intros (m' & H); discriminate. }
  destruct (vm_state (e_vsm e)) eqn:ES.
  - destruct (done_calls (e_pend e)) eqn:D.
    + split; [discriminate|]. intros [(_ & H)|[(H & _)|[[H|[H|[H|H]]]|(H & _)]]]; try discriminate.
      exfalso. apply H. now apply DC.
    + split; auto. intros _. left. split; auto. intros H. apply DC in H. discriminate.
  - destruct (e_since e =? 0) eqn:Z0; cbn [negb orb].
    + assert (FR : diagram (e_from e) StFault) by (apply B4; discriminate).
      assert (FV : e_from e <> StInit /\ e_from e <> StFault) by (inversion FR; auto).
      destruct (e_from e) eqn:EF; cbn [vsm_st_eqb orb]; try tauto;
      try (split; [discriminate|];
           intros [(H & _)|[(H & _)|[[H|[H|[H|H]]]|(_ & [H|[H|[H|H]]] & _)]]]; discriminate);
      (destruct (done_calls (e_pend e)) eqn:D;
       [split; [discriminate|];
        intros [(H & _)|[(H & _)|[[H|[H|[H|H]]]|(_ & _ & _ & H)]]]; try discriminate;
        exfalso; apply H; now apply DC
       |split; auto; intros _; right; right; right; repeat split; auto;
        [lia|intros H; apply DC in H; discriminate]]).
    + split; [discriminate|].
      intros [(H & _)|[(H & _)|[[H|[H|[H|H]]]|(_ & _ & H & _)]]]; try discriminate. lia.
  - split; [discriminate|]. intros [(H & _)|[(H & _)|[[H|[H|[H|H]]]|(H & _)]]]; discriminate.
  - destruct (e_pend e) as [[[|x l] m]|]; cbn [done_calls towards andb negb].
    + destruct (vsm_st_eqb (vm_state m) StHvActive) eqn:Q; cbn.
      * apply eqb_st in Q. split; eauto 10.
      * apply eqb_st_false in Q. split; [discriminate|].
        intros [(H & _)|[(_ & m' & H & H')|[[H|[H|[H|H]]]|(H & _)]]]; try discriminate. congruence.
    + split; [discriminate|].
      intros [(H & _)|[(_ & m' & H & H')|[[H|[H|[H|H]]]|(H & _)]]]; discriminate.
    + split; [discriminate|].
      intros [(H & _)|[(_ & m' & H & H')|[[H|[H|[H|H]]]|(H & _)]]]; discriminate.
  - split; auto 10.
  - split; auto 10.
  - split; auto 10.
  - split; auto 10.
Qed.
Print Assumptions C58_output_level.

(** With PC commands too, under every schedule: an event that releases the output
    is a PC/debug command or the call made in the step LV_READY -> HV_ACTIVE. *)
Theorem C58_released_only_by_hv_or_pc :
  forall c tick m0 es ev, vsm_init c tick = Some m0 ->
    let e := ecu_run c tick m0 es in
    e_pin e = true -> e_pin (ecu_step c tick e ev) = false ->
    ev = EvPcEcu false \/
    (vm_state (e_vsm e) = StLvReady /\ (exists tl il a b, ev = EvCmd tl il a b) /\
     exists m', e_pend e = Some ([CmdEcuError false], m') /\ vm_state m' = StHvActive).
Proof.
  intros c tick m0 es ev HI e. apply release_only. apply (run_base c tick m0 es HI).
Qed.
Print Assumptions C58_released_only_by_hv_or_pc.

(** Every step that starts in FAULT ends with the output asserted, whatever the PC
    did before, unless the PC releases it again during the step. *)
Theorem C58_fault_step_asserts :
  forall c tick m0 es0 i es1, vsm_init c tick = Some m0 ->
    vm_state (e_vsm (ecu_run c tick m0 es0)) = StFault ->
    e_pend (ecu_run c tick m0 es0) = None ->
    forallb (fun ev => negb (is_pc ev)) es1 = true ->
    e_pend (ecu_run c tick m0 (es0 ++ EvVsm i :: es1)) = None ->
    e_pin (ecu_run c tick m0 (es0 ++ EvVsm i :: es1)) = true.
Proof. exact fault_reasserts. Qed.
Print Assumptions C58_fault_step_asserts.

(** The output is still released in the first control period spent in FAULT, and
    torque is still requested there. *)
Definition fault_es : list ecu_event :=
  drive ++ concat (map (fun i => step i 0) (repeat bad_in 11)) ++ firstn 4 (pedal f_one).
Theorem C58_asserted_in_fault_at_once_refuted :
  vm_state (e_vsm (now fault_es)) = StFault /\ e_pin (now fault_es) = false /\
  new_torques fault_es (EvRequest true true) = [5000].
Proof. vm_compute. auto. Qed.
Print Assumptions C58_asserted_in_fault_at_once_refuted.

(** The life cycle on one concrete drive. *)
Example C58_life_cycle :
  map (fun h => e_pin (now (concat (map (fun i => step i 3) h))))
      [[]; [ok_in false 0]; to_ready_h; to_hv_h; to_ready_h ++ repeat bad_in 20]
  = [false; true; true; false; true].
Proof. vm_compute. reflexivity. Qed.
