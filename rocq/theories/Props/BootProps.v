(** C50: boot order; C57: what the fault monitor reads; C61: interrupts during
    boot; C62: failed boot. *)
From Coq Require Import ZifyBool ZifyNat.
From Verif.Spec Require Import BootSpec.
From Verif.Proof Require Import TimerProof BootProof.

(** ** C50 *)
(** In every order of initialisation calls that completes, whatever the hardware
    answers, each module comes after all the dependencies it declares. *)
Theorem C50_declared_dependencies_first :
  forall oracle cs b, few cs -> boot_run boot_reset oracle cs = Booted b -> ordered_by declared cs.
Proof.
  intros oracle cs b F H pre m post E d D.
  apply (proj2 (boot_booted cs [] boot_reset oracle b boot_inv_reset (Z.lt_le_incl _ _ F) H) pre m post E d D).
Qed.
Print Assumptions C50_declared_dependencies_first.

(** DependOn answers exactly "was initialised", and ids are unique. *)
Theorem C50_registry_exact :
  forall oracle cs b, few cs -> boot_run boot_reset oracle cs = Booted b ->
    (forall m, DependOn b m = true <-> In (CInit m) cs) /\
    (forall m m', In (CInit m) cs -> bt_ids b m = bt_ids b m' -> m = m').
Proof.
  intros oracle cs b F H.
  destruct (boot_booted cs [] boot_reset oracle b boot_inv_reset (Z.lt_le_incl _ _ F) H) as [I _]. cbn [app] in I.
  split; [apply (depend_iff _ _ I)|]. intros m m' K E. apply (bi_uniq _ _ I m m' E). now apply (bi_reg _ _ I).
Qed.
Print Assumptions C50_registry_exact.

(** A missing dependency: the boot does not complete, whatever comes after. *)
Theorem C50_missing_dependency_never_boots :
  forall oracle pre m post d, few (pre ++ CInit m :: post) -> In d (declared m) -> ~ In (CInit d) pre ->
    forall b, boot_run boot_reset oracle (pre ++ CInit m :: post) <> Booted b.
Proof.
  intros oracle pre m post d F D N b H. apply N.
  exact (C50_declared_dependencies_first oracle _ b F H pre m post eq_refl d D).
Qed.
Print Assumptions C50_missing_dependency_never_boots.

(** With the logger up, a module with a missing dependency refuses, and stays
    unregistered. *)
Theorem C50_missing_dependency_refused :
  forall pre m d b, few pre -> boot_run boot_reset [] pre = Booted b -> In (CInit MLog) pre ->
    In d (declared m) -> ~ In (CInit d) pre ->
    exists b', boot_run boot_reset [] (pre ++ [CInit m]) = Halted b' /\ bt_ids b' m = bt_ids b m.
Proof.
  intros pre m d b F H L D N.
  destruct (boot_booted pre [] boot_reset [] b boot_inv_reset (Z.lt_le_incl _ _ F) H) as [I _]. cbn [app] in I.
  rewrite (boot_run_app pre boot_reset [CInit m] b H). cbn [boot_run call_prog].
  destruct (mod_eqb m MLog) eqn:ML; [apply mod_eqb_eq in ML; subst; destruct D|].
  assert (NL : m <> MLog) by (intros ->; discriminate).
  destruct (init_shape m NL) as [Q Sh]. rewrite Sh, exec_prog_app.
  destruct (exec_prog b [] (head_prog m)) as [r os] eqn:X.
  assert (Hr : exists b', r = Refuse b').
  { destruct r as [b1|b1|].
    - exfalso. apply N. apply (depend_iff pre b I). pose proof (exec_prog_go _ _ _ _ _ X) as Y.
      eapply head_depends; [exact Y|exact Q|now apply declared_in_head].
    - eauto.
    - exfalso. revert X. apply head_no_crash; [|now apply (bi_log _ _ I)|now destruct m].
      exact (boot_shape _ _ _ _ tshape_reset H). }
  destruct Hr as [b' ->]. exists b'. split; [reflexivity|].
  destruct (quiet_prog _ _ _ _ X Q b' (or_intror eq_refl)) as [(_ & S & _) _]. apply S.
Qed.
Print Assumptions C50_missing_dependency_refused.

(** Without the logger the check comes too late: the message is printed through
    the missing logger first. *)
Theorem C50_missing_logger_crashes_refuted :
  forall m, ~ In m [MLog; MWheel; MDash] -> boot_run boot_reset [] [CInit m] = Crashed.
Proof. intros m H. destruct m; try reflexivity; exfalso; apply H; cbn; auto. Qed.
Print Assumptions C50_missing_logger_crashes_refuted.

(** The shipped order completes when the hardware does, and respects not only
    the declared dependencies but everything the modules use. *)
Theorem C50_shipped_order_complete :
  exists b, boot_run boot_reset [] shipped_boot = Booted b /\
    TIM_IRQHandler b TIMER_100HZ =
      Some [T_PC; T_WHEEL; T_INV; T_BMS; T_SENSE; T_WDT; T_THROTTLE; T_VSM].
Proof. eexists. split; vm_compute; reflexivity. Qed.
Print Assumptions C50_shipped_order_complete.

Definition is_init (m : modname) (c : call) : bool :=
  match c with CInit x => mod_eqb x m | _ => false end.

Fixpoint ordered_check (deps : modname -> list modname) (pre cs : list call) : bool :=
  match cs with
  | [] => true
  | CInit m :: cs => forallb (fun d => existsb (is_init d) pre) (deps m) && ordered_check deps (CInit m :: pre) cs
  | c :: cs => ordered_check deps (c :: pre) cs
  end.

Lemma ordered_check_ok deps : forall cs pre, ordered_check deps pre cs = true ->
  forall a m post, cs = a ++ CInit m :: post -> forall d, In d (deps m) -> In (CInit d) (rev a ++ pre).
Proof.
  assert (K : forall pre d, existsb (is_init d) pre = true -> In (CInit d) pre).
  { intros pre d H. apply existsb_exists in H as (c & Hc & E). destruct c; try discriminate E.
    cbn in E. apply mod_eqb_eq in E. now subst. }
  induction cs as [|c cs IH]; intros pre H a m post E d D; [destruct a; discriminate E|].
  destruct a as [|c0 a]; cbn [app rev] in *.
  - injection E as -> ->. cbn [ordered_check] in H. apply andb_prop in H as [H _].
    rewrite forallb_forall in H. apply K, H, D.
  - injection E as <- E. rewrite <- app_assoc. cbn [app].
    assert (H' : ordered_check deps (c :: pre) cs = true) by (destruct c; cbn [ordered_check] in H; [apply andb_prop in H as [_ H]|..]; exact H).
    apply (IH _ H' a m post E d D).
Qed.

Theorem C50_shipped_order_respects_uses : ordered_by uses shipped_boot.
Proof.
  intros pre m post E d D.
  pose proof (ordered_check_ok uses shipped_boot [] eq_refl pre m post E d D) as H.
  rewrite app_nil_r in H. now apply in_rev.
Qed.
Print Assumptions C50_shipped_order_respects_uses.

(** But the declarations do not enforce that: the state manager starts happily
    without vehicle state, throttle controller or outputs. *)
Theorem C50_undeclared_dependencies_refuted :
  exists cs b, boot_run boot_reset [] cs = Booted b /\ In (CInit MVsm) cs /\
    In MState (uses MVsm) /\ ~ In (CInit MState) cs /\ ~ In (CInit MControl) cs /\ ~ In (CInit MThrottle) cs.
Proof.
  exists [CInit MLog; CInit MTimer; CInit MVsm]. eexists. split; [vm_compute; reflexivity|].
  cbn. intuition discriminate.
Qed.
Print Assumptions C50_undeclared_dependencies_refuted.

Example C50_hypotheses_met :
  few shipped_boot /\ In MState (declared MGps) /\ ~ In (CInit MState) [CInit MLog; CInit MUart] /\
  boot_run boot_reset [] [CInit MLog; CInit MUart; CInit MGps] =
    match boot_run boot_reset [] [CInit MLog; CInit MUart] with Booted b => Halted b | r => r end.
Proof. split; [reflexivity|]. cbn. intuition discriminate. Qed.

(** ** C57 *)
(** No order of initialisation calls sets the pointer through which the fault
    monitor reads the vehicle state: its first step dereferences NULL. *)
Theorem C57_fault_monitor_reads_null_refuted :
  forall oracle cs b, few cs -> boot_run boot_reset oracle cs = Booted b ->
  forall objs lock c s, FaultManager_Step_through b objs lock c s = None.
Proof.
  intros oracle cs b F H objs lock c s.
  destruct (boot_booted cs [] boot_reset oracle b boot_inv_reset (Z.lt_le_incl _ _ F) H) as [I _].
  unfold FaultManager_Step_through. now rewrite (bi_fd _ _ I).
Qed.
Print Assumptions C57_fault_monitor_reads_null_refuted.

(** If the pointer were set to the vehicle state, each step would see its current
    contents: the data of the last update before the step, or nothing when the
    state cannot be locked. *)
Theorem C57_live_state_if_wired_partial :
  forall b (updates : list vstate) last c s,
    bt_fault_data b = Some MState ->
    let objs := fold_left (fun _ d m => if mod_eqb m MState then Some d else None)
                  (updates ++ [last]) (fun _ : modname => None) in
    FaultManager_Step_through b objs true c s = Some (fm_step c s (Some last)) /\
    FaultManager_Step_through b objs false c s = Some (fm_step c s None).
Proof.
  intros b updates last c s H objs. unfold FaultManager_Step_through, objs. rewrite H, fold_left_app. split; reflexivity.
Qed.
Print Assumptions C57_live_state_if_wired_partial.

Example C57_hypotheses_met :
  exists b, boot_run boot_reset [] shipped_boot = Booted b /\ few shipped_boot /\
    bt_fault_data b = None /\
    bt_fault_data (mkBoot (bt_n b) (bt_ids b) (bt_log b) (bt_timer b) (bt_sdc_cfg b) (bt_sdc_task b)
                     (bt_wheel b) (Some MState) (bt_ecu_error b)) = Some MState.
Proof. eexists. split; [vm_compute; reflexivity|]. repeat split. Qed.

(** ** C61 *)
Definition timer_safe (b : boot) : bool :=
  let t := bt_timer b in
  negb (tt_init t) ||
  match tt_timer t with
  | Some x => (x =? TIMER_100HZ) &&
      match notify_loop (tt_slots t) 0 (Z.to_nat (tt_num t)) with Some _ => true | None => false end
  | None => false
  end.

(** States along the boot, checked one after the other. *)
Fixpoint along (P : boot -> bool) (b : boot) (p : list instr) : bool :=
  P b && match p with
         | [] => true
         | i :: p => match exec true b i with Go b' => along P b' p | _ => true end
         end.

Lemma along_ok P : forall p b, along P b p = true -> forall k b',
  exec_prog b [] (firstn k p) = (Go b', []) -> P b' = true.
Proof.
  induction p as [|i p IH]; intros b A k b' H; cbn [along] in A; apply andb_prop in A as [A B].
  - destruct k; cbn in H; injection H as <-; exact A.
  - destruct k as [|k]; [cbn in H; injection H as <-; exact A|]. cbn [firstn] in H. rewrite exec_prog_cons_nil in H.
    destruct (exec true b i) as [b1|b1|] eqn:X; try discriminate H. now apply (IH b1 B k).
Qed.

(** A timer interrupt at any point of the boot is harmless. *)
Theorem C61_timer_interrupt_harmless_partial :
  forall k b inst, during_boot k b -> exists woken, TIM_IRQHandler b inst = Some woken.
Proof.
  intros k b inst (oracle & os & H). apply exec_prog_go in H.
  assert (A : along timer_safe boot_reset (actions shipped_boot) = true) by (vm_compute; reflexivity).
  pose proof (along_ok timer_safe _ _ A k b H) as T. unfold timer_safe in T.
  unfold TIM_IRQHandler, TaskTimer_TIM_PeriodElapsedCallback.
  destruct (tt_init (bt_timer b)); cbn [negb orb] in *; [|eauto].
  destruct (tt_timer (bt_timer b)) as [x|]; [|discriminate T]. apply andb_prop in T as [_ T].
  destruct (inst =? x); [|eauto]. destruct (notify_loop _ _ _); [eauto|discriminate T].
Qed.
Print Assumptions C61_timer_interrupt_harmless_partial.

Example sdc_action_right : nth_error (actions shipped_boot) sdc_action = Some ISdcConfig.
Proof. reflexivity. Qed.

(** A shutdown-circuit edge before that reads through NULL pointers. The
    interrupts are enabled by MX_GPIO_Init, before the boot starts. *)
Theorem C61_sdc_edge_before_init_refuted :
  forall k b, (k <= sdc_action)%nat -> during_boot k b -> forall changed, EXTI_Handler b changed = None.
Proof.
  intros k b Hk (oracle & os & H) changed. apply exec_prog_go in H.
  replace (firstn k (actions shipped_boot)) with (firstn k (firstn sdc_action (actions shipped_boot))) in H
    by (rewrite firstn_firstn, Nat.min_l by lia; reflexivity).
  assert (A : along (fun b => negb (bt_sdc_cfg b)) boot_reset (firstn sdc_action (actions shipped_boot)) = true) by (vm_compute; reflexivity).
  pose proof (along_ok _ _ _ A k b H) as T. cbn beta in T. unfold EXTI_Handler. now rewrite T.
Qed.
Print Assumptions C61_sdc_edge_before_init_refuted.

(** Once its task exists as well, such an edge is harmless. *)
Theorem C61_sdc_edge_after_init_partial :
  forall k b, (sdc_action + 2 <= k)%nat -> during_boot k b -> forall changed, EXTI_Handler b changed = Some tt.
Proof.
  intros k b Hk (oracle & os & H) changed. apply exec_prog_go in H.
  assert (E : firstn k (actions shipped_boot) =
    firstn (sdc_action + 2) (actions shipped_boot) ++ firstn (k - (sdc_action + 2)) (skipn (sdc_action + 2) (actions shipped_boot))).
  { rewrite <- (firstn_skipn (sdc_action + 2) (actions shipped_boot)) at 1. rewrite firstn_app.
    rewrite firstn_length, Nat.min_l by (vm_compute; lia). rewrite firstn_firstn, Nat.min_r by lia. reflexivity. }
  rewrite E, exec_prog_app in H.
  destruct (exec_prog boot_reset [] (firstn (sdc_action + 2) (actions shipped_boot))) as [[b1|b1|] o] eqn:X; try discriminate H.
  assert (A : along (fun b => bt_sdc_cfg b && bt_sdc_task b) b1 (skipn (sdc_action + 2) (actions shipped_boot)) = true).
  { vm_compute in X. injection X as <- <-. vm_compute. reflexivity. }
  pose proof (along_ok _ _ _ A _ b H) as T. apply andb_prop in T as [T1 T2].
  unfold EXTI_Handler. rewrite T1, T2. cbn. now rewrite andb_false_r.
Qed.
Print Assumptions C61_sdc_edge_after_init_partial.

Example C61_hypotheses_met :
  (exists b, during_boot 30 b /\ bt_sdc_cfg b = false) /\ (exists b, during_boot 120 b /\ bt_sdc_task b = true).
Proof. split; eexists; (split; [exists [], []; vm_compute; reflexivity|reflexivity]). Qed.

(** ** C62 *)
(** Whatever the hardware answers, the shipped boot never crashes by itself: it
    completes, or stops in the error loop. *)
Theorem C62_boot_completes_or_halts :
  forall oracle, (exists b, boot_run boot_reset oracle shipped_boot = Booted b) \/
                 (exists b, boot_run boot_reset oracle shipped_boot = Halted b).
Proof.
  intros oracle. destruct C50_shipped_order_complete as (bf & H & _).
  destruct (boot_any _ _ _ H oracle) as [L|(b & L & _)]; [left|right]; eauto.
Qed.
Print Assumptions C62_boot_completes_or_halts.

(** If any of the hardware checks fails, the boot stops for ever, and the ECU
    error output is left at its inactive level. *)
Theorem C62_failed_boot_leaves_error_output_inactive_refuted :
  forall oracle, (boot_checks <= length oracle)%nat -> some_check_fails boot_checks oracle ->
    exists b, boot_run boot_reset oracle shipped_boot = Halted b /\ bt_ecu_error b = false.
Proof.
  intros oracle L F. destruct C50_shipped_order_complete as (bf & H & _).
  destruct (boot_any _ _ _ H oracle) as [B|(b & B & E)]; [|exists b; auto].
  exfalso. apply (boot_consumes _ _ _ _ B); rewrite nchecks_filter; fold boot_checks; assumption.
Qed.
Print Assumptions C62_failed_boot_leaves_error_output_inactive_refuted.

Example C62_hypotheses_met :
  boot_checks = 34%nat /\ some_check_fails boot_checks (repeat true 20 ++ false :: repeat true 20).
Proof. split; [reflexivity|]. unfold some_check_fails. vm_compute. auto 30. Qed.
