(** C70: the log of the start-up; C73: which tasks run during start-up. *)
From Coq Require Import String.
From Verif.Base Require Import Stream Text.
From Verif.Model Require Import BootRun.
From Verif.Spec Require Import BootRunSpec.
From Verif.Proof Require Import BootProof PcPeriodicProof BootRunProof.
Open Scope Z_scope.
Local Opaque init_script early_messages late_messages.

(** The script is the boot sequence of C50, action by action. *)
Example C70_same_boot :
  concat (map (fun b => match b with SSay _ => [] | SCall acts _ => map a_do acts end) init_script) =
  actions shipped_boot.
Proof. vm_compute. reflexivity. Qed.

(** ** C70 *)
(** Log_Print reads no more than 512 bytes and nothing behind the terminator. If
    the message is not empty and has a terminator or 512 bytes, it appends the first 512 characters
    to the serial output, as far as there is room, and the message or, if it is
    too long, a remark to SWO. *)
Theorem C70_log_print : forall l msg, In 0 msg \/ (512 <= length msg)%nat -> cstr msg <> [] ->
  exists l', Log_Print_mem true l msg = Some l' /\
    lg_serial l' = lg_serial l /\ lg_swo l' = lg_swo l /\
    lg_stream l' = (if lg_serial l then lg_stream l ++ firstn (2047 - length (lg_stream l)) (firstn 512 (cstr msg))
                    else lg_stream l) /\
    lg_swo_out l' = lg_swo_out l ++ (if lg_swo l then swo_text msg else []).
Proof.
  intros l msg H NE. eexists. split; [exact (log_print_mem_spec l msg H (or_intror NE))|]. repeat split.
Qed.
Print Assumptions C70_log_print.

(** The empty message stops the controller when the serial output is set up and
    has room (C74). *)
Theorem C70_empty_message_stops_refuted : forall l rest,
  lg_serial l = true -> (length (lg_stream l) < 2047)%nat -> Log_Print_mem true l (0 :: rest) = None.
Proof.
  intros l rest S L. rewrite log_print_mem_checked by (left; now left). rewrite S.
  unfold log_bytes. cbn [cstr Z.eqb]. rewrite firstn_nil. unfold stream_send_checked, LOG_STREAM_CAP.
  now rewrite (proj2 (Nat.ltb_lt _ _) L).
Qed.
Print Assumptions C70_empty_message_stops_refuted.

(** Without the mutex nothing is read or written. *)
Theorem C70_log_print_no_mutex : forall l msg, Log_Print_mem false l msg = Some l.
Proof. reflexivity. Qed.
Print Assumptions C70_log_print_no_mutex.

(** Whatever the hardware answers and however the tasks are scheduled, the
    start-up sequence and its log never misbehave. *)
Theorem C70_start_up_safe : forall oracle us, exists m, mcu_run (mcu_reset oracle) us = Some m.
Proof. intros oracle us. destruct (run_inv oracle us _ (reset_inv oracle)) as (m & E & _). eauto. Qed.
Print Assumptions C70_start_up_safe.

(** No log text leaves before the start-up task has ended. *)
Theorem C70_nothing_sent_before_the_end : forall oracle m, reaches oracle m -> mc_init m <> Deleted ->
  mc_out m = [].
Proof.
  intros oracle m R N. destruct (reaches_inv _ _ R) as (_ & _ & I).
  destruct (mc_init m); [apply I|apply I|contradiction].
Qed.
Print Assumptions C70_nothing_sent_before_the_end.

(** After a start-up that succeeded the messages from the end of the PC interface's
    initialisation on have gone out or wait, complete and in order: nothing was
    dropped although nothing could be sent meanwhile. Missing from the full
    property: the first twelve messages. *)
Theorem C70_late_messages_complete_partial : forall oracle m, reaches oracle m -> mc_init m = Deleted ->
  pr_said (mc_prep m) = early_messages ++ late_messages /\
  sent m UartA ++ lg_stream (pr_log (mc_prep m)) = concat late_messages /\ sent m UartB = sent m UartA.
Proof.
  intros oracle m R D. destruct (reaches_inv _ _ R) as (_ & _ & I). rewrite D in I.
  destruct I as (_ & S & P & _ & _ & T). repeat split; auto. unfold sent. now rewrite P.
Qed.
Print Assumptions C70_late_messages_complete_partial.

(** The next turn of the PC interface task then sends all that waits. *)
Theorem C70_next_turn_sends_all : forall oracle m awake locks, reaches oracle m -> mc_init m = Deleted ->
  may_run m awake T_PC = true ->
  exists m', mcu_step m (mkTurn awake T_PC locks) = Some m' /\
    sent m' UartA = concat late_messages /\ sent m' UartB = concat late_messages.
Proof.
  intros oracle m awake locks R D MR. destruct (reaches_inv _ _ R) as (LB & KN & I). rewrite D in I.
  destruct I as (_ & S & P & NZ & LE & T).
  destruct (flush_drains 64 locks (mc_buf m) (lg_stream (pr_log (mc_prep m))) LB NZ) as (b & o & E & _ & OP & TX); [lia|].
  unfold mcu_step. cbn [tu_awake tu_task tu_locks]. rewrite MR. cbn [negb].
  change (T_PC =? T_INIT) with false. change (T_PC =? T_PC) with true. cbn iota. rewrite E.
  eexists. split; [reflexivity|]. unfold sent in *. cbn [mc_out]. rewrite !on_port_app, !log_text_app, <- OP, TX, <- P.
  split; exact T.
Qed.
Print Assumptions C70_next_turn_sends_all.

(** The first twelve messages never reach the PC. *)
Theorem C70_early_messages_lost_refuted : forall oracle m, reaches oracle m -> mc_init m = Deleted ->
  length early_messages = 12%nat /\ (exists rest, pr_said (mc_prep m) = early_messages ++ rest) /\
  sent m UartA ++ lg_stream (pr_log (mc_prep m)) <> concat (pr_said (mc_prep m)).
Proof.
  intros oracle m R D. destruct (C70_late_messages_complete_partial oracle m R D) as (S & T & _).
  split; [reflexivity|]. split; [eauto|]. rewrite S, T, concat_app. intros E.
  apply (f_equal (@length Z)) in E. rewrite app_length in E.
  assert (L : length (concat early_messages) <> 0%nat) by (vm_compute; discriminate). lia.
Qed.
Print Assumptions C70_early_messages_lost_refuted.

(** If any check of the start-up fails, the start-up task ends in its endless loop,
    and the PC never sees a single character: the task that would send the text
    does not get to run any more. *)
Theorem C70_failed_start_up_silent_refuted : forall oracle, some_check_fails boot_checks oracle ->
  (exists m, reaches oracle m /\ mc_init m = Spin) /\
  (forall m, reaches oracle m -> mc_out m = []).
Proof.
  intros oracle F.
  assert (ND : forall m, reaches oracle m -> mc_init m <> Deleted).
  { intros m R D. destruct (reaches_inv _ _ R) as (_ & _ & I). rewrite D in I. now apply I. }
  split.
  - destruct (init_ends oracle) as (m & R & [E|E]); [eauto|]. exfalso. exact (ND m R E).
  - intros m R. apply (C70_nothing_sent_before_the_end oracle); auto.
Qed.
Print Assumptions C70_failed_start_up_silent_refuted.

(** And the message kept in memory always names the watchdog trigger, although its
    initialisation has then not even begun. *)
Theorem C70_failure_names_wrong_module_refuted : forall oracle m, reaches oracle m -> mc_init m = Spin ->
  exists before, pr_said (mc_prep m) =
      before ++ [line "Watchdog Trigger initialization error"; line "ECU Failed to initialize"] /\
    ~ In (line "WatchdogTrigger_Init begin") before.
Proof.
  intros oracle m R D. destruct (reaches_inv _ _ R) as (_ & _ & I). rewrite D in I. apply I.
Qed.
Print Assumptions C70_failure_names_wrong_module_refuted.

(** A good start-up, and one that fails at CAN2. *)
Example C70_nonvacuous :
  (exists m, reaches [] m /\ mc_init m = Deleted /\ may_run m [T_PC] T_PC = true) /\
  (let oracle := repeat true 14 ++ [false] in some_check_fails boot_checks oracle /\
   exists m, reaches oracle m /\ mc_init m = Spin /\ In (line "CAN2") (pr_said (mc_prep m)) /\
     ~ In (line "CAN3") (pr_said (mc_prep m))).
Proof.
  split.
  - exists (match mcu_run (mcu_reset []) (repeat init_only 40) with Some m => m | None => mcu_reset [] end).
    split; [exists (repeat init_only 40); vm_compute; reflexivity|]. vm_compute. auto.
  - cbv zeta. split; [vm_compute; tauto|].
    exists (match mcu_run (mcu_reset (repeat true 14 ++ [false])) (repeat init_only 40) with Some m => m | None => mcu_reset [] end).
    split; [exists (repeat init_only 40); vm_compute; reflexivity|].
    split; [vm_compute; reflexivity|]. split.
    + apply in_by. vm_compute. reflexivity.
    + apply not_in_by. vm_compute. reflexivity.
Qed.

(** ** C73 *)
(** The tasks that drive the car, talk to the PC, and watch shutdown circuit and
    GPS do not run before the start-up has ended with all checks passed. *)
Theorem C73_start_up_first : forall oracle m t, reaches oracle m ->
  In t (mc_ran m) -> In t [T_THROTTLE; T_VSM; T_PC; T_SDC; T_GPS] ->
  mc_init m = Deleted /\ ~ some_check_fails boot_checks oracle.
Proof.
  intros oracle m t R J L. destruct (reaches_inv _ _ R) as (_ & _ & I).
  assert (LO : low t) by (cbn in L; intuition (subst; split; [discriminate|reflexivity])).
  destruct (mc_init m).
  - destruct I as (_ & N & _). exfalso. exact (N t J LO).
  - destruct I as (_ & N & _). exfalso. exact (N t J LO).
  - split; [reflexivity|]. apply I.
Qed.
Print Assumptions C73_start_up_first.

(** When the start-up has ended every task exists, each once. *)
Theorem C73_all_tasks_exist : forall oracle m, reaches oracle m -> mc_init m = Deleted ->
  pr_tasks (mc_prep m) = all_tasks /\ NoDup all_tasks.
Proof.
  intros oracle m R D. split; [exact (reaches_tasks oracle m R D)|].
  repeat (constructor; [cbn; intuition discriminate|]). constructor.
Qed.
Print Assumptions C73_all_tasks_exist.

(** After a failed start-up only the start-up task and the sensor and bus listening
    tasks ever run: no torque, no state changes, no watchdog trigger. *)
Theorem C73_failed_start_up_keeps_tasks_off : forall oracle m t, some_check_fails boot_checks oracle ->
  reaches oracle m -> In t (mc_ran m) -> In t [T_INIT; T_WHEEL; T_INV; T_BMS; T_SENSE].
Proof.
  assert (SP : forall oracle m t, reaches oracle m -> mc_init m = Spin -> In t (mc_ran m) ->
    In t [T_INIT; T_WHEEL; T_INV; T_BMS; T_SENSE]).
  { intros oracle m t R E J. destruct (reaches_inv _ _ R) as (_ & _ & I). rewrite E in I.
    destruct I as (_ & N & RT & _ & B & _).
    destruct (Z.eq_dec t T_INIT) as [->|NI]; [now left|].
    specialize (N t J). specialize (B t (RT t J NI)). cbn in B.
    destruct B as [<-|[<-|[<-|[<-|[<-|[<-|[<-|[]]]]]]]]; try (exfalso; apply N; split; [discriminate|reflexivity]);
      cbn; auto 10. }
  intros oracle m t F R J.
  assert (ND : forall m, reaches oracle m -> mc_init m <> Deleted).
  { intros m0 R0 D. destruct (reaches_inv _ _ R0) as (_ & _ & I). rewrite D in I. now apply I. }
  destruct (goes_to_end oracle m R (ND m R)) as (m' & R' & [E|E] & G).
  - apply (SP oracle m'); auto.
  - exfalso. exact (ND m' R' E).
Qed.
Print Assumptions C73_failed_start_up_keeps_tasks_off.

(** The start-up task asked for a higher priority than all other tasks. Nevertheless
    others run before it has finished, and after it has failed. *)
Theorem C73_start_up_undisturbed_refuted :
  (forall t, t <> T_INIT -> asked_priority t < asked_priority T_INIT) /\
  (exists m, reaches [] m /\ (exists os s, mc_init m = At os s /\ s <> []) /\ In T_INV (mc_ran m)) /\
  (exists oracle m, reaches oracle m /\ mc_init m = Spin /\ last (mc_ran m) T_INIT = T_WHEEL).
Proof.
  split; [|split].
  - intros t N. unfold asked_priority. destruct (Z.eqb_spec t T_INIT); [contradiction|]. cbn.
    repeat match goal with |- context [?x =? ?y] => destruct (x =? y) end; reflexivity.
  - exists (match mcu_run (mcu_reset []) (repeat init_only 27 ++ [mkTurn [T_INV] T_INV []]) with Some m => m | None => mcu_reset [] end).
    split; [exists (repeat init_only 27 ++ [mkTurn [T_INV] T_INV []]); vm_compute; reflexivity|]. split; [|vm_compute; tauto].
    exists [], (skipn 27 init_script). split; [vm_compute; reflexivity|]. vm_compute. discriminate.
  - exists (repeat true 29 ++ [false]).
    exists (match mcu_run (mcu_reset (repeat true 29 ++ [false])) (repeat init_only 40 ++ [mkTurn [T_WHEEL] T_WHEEL []]) with Some m => m | None => mcu_reset [] end).
    split; [exists (repeat init_only 40 ++ [mkTurn [T_WHEEL] T_WHEEL []]); vm_compute; reflexivity|]. split; vm_compute; reflexivity.
Qed.
Print Assumptions C73_start_up_undisturbed_refuted.

(** The order of the priorities asked for is not kept: wheel speed (6) can run
    while the BMS task (10) is ready. *)
Theorem C73_priority_order_refuted : exists m awake, reaches [] m /\
  ready m awake T_BMS = true /\ may_run m awake T_WHEEL = true /\
  asked_priority T_WHEEL < asked_priority T_BMS.
Proof.
  exists (match mcu_run (mcu_reset []) (repeat init_only 40) with Some m => m | None => mcu_reset [] end), [T_WHEEL; T_BMS].
  split; [exists (repeat init_only 40); vm_compute; reflexivity|]. vm_compute. auto.
Qed.
Print Assumptions C73_priority_order_refuted.

(** The order is kept between a task that asked for less than six and one that
    asked for more than it. *)
Theorem C73_priority_order_below_six_partial : forall oracle m awake t u, reaches oracle m ->
  may_run m awake t = true -> ready m awake u = true -> asked_priority t < 6 ->
  asked_priority u <= asked_priority t.
Proof.
  intros oracle m awake t u R MR RU L. unfold may_run in MR. apply andb_prop in MR as [_ MR].
  rewrite forallb_forall in MR.
  assert (J : In u (T_INIT :: awake)).
  { unfold ready in RU. destruct (Z.eqb_spec u T_INIT); [left; auto|]. apply andb_prop in RU as [RU _].
    apply existsb_exists in RU as (x & J & E). apply Z.eqb_eq in E. subst. now right. }
  specialize (MR u J). rewrite RU in MR. cbn [negb orb] in MR. unfold priority, configMAX_PRIORITIES in MR.
  destruct (Z.geb_spec (asked_priority u) 7), (Z.geb_spec (asked_priority t) 7); lia.
Qed.
Print Assumptions C73_priority_order_below_six_partial.

Example C73_nonvacuous : exists m, reaches [] m /\ In T_VSM (mc_ran m) /\
  may_run m [T_PC; T_VSM] T_VSM = true /\ may_run m [T_VSM; T_SDC] T_VSM = false.
Proof.
  exists (match mcu_run (mcu_reset []) (repeat init_only 40 ++ [mkTurn [T_VSM] T_VSM []]) with Some m => m | None => mcu_reset [] end).
  split; [exists (repeat init_only 40 ++ [mkTurn [T_VSM] T_VSM []]); vm_compute; reflexivity|]. vm_compute. tauto.
Qed.
