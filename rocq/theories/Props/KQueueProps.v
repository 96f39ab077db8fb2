(** C97: the kernel queues that carry CAN frames and signal transfers. *)
From Coq Require Import ZifyBool ZifyNat.
From Verif.Base Require Import Words.
From Verif.Model Require Import KQueue CanFrame CanDriver.
From Verif.Spec Require Import KQueueSpec.
From Verif.Proof Require Import KQueueProof KQueueWake KQueueCalls.
Open Scope Z_scope.

(** Whatever tasks and interrupts call, in any interleaving: no access outside the
    storage, and what is received is what was sent, in that order, nothing twice and
    nothing missing; the queue never holds more than its length, and the number it
    reports is the number held. *)
Theorem C97_first_in_first_out : forall prio mem len size tr,
  storage_ok mem len size -> Forall (item_ok size) tr ->
  exists s, kqueue_run prio mem len size tr = Some s /\
    accepted (ks_log s) = delivered (ks_log s) ++ held (ks_log s) /\
    k_count (ks_q s) = Z.of_nat (length (held (ks_log s))) /\
    Z.of_nat (length (held (ks_log s))) <= len.
Proof.
  intros prio mem len size tr (HL & HS & HB & M) I.
  destruct (ks_run_ok prio len size HL HS HB tr (ks_init mem len size)) as (s & E & B); auto; [now apply ks_init_ok|].
  exists s. split; [exact E|]. destruct (base_held len size s B) as (A & R).
  split; [exact A|]. split; [apply (ri_count _ _ _ _ R)|apply (ri_fits _ _ _ _ R)].
Qed.
Print Assumptions C97_first_in_first_out.

(** A call from an interrupt, or a task's call without waiting, answers at once: a
    send succeeds exactly when there is room, a receive gives the oldest item. *)
Theorem C97_answers : forall prio mem len size tr s,
  storage_ok mem len size -> Forall (item_ok size) tr -> kqueue_run prio mem len size tr = Some s ->
  (forall x, Z.of_nat (length x) = size -> exists s', ks_step prio s (KIsrSend x) = Some s' /\
     ks_log s' = ks_log s ++ [(None, answer len (held (ks_log s)) (Send x))]) /\
  (exists s', ks_step prio s KIsrReceive = Some s' /\
     ks_log s' = ks_log s ++ [(None, answer len (held (ks_log s)) Receive)]) /\
  (forall t o, ks_pc s t = Out -> ks_susp s = None -> item_ok size (KCall t o false) ->
     exists s', ks_run prio s [KCall t o false; KStep t false] = Some s' /\
     ks_log s' = ks_log s ++ [(Some t, answer len (held (ks_log s)) o)] /\ ks_pc s' t = Out).
Proof.
  intros prio mem len size tr s (HL & HS & HB & M) I E.
  destruct (ks_run_ok prio len size HL HS HB tr (ks_init mem len size)) as (s0 & E0 & B); auto; [now apply ks_init_ok|].
  unfold kqueue_run in E. rewrite E in E0. injection E0 as <-. split; [|split].
  - intros x X. destruct (ks_step_ok prio len size HL HS HB s (KIsrSend x) B X) as (s' & K & _). exists s'. split; [exact K|].
    now apply (isr_send_answer len size).
  - destruct (ks_step_ok prio len size HL HS HB s KIsrReceive B Logic.I) as (s' & K & _). exists s'. split; [exact K|].
    now apply (isr_receive_answer len size HL HS HB).
  - intros t o P S X. cbn [ks_run ks_step]. rewrite P. unfold may_run. rewrite S. cbn [ks_susp].
    set (s1 := mkKs (ks_q s) (put_pc (ks_pc s) t (Try o false)) None (ks_log s)).
    assert (B1 : base_inv len size s1).
    { destruct B as [B1 B2]. split; [exact B1|]. apply put_pc_ok; [exact B2|]. destruct o; exact X. }
    unfold task_step. assert (P1 : ks_pc s1 t = Try o false) by (cbn; unfold put_pc; now rewrite Z.eqb_refl). rewrite P1.
    assert (O : op_ok size o) by (destruct o; exact X).
    destruct (try_ok len size HL HS HB s1 t o false B1 O) as (s' & K & _). rewrite K. exists s'. split; [reflexivity|].
    split; [apply (try_answer len size HL HS HB s1 t o false s' B1 K); auto|].
    unfold try_op in K. destruct o as [x|].
    + destruct (k_count (ks_q s1) <? k_len (ks_q s1)); [destruct (prvCopyDataToQueue (ks_q s1) x); [|discriminate]|];
        injection K as <-; cbn; unfold put_pc; now rewrite Z.eqb_refl.
    + destruct (0 <? k_count (ks_q s1)); [destruct (prvCopyDataFromQueue (ks_q s1)); [|discriminate]|];
        injection K as <-; cbn; unfold put_pc; now rewrite Z.eqb_refl.
Qed.
Print Assumptions C97_answers.

(** So a receive queue of the CAN driver is the bounded list that the model of the
    driver uses ([queue_push], CanDriver.v), for any way [enc] to lay out a frame. *)
Theorem C97_driver_queue : forall prio mem (cap : nat) size tr s (enc : can_frame -> list Z) l f,
  storage_ok mem (Z.of_nat cap) size -> Forall (item_ok size) tr ->
  kqueue_run prio mem (Z.of_nat cap) size tr = Some s ->
  Z.of_nat (length (enc f)) = size -> held (ks_log s) = map enc l ->
  exists s', ks_step prio s (KIsrSend (enc f)) = Some s' /\ held (ks_log s') = map enc (queue_push cap l f).
Proof.
  intros prio mem cap size tr s enc l f ST I E X H.
  destruct (C97_first_in_first_out prio mem (Z.of_nat cap) size tr ST I) as (s0 & E0 & A & _). rewrite E in E0. injection E0 as <-.
  destruct (C97_answers prio mem (Z.of_nat cap) size tr s ST I E) as (K & _). destruct (K (enc f) X) as (s' & E' & L).
  exists s'. split; [exact E'|]. unfold held. rewrite L, accepted_app, delivered_app, A, H. unfold queue_push. cbn [answer].
  rewrite map_length. replace (Z.of_nat (length l) <? Z.of_nat cap) with (length l <? cap)%nat by lia.
  destruct (length l <? cap)%nat; cbn [accepted delivered flat_map snd app]; rewrite !app_nil_r.
  - rewrite <- app_assoc, skipn_app, skipn_all, Nat.sub_diag. cbn [app skipn]. now rewrite map_app.
  - rewrite skipn_app, skipn_all, Nat.sub_diag. reflexivity.
Qed.
Print Assumptions C97_driver_queue.

(** A task that waits for room is not forgotten: when there is room and the scheduler
    runs, some task outside the list of waiting tasks is in the middle of a send that
    succeeds at its next step. For queues of at most 127 items to which only tasks
    send (the CAN transmit queue: 64). *)
Theorem C97_sender_not_forgotten : forall prio mem len size ts tr s t,
  storage_ok mem len size -> len <= 127 -> NoDup ts -> Forall (item_ok size) tr -> Forall (called_by ts) tr ->
  Forall no_isr_send tr -> kqueue_run prio mem len size tr = Some s ->
  ks_susp s = None -> In t (k_senders (ks_q s)) -> Z.of_nat (length (held (ks_log s))) < len ->
  exists u x s', ~ In u (k_senders (ks_q s)) /\ ks_step prio s (KStep u false) = Some s' /\
    ks_log s' = ks_log s ++ [(Some u, Sent x)].
Proof.
  intros prio mem len size ts tr s t (HL & HS & HB & M) L7 ND I C N E S T R. assert (HL7 : 0 < len <= 127) by lia.
  destruct (ks_run_ok prio len size HL HS HB tr (ks_init mem len size)) as (s0 & E0 & B); auto; [now apply ks_init_ok|].
  unfold kqueue_run in E. rewrite E in E0. injection E0 as <-.
  assert (W : winv ts true s).
  { eapply (wake_run prio len size ts true HL7 HS HB ND tr (ks_init mem len size)); eauto; [now apply wake_init|now apply ks_init_ok]. }
  destruct (base_held len size s B) as (_ & RI).
  destruct (wake_found prio len size ts true ND s W B S) as (u & o & w & NI & SD & P).
  - cbn. intros Z0. rewrite Z0 in T. destruct T.
  - cbn. rewrite (ri_count _ _ _ _ RI), (ri_len _ _ _ _ RI). lia.
  - destruct o as [x|]; [|discriminate]. exists u, x.
    destruct (found_steps prio len size HL HS HB s u (Send x) w B S) as (s' & K & LG).
    + destruct P as [P|P]; [now left|right]. split; [exact P|]. unfold listed. destruct (existsb (Z.eqb u) (k_senders (ks_q s))) eqn:X; [|reflexivity].
      exfalso. apply NI. apply existsb_exists in X. destruct X as (v & V1 & V2). apply Z.eqb_eq in V2. now subst v.
    + cbn. now replace (Z.of_nat (length (held (ks_log s))) <? len) with true by lia.
    + exists s'. split; [exact NI|]. split; [exact K|]. rewrite LG. cbn [answer].
      now replace (Z.of_nat (length (held (ks_log s))) <? len) with true by lia.
Qed.
Print Assumptions C97_sender_not_forgotten.

(** Nor a task that waits for an item or for a transfer to end: when the queue is not
    empty and the scheduler runs, some task outside the list receives at its next
    step. For queues of at most 127 items from which only tasks receive (the
    semaphores: 1). *)
Theorem C97_receiver_not_forgotten : forall prio mem len size ts tr s t,
  storage_ok mem len size -> len <= 127 -> NoDup ts -> Forall (item_ok size) tr -> Forall (called_by ts) tr ->
  Forall no_isr_receive tr -> kqueue_run prio mem len size tr = Some s ->
  ks_susp s = None -> In t (k_receivers (ks_q s)) -> held (ks_log s) <> [] ->
  exists u x s', ~ In u (k_receivers (ks_q s)) /\ ks_step prio s (KStep u false) = Some s' /\
    ks_log s' = ks_log s ++ [(Some u, Got x)].
Proof.
  intros prio mem len size ts tr s t (HL & HS & HB & M) L7 ND I C N E S T R. assert (HL7 : 0 < len <= 127) by lia.
  destruct (ks_run_ok prio len size HL HS HB tr (ks_init mem len size)) as (s0 & E0 & B); auto; [now apply ks_init_ok|].
  unfold kqueue_run in E. rewrite E in E0. injection E0 as <-.
  assert (W : winv ts false s).
  { eapply (wake_run prio len size ts false HL7 HS HB ND tr (ks_init mem len size)); eauto; [now apply wake_init|now apply ks_init_ok]. }
  destruct (base_held len size s B) as (_ & RI).
  destruct (held (ks_log s)) as [|h r] eqn:H; [congruence|].
  destruct (wake_found prio len size ts false ND s W B S) as (u & o & w & NI & SD & P).
  - cbn. intros Z0. rewrite Z0 in T. destruct T.
  - cbn. rewrite (ri_count _ _ _ _ RI). cbn [length]. lia.
  - destruct o as [x|]; [discriminate|]. exists u, h.
    destruct (found_steps prio len size HL HS HB s u Receive w B S) as (s' & K & LG).
    + destruct P as [P|P]; [now left|right]. split; [exact P|]. unfold listed. destruct (existsb (Z.eqb u) (k_receivers (ks_q s))) eqn:X; [|reflexivity].
      exfalso. apply NI. apply existsb_exists in X. destruct X as (v & V1 & V2). apply Z.eqb_eq in V2. now subst v.
    + rewrite H. cbn. exact Logic.I.
    + exists s'. split; [exact NI|]. split; [exact K|]. rewrite LG, H. reflexivity.
Qed.
Print Assumptions C97_receiver_not_forgotten.

(** Among the waiting tasks one of the highest priority is woken: a task that leaves
    a list, other than by its time-out, has at least the priority of all that stay. *)
Theorem C97_highest_priority_first : forall prio mem len size tr s ev s' t y,
  kqueue_run prio mem len size tr = Some s -> ks_step prio s ev = Some s' -> (forall u, ev <> KTimeout u) ->
  (In t (k_senders (ks_q s)) -> ~ In t (k_senders (ks_q s')) -> In y (k_senders (ks_q s')) -> prio y <= prio t) /\
  (In t (k_receivers (ks_q s)) -> ~ In t (k_receivers (ks_q s')) -> In y (k_receivers (ks_q s')) -> prio y <= prio t).
Proof.
  intros prio mem len size tr s ev s' t y E K NT.
  assert (S : sorted prio (ks_q s)) by (apply (sorted_run prio tr (ks_init mem len size) s); [split; exact Logic.I|exact E]).
  split; intros; [apply (woken_highest prio true s ev s' t y)|apply (woken_highest prio false s ev s' t y)]; auto.
Qed.
Print Assumptions C97_highest_priority_first.

(** Where no call waits (all receive queues of the CAN driver, 256 frames), no task
    is ever in a list and the scheduler is never suspended. *)
Theorem C97_without_waiting : forall prio mem len size tr s,
  Forall never_waits tr -> kqueue_run prio mem len size tr = Some s ->
  ks_susp s = None /\ k_senders (ks_q s) = [] /\ k_receivers (ks_q s) = [].
Proof.
  intros prio mem len size tr s N E. destruct (calm_run prio tr (ks_init mem len size) s) as (A & B & C & _); auto.
  unfold calm. cbn. auto.
Qed.
Print Assumptions C97_without_waiting.

(** ** Concrete runs *)
Definition flat (t : Z) : Z := 1.
(** A queue of two items of one byte. Tasks 1 and 2 fill it, task 3 waits for room and
    is put in the list; while it still has the queue locked an interrupt takes an item. *)
Definition fill : list kevent :=
  [KCall 1 (Send [11]) false; KStep 1 false; KCall 2 (Send [12]) false; KStep 2 false].
Definition wait_3 : list kevent := [KCall 3 (Send [13]) true; KStep 3 false; KStep 3 false; KStep 3 false].
Definition go_on : list kevent := [KStep 3 false; KStep 3 false].

Example C97_ex_run : exists s, kqueue_run flat [0; 0] 2 1 (fill ++ wait_3 ++ [KIsrReceive] ++ go_on ++ [KStep 3 false; KIsrReceive]) = Some s /\
  ks_log s = [(Some 1, Sent [11]); (Some 2, Sent [12]); (None, Got [11]); (Some 3, Sent [13]); (None, Got [12])] /\
  held (ks_log s) = [[13]] /\ k_mem (ks_q s) = [13; 12].
Proof. eexists. split; [vm_compute; reflexivity|]. repeat split. Qed.
Example C97_ex_storage : storage_ok [0; 0] 2 1 /\ Forall (item_ok 1) (fill ++ wait_3 ++ [KIsrReceive] ++ go_on).
Proof. split; [repeat split; vm_compute; congruence|]. repeat constructor. Qed.

(** Two senders wait, one item is taken: one is woken, the other is still in the list
    and there is room: the theorem's case. *)
Definition wait_4 : list kevent := [KCall 4 (Send [14]) true; KStep 4 false; KStep 4 false; KStep 4 false; KStep 4 false; KStep 4 false].
Example C97_ex_sender : exists s, kqueue_run flat [0; 0] 2 1 (fill ++ wait_4 ++ wait_3 ++ [KIsrReceive] ++ go_on) = Some s /\
  ks_susp s = None /\ k_senders (ks_q s) = [3] /\ length (held (ks_log s)) = 1%nat /\
  Forall (called_by [1; 2; 3; 4]) (fill ++ wait_4 ++ wait_3 ++ [KIsrReceive] ++ go_on) /\
  Forall no_isr_send (fill ++ wait_4 ++ wait_3 ++ [KIsrReceive] ++ go_on).
Proof. eexists. split; [vm_compute; reflexivity|]. split; [reflexivity|]. split; [reflexivity|]. split; [reflexivity|].
  split; unfold fill, wait_4, wait_3, go_on; cbn [app]; repeat (apply Forall_cons; [cbn; auto 10|]); apply Forall_nil. Qed.

(** A semaphore (one item of size 0): two tasks wait, an interrupt gives it; the task
    of the higher priority is woken although it came second. *)
Definition sem_wait (t : Z) : list kevent := [KCall t Receive true; KStep t false; KStep t false; KStep t false; KStep t false; KStep t false].
Definition ranked (t : Z) : Z := if t =? 2 then 5 else 1.
Example C97_ex_semaphore : exists s, kqueue_run ranked [] 1 0 (sem_wait 1 ++ sem_wait 2 ++ [KIsrSend []]) = Some s /\
  ks_susp s = None /\ k_receivers (ks_q s) = [1] /\ held (ks_log s) = [[]].
Proof. eexists. split; [vm_compute; reflexivity|]. repeat split. Qed.

(** The bound of 127 is needed: while a task that waits for an item has the queue
    locked, 128 items arrive; the 8-bit count wraps and nobody wakes the task, though
    the queue has 128 items and no other task is in a call. *)
Definition long_wait : list kevent :=
  [KCall 1 Receive true; KStep 1 false; KStep 1 false; KStep 1 false] ++ repeat (KIsrSend []) 128 ++ [KStep 1 false; KStep 1 false].
Definition forgotten : option ksys := kqueue_run flat [] 256 0 long_wait.
Example C97_ex_bound_needed : exists s, forgotten = Some s /\ ks_susp s = None /\ k_receivers (ks_q s) = [1] /\
  length (held (ks_log s)) = 128%nat /\ forall u e, ks_step flat s (KStep u e) = Some s.
Proof.
  destruct forgotten as [s|] eqn:E; [|vm_compute in E; discriminate]. exists s. split; [reflexivity|].
  vm_compute in E. injection E as <-. split; [reflexivity|]. split; [reflexivity|]. split; [vm_compute; reflexivity|].
  intros u e. unfold ks_step, may_run, task_step. cbn [ks_susp ks_pc].
  destruct (Z.eq_dec u 1) as [-> |NE]; [reflexivity|].
  destruct u as [|[]|]; reflexivity || congruence.
Qed.
