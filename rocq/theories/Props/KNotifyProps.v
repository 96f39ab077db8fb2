(** C101: notifications of a task by the timer. C102: waiting on streams.
    [n_run (n_start first room) tr] is the task after the history [tr]. *)
From Coq Require Import ZifyBool ZifyNat.
From Verif.Spec Require Import KNotifySpec KTimelySpec.
From Verif.Proof Require Import KNotifyProof KNotifyClaims KStreamWait KTimelyProof.
Open Scope Z_scope.

(** ** C101 *)
(** No check of the kernel fails. *)
Theorem C101_never_halts : forall first room tr, 0 <= room -> history tr ->
  exists s, n_run (n_start first room) tr = Some s.
Proof.
  intros first room tr R (F & P). destruct (inv_run tr (n_start first room)) as (s & E & _); auto using inv_start. eauto.
Qed.
Print Assumptions C101_never_halts.

(** No notification is lost, none is invented: those that the calls have consumed and
    those still counted are those given, also if the task waited on streams. *)
Theorem C101_no_tick_lost : forall first room tr s, 0 <= room -> history tr -> keeps_up first room tr ->
  n_run (n_start first room) tr = Some s -> taken (n_log s) + n_val s = gives tr.
Proof. intros first room tr s R H K E. destruct (count_reach first room tr s R H K E) as (C & _). lia. Qed.
Print Assumptions C101_no_tick_lost.

(** While the scheduler runs, a task sleeps in ulTaskNotifyTake only if it has consumed
    all notifications, and only before its time is up. *)
Theorem C101_no_lost_wake_up : forall first room tr s c w t, 0 <= room -> history tr -> keeps_up first room tr ->
  n_run (n_start first room) tr = Some s -> n_pc s = PTake c w t -> sleeps s -> n_susp s = 0 ->
  taken (n_log s) = gives tr /\ (w = portMAX_DELAY \/ first + nticks tr < t + w).
Proof.
  intros first room tr s c w t R H K E PC SL S0.
  destruct (count_reach first room tr s R H K E) as (C & _).
  assert (T := time_reach first room tr s R H E).
  destruct (inv_reach first room tr s R H E) as [P _ _ RU _ DU _ _ _ _ _]. unfold pc_ok, sleeps in *. rewrite PC in P.
  destruct P as (_ & _ & _ & _ & P1 & P2). destruct (RU S0) as (N & L).
  assert (W : n_st s = Waiting).
  { destruct (n_st s) eqn:Q; auto; destruct P2 as [Z|Z]; try discriminate; congruence. }
  destruct (P1 W) as (WO & V). split; [lia|]. unfold waits_ok in WO.
  destruct (n_sleep s); [congruence| |now left]. right. lia.
Qed.
Print Assumptions C101_no_lost_wake_up.

(** As soon as the task runs, the call reports exactly the notifications outstanding. *)
Theorem C101_reports_all : forall first room tr s s' c w t, 0 <= room -> history tr -> keeps_up first room tr ->
  n_run (n_start first room) tr = Some s -> n_pc s = PTake c w t -> can_run s = true -> n_step s NStep = Some s' ->
  n_log s' = n_log s ++ [RTake c w t (first + nticks tr) (gives tr - taken (n_log s))] /\ n_pc s' = POut.
Proof.
  intros first room tr s s' c w t R H K E PC CR ES.
  destruct (count_reach first room tr s R H K E) as (C & _).
  assert (T := time_reach first room tr s R H E).
  destruct (inv_reach first room tr s R H E) as [_ _ _ RU _ _ _ _ _ _ _].
  destruct (can_run_awake s CR) as (_ & S0). destruct (RU S0) as (N & _).
  unfold n_step in ES. rewrite CR in ES. unfold task_step in ES. rewrite PC in ES. injection ES as <-.
  cbn. split; [|reflexivity]. repeat f_equal; lia.
Qed.
Print Assumptions C101_reports_all.

(** A call that reports nothing has lasted its whole time. *)
Theorem C101_nothing_only_after_time_out : forall first room tr s c w t0 t1, 0 <= room -> history tr -> keeps_up first room tr ->
  n_run (n_start first room) tr = Some s -> In (RTake c w t0 t1 0) (n_log s) -> t0 + w <= t1 /\ w <> portMAX_DELAY.
Proof.
  intros first room tr s c w t0 t1 R H K E IN. destruct (count_reach first room tr s R H K E) as (_ & _ & F).
  rewrite Forall_forall in F. destruct (F _ IN) as (_ & Q). now apply Q.
Qed.
Print Assumptions C101_nothing_only_after_time_out.

(** No call lasts longer than the time it was given, if nobody suspends the scheduler and
    the task runs as soon as it is ready. *)
Theorem C101_wait_ends_in_time : forall first room tr s c w t0 t1 v, 0 <= room -> history tr -> runs_at_once first room tr ->
  n_run (n_start first room) tr = Some s -> In (RTake c w t0 t1 v) (n_log s) -> w = portMAX_DELAY \/ t1 <= t0 + w.
Proof.
  intros first room tr s c w t0 t1 v R H Q E IN. destruct (timely_run first room tr s R H Q E) as (_ & _ & F).
  rewrite Forall_forall in F. exact (F _ IN).
Qed.
Print Assumptions C101_wait_ends_in_time.

(** ** C102 *)
(** While the scheduler runs, the reader of a stream sleeps only if the stream is empty
    or a sender has stored bytes and is about to look for it. *)
Theorem C102_reader_wakes : forall first room tr s, 0 <= room -> history tr ->
  n_run (n_start first room) tr = Some s -> in_receive s -> sleeps s -> n_susp s = 0 -> n_owed s = 0 -> n_avail s = 0.
Proof. intros first room tr s R H E. apply reader_wakes. exact (inv_reach first room tr s R H E). Qed.
Print Assumptions C102_reader_wakes.

(** A task that nobody else notifies, and whose senders are interrupts, gets nothing from
    a receive only after the whole time. *)
Theorem C102_nothing_only_after_time_out : forall first room tr s n w t0 t1, 0 <= room -> history tr ->
  gives tr = 0 -> prompt false tr -> n_run (n_start first room) tr = Some s ->
  In (RRecv n w t0 t1 0) (n_log s) -> n = 0 \/ (t0 + w <= t1 /\ w <> portMAX_DELAY).
Proof.
  intros first room tr s n w t0 t1 R (F & P) G PR E IN.
  assert (L : Forall recv_ret (n_log s)).
  { apply (recv_run tr false (n_start first room)); auto using inv_start.
    - split; [reflexivity|]. split; [discriminate|exact Logic.I].
    - constructor. }
  rewrite Forall_forall in L. exact (L _ IN eq_refl).
Qed.
Print Assumptions C102_nothing_only_after_time_out.

(** A send that stores less than it was given has lasted its whole time. *)
Theorem C102_cut_only_after_time_out : forall first room tr s n w t0 t1 p, 0 <= room -> history tr -> keeps_up first room tr ->
  n_run (n_start first room) tr = Some s -> In (RSend n w t0 t1 p) (n_log s) -> 0 <= p <= n /\ (p < n -> t0 + w <= t1).
Proof.
  intros first room tr s n w t0 t1 p R H K E IN. destruct (count_reach first room tr s R H K E) as (_ & _ & F).
  rewrite Forall_forall in F. exact (F _ IN).
Qed.
Print Assumptions C102_cut_only_after_time_out.

(** The same for a sender: while the scheduler runs, it sleeps only if its message does
    not fit. *)
Theorem C102_sender_wakes : forall first room tr s n w t l, 0 <= room -> history tr ->
  n_run (n_start first room) tr = Some s -> n_pc s = PSend2 n w t l -> sleeps s -> n_susp s = 0 -> n_room s < n.
Proof. intros first room tr s n w t l R H E. apply (sender_wakes s n w t l). exact (inv_reach first room tr s R H E). Qed.
Print Assumptions C102_sender_wakes.

(** The same bound for receives and sends; a send waits again and again, each time for
    what is left of its time. *)
Theorem C102_waits_end_in_time : forall first room tr s, 0 <= room -> history tr -> runs_at_once first room tr ->
  n_run (n_start first room) tr = Some s -> Forall in_time (n_log s).
Proof. intros first room tr s R H Q E. apply (timely_run first room tr s R H Q E). Qed.
Print Assumptions C102_waits_end_in_time.

(** If the interrupt of the transmit DMA came before the call, the end of the transmission
    brings room and wakes the sender. [b] is what happens between, the call included. *)
Theorem C102_room_wakes_sender : forall first room a b s0 s n w t l k, 0 <= room -> history (a ++ NDma :: b) ->
  n_run (n_start first room) a = Some s0 -> outside s0 = true -> Forall (fun e => forall j, e <> NRoom j) b ->
  n_run (n_start first room) (a ++ NDma :: b) = Some s -> n_pc s = PSend2 n w t l -> sleeps s -> n_susp s = 0 ->
  exists s', n_step s (NRoom k) = Some s' /\ can_run s' = true /\ n_room s' = n_room s + k.
Proof.
  intros first room a b s0 s n w t l k R H E0 OU NR E PC SL S0.
  assert (LA : n_last s = true).
  { rewrite n_run_app, E0 in E. cbn [n_run] in E.
    destruct (inv_reach first room a s0 R (history_app _ _ H) E0) as [P _ _ _ _ _ _ _ _ _ _].
    unfold pc_ok, outside in *. destruct (n_pc s0) eqn:Q; try discriminate OU.
    destruct P as (_ & _ & _ & _ & IR). unfold n_step in E at 1. rewrite IR in E.
    apply (last_stays b (set_last s0 true) s); auto. }
  destruct (inv_reach first room _ s R H E) as [P _ _ RU _ _ _ _ _ _ _]. destruct (RU S0) as (_ & LI).
  unfold pc_ok, sleeps in *. rewrite PC in P. destruct P as (_ & _ & _ & _ & P1 & _ & P3).
  assert (W : n_st s = Waiting).
  { destruct (n_st s) eqn:Q; auto; destruct P3 as [Z|Z]; try discriminate; congruence. }
  assert (SD : n_sender s = true) by (destruct (n_sender s); auto; specialize (P1 eq_refl); congruence).
  unfold n_step. rewrite LA, SD. unfold notify_isr. rewrite W, LI, S0. cbn [Z.eqb].
  eexists. split; [reflexivity|]. split; [|reflexivity]. unfold can_run. cbn. now rewrite S0.
Qed.
Print Assumptions C102_room_wakes_sender.

(** But room comes late. The call disables the interrupt of the transmit DMA. Unless that
    one has just run, a message that does not fit when it is sent on a busy serial port
    never gets more room, whatever the port does meanwhile: the call lasts its whole time,
    and what is stored is what fitted at the call. *)
Theorem C102_send_waits_in_vain : forall first room a n w b s s', 0 <= room -> history (a ++ NSend n w :: b) -> 0 < w ->
  n_run (n_start first room) a = Some s -> can_run s = true -> outside s = true -> n_last s = false -> n_room s < n ->
  n_run (n_start first room) (a ++ NSend n w :: b) = Some s' ->
  n_log s' = n_log s \/
  exists stop l, n_log s' = n_log s ++ RSend n w (first + nticks a) stop (n_room s) :: l /\ first + nticks a + w <= stop.
Proof.
  intros first room a n w b s s' R H W E CR OU LA RM E'.
  rewrite n_run_app, E in E'. cbn [n_run] in E'.
  assert (HA := history_app _ _ H). assert (I := inv_reach first room a s R HA E).
  assert (T := time_reach first room a s R HA E). assert (I0 := I). destruct I0 as [_ _ _ RU _ _ _ _ RO _ _].
  destruct (can_run_awake s CR) as (_ & S0). destruct (RU S0) as (N & _).
  assert (HB : history (a ++ [NSend n w] ++ b)) by exact H. rewrite app_assoc in HB.
  destruct H as (F & PA). apply Forall_app in F. destruct F as (_ & F). inversion F as [|x y OK FB]; subst.
  destruct (inv_send s n w I OK) as (s1 & ES & I1). rewrite ES in E'.
  assert (SU : forall x y z k, n_run x y = Some z -> paired (n_susp x) (y ++ k) -> paired (n_susp z) k).
  { clear. intros x y. revert x. induction y as [|e y IH]; intros x z k Q P; [injection Q as <-; exact P|].
    cbn [n_run] in Q. destruct (n_step x e) as [x1|] eqn:X; [|discriminate]. apply (IH x1); auto.
    rewrite (step_susp x e x1 X). destruct e; cbn [app paired opens] in *; rewrite ?Z.add_0_r; try exact P. now destruct P. }
  assert (PB : paired (n_susp s) (NSend n w :: b)) by exact (SU _ _ _ _ E PA).
  cbn [event_ok] in OK. unfold n_step in ES. rewrite CR, OU in ES. cbn [andb] in ES.
  assert (WZ : (w =? 0) = false) by lia. rewrite WZ in ES. injection ES as <-.
  match type of I1 with inv ?x => set (s1 := x) in * end.
  assert (SD : sending n w (first + nticks a) (n_room s) s1) by (unfold sending; subst s1; cbn; repeat split; lia).
  apply (send_run b n w (first + nticks a) (n_room s) s1 s' I1 FB); [exact PB|lia|lia|exact SD|exact E'].
Qed.
Print Assumptions C102_send_waits_in_vain.

(** So the claim that a send goes on when the port has sent enough is false: 40 bytes of
    room, a message of 64 bytes, and a transfer that ends one tick later; its interrupts
    would free 100 bytes. The call lasts 100 ticks and stores 40 bytes. *)
Definition busy_port : list nevent :=
  [NSend 64 100; NStep; NStep; NTick; NDma; NRoom 100] ++ repeat NTick 99 ++ [NStep; NStep; NStep].

Theorem C102_send_goes_on_refuted :
  history busy_port /\ exists s, n_run (n_start 0 40) busy_port = Some s /\ In NDma busy_port /\ In (NRoom 100) busy_port /\
    n_log s = [RSend 64 100 0 100 40].
Proof.
  split; [apply history_check; vm_compute; reflexivity|].
  eexists. split; [vm_compute; reflexivity|]. split; [cbn; tauto|]. split; [cbn; tauto|reflexivity].
Qed.
Print Assumptions C102_send_goes_on_refuted.

(** ** Examples *)
(** A send that does go on: the DMA interrupt came just before the call. *)
Example C102_ex_just_in_time : exists s,
  n_run (n_start 0 40) [NDma; NSend 64 100; NStep; NStep; NTick; NRoom 100; NStep; NStep; NStep; NStep; NStep] = Some s /\
  n_log s = [RSend 64 100 0 1 64].
Proof. eexists. split; [vm_compute; reflexivity|reflexivity]. Qed.

(** That history meets the conditions of C102_room_wakes_sender. *)
Example C102_ex_sender_sleeps : exists s,
  history ([] ++ NDma :: [NSend 64 100; NStep; NStep; NTick]) /\
  Forall (fun e => forall j, e <> NRoom j) [NSend 64 100; NStep; NStep; NTick] /\
  n_run (n_start 0 40) ([] ++ NDma :: [NSend 64 100; NStep; NStep; NTick]) = Some s /\
  n_pc s = PSend2 64 100 0 100 /\ sleeps s /\ n_susp s = 0.
Proof.
  eexists. split; [apply history_check; vm_compute; reflexivity|]. split; [repeat constructor; discriminate|].
  split; [vm_compute; reflexivity|]. split; [reflexivity|]. split; [discriminate|reflexivity].
Qed.

(** A send that is woken early, by room that is not enough, and then has 99 ticks left: it
    runs at once and lasts 100 ticks. *)
Definition twice : list nevent :=
  [NDma; NSend 64 100; NStep; NStep; NTick; NRoom 10; NStep; NStep; NStep; NStep] ++ repeat NTick 99 ++ [NStep; NStep; NStep].
Example C102_ex_twice : history twice /\ runs_at_once 0 40 twice /\
  exists s, n_run (n_start 0 40) twice = Some s /\ n_log s = [RSend 64 100 0 100 50].
Proof.
  split; [apply history_check; vm_compute; reflexivity|]. split; [apply at_once_ok; vm_compute; reflexivity|].
  eexists. split; [vm_compute; reflexivity|reflexivity].
Qed.

(** The timer ticks twice while the task waits for room on a serial port, once more
    later; the next call reports three. *)
Definition three_ticks : list nevent :=
  [NSend 64 100; NStep; NStep; NTick; NGive; NStep; NStep; NStep; NStep; NGive] ++ repeat NTick 99 ++
  [NStep; NStep; NStep; NGive; NTake true 100; NStep].
Example C101_ex_three : exists s, n_run (n_start 0 40) three_ticks = Some s /\
  n_log s = [RSend 64 100 0 100 40; RTake true 100 100 100 3] /\ gives three_ticks = 3.
Proof. eexists. split; [vm_compute; reflexivity|]. split; reflexivity. Qed.

(** Notified while another task has suspended the scheduler: the task sleeps on until
    the scheduler is resumed, and no longer. *)
Definition while_suspended : list nevent := [NTake true 100; NTick; NSuspend; NGive; NTick; NGive].
Example C101_ex_suspended :
  (exists s, n_run (n_start 0 40) while_suspended = Some s /\ sleeps s /\ n_val s = 2) /\
  (exists s, n_run (n_start 0 40) (while_suspended ++ [NResume; NStep]) = Some s /\ n_log s = [RTake true 100 0 2 2]).
Proof. split; eexists; (split; [vm_compute; reflexivity|]); split; try reflexivity. discriminate. Qed.
Example C101_ex_history : history (while_suspended ++ [NResume; NStep]) /\ keeps_up 0 40 (while_suspended ++ [NResume; NStep]).
Proof.
  assert (H : history (while_suspended ++ [NResume; NStep])) by (apply history_check; vm_compute; reflexivity).
  split; [exact H|]. apply few_keep_up; [lia|exact H|reflexivity].
Qed.

(** A receive: bytes come while the task sleeps. And one that waits in vain. *)
Example C102_ex_receive : exists s,
  n_run (n_start 0 40) [NRecv 16 100; NStep; NTick; NData 5; NTold true; NStep; NStep; NStep; NStep] = Some s /\
  n_log s = [RRecv 16 100 0 1 5].
Proof. eexists. split; [vm_compute; reflexivity|reflexivity]. Qed.
Example C102_ex_vain : exists s,
  n_run (n_start 0 40) ([NRecv 16 3; NStep] ++ repeat NTick 3 ++ repeat NStep 3) = Some s /\
  prompt false ([NRecv 16 3; NStep] ++ repeat NTick 3 ++ repeat NStep 3) /\ n_log s = [RRecv 16 3 0 3 0].
Proof. eexists. split; [vm_compute; reflexivity|]. split; [cbn; tauto|reflexivity]. Qed.
(** Without prompt senders a receive can end at once with nothing: the bytes that the
    sender announces were read before. *)
Example C102_ex_late_sender : exists s,
  n_run (n_start 0 40) [NData 5; NRecv 16 100; NStep; NRecv 16 100; NStep; NTold false; NStep; NStep; NStep] = Some s /\
  n_log s = [RRecv 16 100 0 0 5; RRecv 16 100 0 0 0].
Proof. eexists. split; [vm_compute; reflexivity|reflexivity]. Qed.
