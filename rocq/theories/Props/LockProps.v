(** Mutexes (C71). Tasks are numbered as in [tasks]: 0 throttle, 1 state manager,
    2 BMS, 3 inverter, 4 shutdown circuit, 5 wheel speed, 6 GPS, 7 pedals and
    dashboard, 8 watchdog, 9 PC interface, 10 start-up. A schedule is any list of
    (task, choice) pairs. *)
From Verif Require Import Model.Locks Spec.LockSpec Proof.LockProof.

(** No task ever gives back a mutex that another task holds, which would stop the
    system, although several tasks release without checking that they acquired. *)
Theorem C71_never_halts : forall sch, s_halt (sys_run tasks sch) = false.
Proof. intro sch. apply (run_inv sch). Qed.

(** At no point of a run do two tasks hold the same mutex. *)
Theorem C71_one_holder : forall sch t1 t2 l a b,
  s_trace (sys_run tasks sch) = t1 ++ t2 -> holds_at t1 a l -> holds_at t1 b l -> a = b.
Proof. intro sch. destruct (run_inv sch) as (_ & _ & _ & _ & X). exact X. Qed.

(** The vehicle state, the inverter command data, the CRC unit and the log are
    only ever accessed by a task that holds the mutex guarding them. *)
Theorem C71_access_needs_mutex : forall sch t1 b l t2, l <> THR ->
  s_trace (sys_run tasks sch) = t1 ++ (b, Accessed l) :: t2 ->
  holds_at t1 b l /\ forall c, holds_at t1 c l -> c = b.
Proof.
  intros sch t1 b l t2 N E. destruct (run_inv sch) as (_ & _ & _ & G & X).
  assert (H : holds_at t1 b l) by (eapply G; eauto). split; auto.
  intros c Hc. eapply X; eauto.
Qed.

(** The throttle's enable flag and direction are the exception: the throttle task
    reads them without the mutex, even while the state manager holds it. *)
Theorem C71_throttle_flags_refuted : exists sch t1,
  s_trace (sys_run tasks sch) = t1 ++ [(0, Accessed THR)] /\ holds_at t1 1 THR.
Proof.
  exists (repeat (1, 7) 12 ++ repeat (0, 0) 5).
  exists ([(1, Took VS)] ++ repeat (1, Accessed VS) 7 ++ [(1, Gave VS); (1, Took THR);
           (0, Took VS); (0, Accessed VS); (0, Gave VS)]).
  split; [vm_compute; reflexivity|].
  exists ([(1, Took VS)] ++ repeat (1, Accessed VS) 7 ++ [(1, Gave VS)]),
    [(0, Took VS); (0, Accessed VS); (0, Gave VS)].
  split; [reflexivity|]. cbn. intuition discriminate.
Qed.

(** A task that holds a mutex gives it back by its twelfth turn, whatever the other
    tasks do and however the open choices fall: it never waits for anything. *)
Theorem C71_release_within_12 : forall sch l a more,
  holds_at (s_trace (sys_run tasks sch)) a l -> 12 <= turns a more ->
  exists t, s_trace (continue (sys_run tasks sch) more) =
            s_trace (sys_run tasks sch) ++ t /\ In (a, Gave l) t.
Proof.
  intros sch l a more H T. pose proof (run_inv sch) as I. pose proof I as (_ & _ & Ho & _).
  apply Ho in H.
  assert (L : a < length (s_prog (sys_run tasks sch))).
  { eapply (owner_bound_fold tasks); eauto using tasks_fine.
    - apply init_inv; apply tasks_fine.
    - discriminate. }
  destruct (nth_error (s_prog (sys_run tasks sch)) a) as [p|] eqn:E.
  - destruct (run_small sch a p E l H) as (n & Hn & F).
    eapply (holder_gives tasks); eauto using tasks_fine. unfold K in Hn. lia.
  - apply nth_error_None in E. lia.
Qed.

(** A task has at most one mutex: the condition under which C99 is proved. *)
Theorem C71_one_at_a_time : forall sch a l l',
  holds_at (s_trace (sys_run tasks sch)) a l -> holds_at (s_trace (sys_run tasks sch)) a l' -> l = l'.
Proof.
  intros sch a l l' H H'. pose proof (run_inv sch) as I. pose proof I as (_ & Ht & Ho & _).
  apply Ho in H. apply Ho in H'.
  assert (L : a < length (s_prog (sys_run tasks sch))).
  { eapply (owner_bound_fold tasks); eauto using tasks_fine.
    - apply init_inv; apply tasks_fine.
    - discriminate. }
  destruct (nth_error (s_prog (sys_run tasks sch)) a) as [p|] eqn:E.
  - destruct (Ht _ _ E) as (h & _ & Oh). apply Oh in H. apply Oh in H'. destruct H as (n & ->). destruct H' as (n' & H'). congruence.
  - apply nth_error_None in E. lia.
Qed.

(** A task that waits for its next notification holds nothing. *)
Theorem C71_idle_holds_nothing : forall sch a l,
  nth_error (s_prog (sys_run tasks sch)) a = Some Idle ->
  ~ holds_at (s_trace (sys_run tasks sch)) a l.
Proof.
  intros sch a l E H. destruct (run_inv sch) as (_ & Ht & Ho & _).
  apply Ho in H. destruct (Ht _ _ E) as (h & F & Oh). inversion F; subst.
  apply Oh in H. destruct H; discriminate.
Qed.

(** No deadlock: wherever the system has got to, every task can be brought to the
    end of its round. *)
Theorem C71_no_deadlock : forall sch a, a < length tasks ->
  exists more, nth_error (s_prog (continue (sys_run tasks sch) more)) a = Some Idle.
Proof.
  intros sch a L. pose proof (run_inv sch) as I.
  assert (E : length (s_prog (sys_run tasks sch)) = length tasks)
    by (unfold sys_run; rewrite fold_length; reflexivity).
  destruct (nth_error (s_prog (sys_run tasks sch)) a) as [p|] eqn:Ep.
  - pose proof I as (_ & Ht & _). destruct (Ht _ _ Ep) as (h & F & _).
    eapply (can_finish tasks tasks_fine); eauto.
    eapply (owner_bound_fold tasks); eauto using tasks_fine.
    + apply init_inv; apply tasks_fine.
    + discriminate.
  - apply nth_error_None in Ep. lia.
Qed.

(** Contention does occur: the BMS task waits while the throttle task reads the
    pedal, and goes on once the vehicle state is free. *)
Example C71_nonvacuous :
  let blocked := repeat (0, 0) 2 ++ repeat (2, 1) 5 in
  holds_at (s_trace (sys_run tasks blocked)) 0 VS /\
  s_trace (sys_run tasks blocked) = [(0, Took VS)] /\
  s_trace (sys_run tasks (blocked ++ repeat (0, 0) 2 ++ [(2, 0)])) =
    [(0, Took VS); (0, Accessed VS); (0, Gave VS); (2, Took VS)].
Proof.
  cbv zeta. split; [|split; vm_compute; reflexivity]. exists [], []. split; [vm_compute; reflexivity|auto].
Qed.

Print Assumptions C71_never_halts.
Print Assumptions C71_one_holder.
Print Assumptions C71_access_needs_mutex.
Print Assumptions C71_throttle_flags_refuted.
Print Assumptions C71_release_within_12.
Print Assumptions C71_one_at_a_time.
Print Assumptions C71_idle_holds_nothing.
Print Assumptions C71_no_deadlock.
