(** C99: the kernel's mutexes with priority inheritance. *)
From Coq Require Import ZArith List Lia Bool ZifyBool ZifyNat Sorting.Sorted.
From Verif.Model Require Import KMutex.
From Verif.Spec Require Import KMutexSpec.
From Verif.Proof Require Import KMutexProof.
Import ListNotations.
Open Scope Z_scope.

(** No assertion of the kernel fails, whatever the tasks, interrupts and ticks do, as
    long as tasks take one mutex at a time. *)
Theorem C99_never_halts : forall base ids tr, setting base ids -> one_at_a_time base (km_start base ids) tr ->
  exists k, km_run base (km_start base ids) tr = Some k.
Proof.
  intros base ids tr SET O. destruct (good_run base ids SET tr _ (good_start base ids SET) O) as (k & E & _). eauto.
Qed.
Print Assumptions C99_never_halts.

(** A mutex is taken only when free, and given back only by the task that took it. *)
Theorem C99_mutual_exclusion : forall base ids tr k, setting base ids -> one_at_a_time base (km_start base ids) tr ->
  km_run base (km_start base ids) tr = Some k -> exclusive (k_log k).
Proof.
  intros base ids tr k SET O R. destruct (good_run base ids SET tr _ (good_start base ids SET) O) as (k' & E & G).
  assert (k' = k) by congruence. subst k'. apply (g_excl _ _ _ G).
Qed.
Print Assumptions C99_mutual_exclusion.

(** The task that has a mutex runs with at least the priority of each task that waits for it. *)
Theorem C99_holder_priority : forall base ids tr k m h u, setting base ids -> one_at_a_time base (km_start base ids) tr ->
  km_run base (km_start base ids) tr = Some k ->
  holder_of (k_log k) m = Some h -> waits k u m -> t_prio (k_task k u) <= t_prio (k_task k h).
Proof.
  intros base ids tr k m h u SET O R H (w & i & W). destruct (good_run base ids SET tr _ (good_start base ids SET) O) as (k' & E & G).
  assert (k' = k) by congruence. subst k'. pose proof (g_m _ _ _ G) as M. rewrite (g_log _ _ _ G) in H.
  rewrite (m_base _ _ _ _ M u); [exact (m_above _ _ _ _ M m h u w i H W)|]. apply (m_busy _ _ _ _ M). now rewrite W.
Qed.
Print Assumptions C99_holder_priority.

(** A task has its own priority, except while it has a mutex and some task with the
    priority it has instead is in the middle of taking that mutex. *)
Theorem C99_priority_returns : forall base ids tr k t, setting base ids -> one_at_a_time base (km_start base ids) tr ->
  km_run base (km_start base ids) tr = Some k ->
  t_prio (k_task k t) = base t \/
  exists m v, holder_of (k_log k) m = Some t /\ In v ids /\ in_call (t_pc (k_task k v)) m /\ t_prio (k_task k t) = base v /\ base t < base v.
Proof.
  intros base ids tr k t SET O R. destruct (good_run base ids SET tr _ (good_start base ids SET) O) as (k' & E & G).
  assert (k' = k) by congruence. subst k'. pose proof (g_m _ _ _ G) as M.
  destruct (m_held _ _ _ _ M t) as [H|(m & H)]; [left; now apply (m_base _ _ _ _ M)|].
  destruct (m_why _ _ _ _ M m t H) as [X|(v & V1 & V2 & V3)]; [now left|].
  pose proof (m_prio _ _ _ _ M t (proj1 (m_hold _ _ _ _ M m t H))) as P.
  destruct (Z.eq_dec (t_prio (k_task k t)) (base t)) as [X|X]; [now left|right]. exists m, v. rewrite (g_log _ _ _ G). repeat split; auto; try lia.
  destruct (t_pc (k_task k v)); cbn in V2 |- *; try discriminate; lia.
Qed.
Print Assumptions C99_priority_returns.

(** When no switch is pending the running task is able to run, and no task able to run
    has a higher priority. *)
Theorem C99_runs_highest : forall base ids tr k, setting base ids -> one_at_a_time base (km_start base ids) tr ->
  km_run base (km_start base ids) tr = Some k -> k_yield k = false ->
  In (k_cur k) ids /\ able (t_pc (k_task k (k_cur k))) = true /\
  forall t, In t ids -> able (t_pc (k_task k t)) = true -> t_prio (k_task k t) <= t_prio (k_task k (k_cur k)).
Proof.
  intros base ids tr k SET O R Y. destruct (good_run base ids SET tr _ (good_start base ids SET) O) as (k' & E & G).
  assert (k' = k) by congruence. subst k'. split; [apply (g_cur _ _ _ G)|]. split; [now apply (g_able _ _ _ G)|now apply (g_high _ _ _ G)].
Qed.
Print Assumptions C99_runs_highest.

(** No task of lower priority than a waiting task runs while the task that has the
    mutex could: the time the waiting task loses is the time the mutex is in use, and the
    time of tasks that are at least as important. *)
Theorem C99_no_inversion : forall base ids tr k m h u, setting base ids -> one_at_a_time base (km_start base ids) tr ->
  km_run base (km_start base ids) tr = Some k -> k_yield k = false ->
  holder_of (k_log k) m = Some h -> waits k u m -> able (t_pc (k_task k h)) = true ->
  base u <= base (k_cur k) \/
  exists x v, holder_of (k_log k) x = Some (k_cur k) /\ in_call (t_pc (k_task k v)) x /\ base u <= base v.
Proof.
  intros base ids tr k m h u SET O R Y H W A.
  pose proof (C99_holder_priority base ids tr k m h u SET O R H W) as HP.
  destruct (C99_runs_highest base ids tr k SET O R Y) as (_ & _ & HI).
  destruct (C99_priority_returns base ids tr k (k_cur k) SET O R) as [X|(x & v & X1 & _ & X2 & X3 & _)].
  - left. destruct (good_run base ids SET tr _ (good_start base ids SET) O) as (k' & E & G).
    assert (k' = k) by congruence. subst k'. pose proof (g_m _ _ _ G) as M. rewrite (g_log _ _ _ G) in H.
    specialize (HI h (proj1 (m_hold _ _ _ _ M m h H)) A). destruct W as (w & i & W).
    assert (t_prio (k_task k u) = base u) by (apply (m_base _ _ _ _ M), (m_busy _ _ _ _ M); now rewrite W). lia.
  - right. exists x, v. split; [exact X1|]. split; [exact X2|]. destruct (good_run base ids SET tr _ (good_start base ids SET) O) as (k' & E & G).
    assert (k' = k) by congruence. subst k'. pose proof (g_m _ _ _ G) as M. rewrite (g_log _ _ _ G) in H.
    specialize (HI h (proj1 (m_hold _ _ _ _ M m h H)) A). destruct W as (w & i & W).
    assert (t_prio (k_task k u) = base u) by (apply (m_base _ _ _ _ M), (m_busy _ _ _ _ M); now rewrite W). lia.
Qed.
Print Assumptions C99_no_inversion.

(** When a mutex is given back the most important task that waits for it is woken. *)
Theorem C99_give_wakes_highest : forall base ids tr k k' m t, setting base ids -> one_at_a_time base (km_start base ids) tr ->
  km_run base (km_start base ids) tr = Some k ->
  km_step base k (KGive m) = Some k' -> k_log k' = k_log k ++ [(t, Gave, m)] -> (exists u, waits k u m) ->
  exists u, waits k u m /\ able (t_pc (k_task k' u)) = true /\ in_call (t_pc (k_task k' u)) m /\
            forall v, waits k v m -> base v <= base u.
Proof.
  intros base ids tr k k' m t SET O R S LG (u0 & w0 & i0 & W0). destruct (good_run base ids SET tr _ (good_start base ids SET) O) as (k1 & E & G).
  assert (k1 = k) by congruence. subst k1. clear E. pose proof (g_m _ _ _ G) as M.
  assert (NL : forall a, k_log k <> k_log k ++ [a]) by (intros a X; apply (f_equal (@length _)) in X; rewrite app_length in X; cbn in X; lia).
  cbn [km_step] in S. destruct (t_pc (k_task k (k_cur k))) eqn:EP; try (injection S as <-; exfalso; eapply NL; eauto; fail).
  destruct (k_yield k) eqn:Y; cbn [negb andb] in S; [injection S as <-; exfalso; eapply NL; eauto|].
  destruct (Z.eqb_spec (k_cur k) IDLE) as [|NI]; cbn [negb] in S; [injection S as <-; exfalso; eapply NL; eauto|].
  unfold give in S. destruct (m_count (k_mx k m) <? 1) eqn:CL; [|injection S as <-; exfalso; eapply NL; eauto].
  pose proof (m_cnt _ _ _ _ M m) as CC. destruct (m_holder (k_mx k m)) as [h|] eqn:HO; [|lia].
  destruct (Z.eq_dec h (k_cur k)) as [-> |NH].
  2:{ unfold xTaskPriorityDisinherit in S. replace (h =? k_cur k) with false in S by lia. discriminate. }
  destruct (give_prio base ids SET k m G Y EP HO) as (tk1 & rd1 & top1 & y & D & T1 & _ & _). rewrite D in S.
  assert (IU : In u0 (m_wait (k_mx k m))) by (apply (m_wt _ _ _ _ M); eauto).
  destruct (head_max base _ u0 (m_sort _ _ _ _ M m) IU) as (u & r & W & _). rewrite W in S.
  assert (WU : waits k u m) by (apply (m_wt _ _ _ _ M); rewrite W; now left).
  exists u. split; [exact WU|]. destruct WU as (w & i & WU).
  assert (NU : u <> k_cur k) by (intros X; rewrite X in WU; congruence).
  injection S as <-. unfold note, pend_yield, make_ready, add_ready, set_pc, set_task, set_mx. cbn [k_task].
  rewrite upd_same. cbn [t_pc]. rewrite T1, upd_other, WU by auto. cbn. split; [reflexivity|]. split; [reflexivity|].
  intros v WV. apply (m_wt _ _ _ _ M) in WV. destruct (head_max base _ v (m_sort _ _ _ _ M m) WV) as (u' & r' & W' & B). congruence.
Qed.
Print Assumptions C99_give_wakes_highest.

(** The task that takes a mutex is at least as important as all those still waiting for it. *)
Theorem C99_served_by_priority : forall base ids tr k e k' t m u, setting base ids -> one_at_a_time base (km_start base ids) tr ->
  km_run base (km_start base ids) tr = Some k ->
  km_step base k (KStep e) = Some k' -> k_log k' = k_log k ++ [(t, Took, m)] -> waits k' u m -> base u <= base t.
Proof.
  intros base ids tr k e k' t m u SET O R S LG (w & i & W). destruct (good_run base ids SET tr _ (good_start base ids SET) O) as (k1 & E & G).
  assert (k1 = k) by congruence. subst k1. clear E. pose proof (g_m _ _ _ G) as M.
  destruct (good_step base ids SET k (KStep e) G Logic.I) as (k1 & E & G'). assert (k1 = k') by congruence. subst k1. clear E.
  pose proof (g_m _ _ _ G') as M'. assert (HO : m_holder (k_mx k' m) = Some t).
  { rewrite <- (g_log _ _ _ G'), LG, holder_snoc, Z.eqb_refl. reflexivity. }
  pose proof (m_above _ _ _ _ M' m t u w i HO W) as AB. enough (P : t_prio (k_task k' t) = base t) by lia.
  (* only the step that takes a free mutex says so *)
  assert (NL : forall a, k_log k <> k_log k ++ [a]) by (intros a X; apply (f_equal (@length _)) in X; rewrite app_length in X; cbn in X; lia).
  assert (MS : forall k1 x, k_log (note k1 Missed x) <> k_log k ++ [(t, Took, m)]).
  { intros k1 x X. cbn [note k_log] in X. apply app_inj_tail in X. destruct X as (_ & X). discriminate. }
  cbn [km_step] in S. destruct (k_yield k) eqn:Y; cbn [negb andb] in S; [injection S as <-; exfalso; eapply NL; eauto|].
  destruct (Z.eqb_spec (k_cur k) IDLE) as [|NI]; cbn [negb] in S; [injection S as <-; exfalso; eapply NL; eauto|].
  unfold take_step in S. destruct (t_pc (k_task k (k_cur k))) as [| |x w' i'|x w' i'|x w' i'|x w' i'|x] eqn:EP;
    try (injection S as <-; exfalso; eapply NL; eauto; fail).
  - destruct (0 <? m_count (k_mx k x)).
    + injection S as <-. cbn [note k_log set_task set_mx k_cur] in LG. apply app_inj_tail in LG. destruct LG as (_ & LG). injection LG as <- <-.
      cbn [note k_task set_task set_mx]. rewrite upd_same. cbn [t_prio]. apply (m_base _ _ _ _ M), (m_busy _ _ _ _ M). now rewrite EP.
    + destruct w'; [destruct i'; [discriminate|]|..]; injection S as <-; exfalso; [eapply MS; eauto|eapply NL; eauto|eapply NL; eauto].
  - destruct (match w' with Endless => false | _ => e end); [injection S as <-; exfalso; eapply NL; eauto|].
    destruct (m_count (k_mx k x) =? 0); [|injection S as <-; exfalso; eapply NL; eauto].
    destruct (xTaskPriorityInherit base k (m_holder (k_mx k x))) as [k1 inh] eqn:XI.
    assert (LK : k_log k1 = k_log k).
    { unfold xTaskPriorityInherit in XI. destruct (m_holder (k_mx k x)) as [h|]; [|now injection XI as <- _].
      destruct (t_prio (k_task k h) <? t_prio (k_task k (k_cur k))); [|now injection XI as <- _].
      destruct (in_ready k (t_prio (k_task k h)) h); injection XI as <- _; [|reflexivity]. rewrite leave_shape. reflexivity. }
    cbv zeta in S. destruct (in_ready _ _ _); [|discriminate]. injection S as <-. exfalso. rewrite leave_shape in LG. cbn in LG. rewrite LK in LG.
    eapply NL; eauto.
  - destruct (m_count (k_mx k x) =? 0); [destruct i'|]; injection S as <-; exfalso; [eapply NL; eauto|eapply MS; eauto|eapply NL; eauto].
  - destruct (disinherit_after_timeout base k (m_holder (k_mx k x)) (highest_waiting k x)); [|discriminate]. injection S as <-. exfalso. eapply MS; eauto.
Qed.
Print Assumptions C99_served_by_priority.

(** Three tasks: 1 has the mutex, the most important task 3 waits for it, and task 2,
    more important than 1, is ready. Task 1 runs, with the priority of task 3. *)
Definition ex_base (t : Z) : Z := if t =? 1 then 1 else if t =? 2 then 3 else if t =? 3 then 4 else 0.
Definition ex_ids : list Z := [0; 1; 2; 3].
Definition ex_wait : list kevent :=
  [KSwitch 0; KBlock; KSwitch 0; KBlock; KSwitch 0; KTake 10 Bounded; KStep false; KWake 3; KSwitch 0;
   KTake 10 Bounded; KStep false; KStep false; KSwitch 0; KWake 2].
Example C99_ex_setting : setting ex_base ex_ids.
Proof.
  split; [|split; [|split]].
  - repeat (apply NoDup_cons; [cbn; intuition discriminate|]). apply NoDup_nil.
  - now left.
  - reflexivity.
  - intros t [<-|[<-|[<-|[<-|[]]]]]; split; vm_compute; congruence.
Qed.
Example C99_ex_condition : one_at_a_time ex_base (km_start ex_base ex_ids) (ex_wait ++ [KGive 10; KSwitch 0; KStep false]).
Proof. apply ok_run_sound. vm_compute. reflexivity. Qed.
Example C99_ex_inherits :
  option_map (fun k => (k_yield k, k_cur k, holder_of (k_log k) 10, t_pc (k_task k 3), able (t_pc (k_task k 2)), t_prio (k_task k 1)))
    (km_run ex_base (km_start ex_base ex_ids) ex_wait) = Some (false, 1, Some 1, Asleep 10 Bounded true, true, 4).
Proof. vm_compute. reflexivity. Qed.
(** Given back, the mutex goes to task 3, and task 1 has its own priority again. *)
Example C99_ex_served :
  option_map (fun k => (k_log k, t_prio (k_task k 1))) (km_run ex_base (km_start ex_base ex_ids) (ex_wait ++ [KGive 10; KSwitch 0; KStep false])) =
  Some ([(1, Took, 10); (1, Gave, 10); (3, Took, 10)], 1).
Proof. vm_compute. reflexivity. Qed.
(** The wait is over first: task 3 leaves empty-handed, and task 1 has its own priority. *)
Example C99_ex_timeout :
  option_map (fun k => (k_log k, t_prio (k_task k 1))) (km_run ex_base (km_start ex_base ex_ids)
    (ex_wait ++ [KTimeUp 3; KSwitch 1; KStep false; KStep true; KStep false; KStep false])) =
  Some ([(1, Took, 10); (3, Missed, 10)], 1).
Proof. vm_compute. reflexivity. Qed.
(** Without the condition the kernel halts: task 2 has one mutex when it waits for
    another, and its wait is over while task 3 waits for the first. The kernel then clears
    the bit of the wrong priority (tasks.c:4187) and finds an empty list. *)
Example C99_ex_nested_halts : let s := KSwitch 0 in
  km_run ex_base (km_start ex_base ex_ids)
    [s; KBlock; s; KBlock; s; KTake 10 Endless; KStep false; KWake 2; s; KTake 11 Endless; KStep false; KTake 10 Bounded; KStep false;
     KStep false; s; KWake 3; s; KTake 11 Endless; KStep false; KStep false; s; KTimeUp 2; s; KStep false; KStep true; KStep false;
     KStep false; KBlock; s] = None.
Proof. vm_compute. reflexivity. Qed.
