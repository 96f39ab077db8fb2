(** C98: the kernel's clock: delays, time-outs and the wrap of the tick count. *)
From Coq Require Import ZifyBool ZifyNat.
From Verif.Base Require Import Words.
From Verif.Model Require Import KTime.
From Verif.Spec Require Import KTimeSpec.
From Verif.Proof Require Import KTimeProof.
Open Scope Z_scope.

(** For every history of sleeping tasks, wake-ups, ticks and suspensions of the
    scheduler, over any number of wraps of the 32-bit tick count: no assertion of the
    kernel fails, and the tasks that are not ready are those that a clock that never
    wraps says are asleep. No tick is lost, also not one during a suspension. *)
Theorem C98_kernel_clock : forall first tr,
  0 <= first < 2 ^ 32 -> Forall sleep_ok tr -> matched 0 0 tr ->
  exists k, kt_run (kt_start first) tr = Some k /\
    (forall t, blocked k t = asleep (cl_run (cl_start first) tr) t) /\
    at_time (cl_now (cl_run (cl_start first) tr)) k /\
    (kt_susp k = 0 -> at_time (first + ticks tr) k).
Proof.
  intros first tr F S M. destruct (rel_run tr _ _ (rel_start first F) S M) as (k & E & R).
  assert (A : at_time (cl_now (cl_run (cl_start first) tr)) k).
  { split; [apply (c_tick _ _ _ _ (r_core _ _ R))|apply (c_ovf _ _ _ _ (r_core _ _ R))]. }
  exists k. split; [exact E|]. split; [intros t; now apply rel_view|]. split; [exact A|].
  intros Z0. pose proof (cl_ticks tr (cl_start first)) as T. destruct (r_free _ _ R Z0) as (P & _). rewrite (r_pend _ _ R) in P. rewrite P in T.
  cbn [cl_start cl_now cl_pend] in T. replace (first + ticks tr) with (cl_now (cl_run (cl_start first) tr)) by lia. exact A.
Qed.
Print Assumptions C98_kernel_clock.

Lemma sleeping : forall first tr1 t n f tr2,
  0 <= first < 2 ^ 32 -> Forall sleep_ok (tr1 ++ TSleep t n f :: tr2) -> matched 0 0 (tr1 ++ TSleep t n f :: tr2) ->
  asleep (cl_run (cl_start first) tr1) t = false -> Forall (left_alone t) tr2 ->
  exists k c, kt_run (kt_start first) (tr1 ++ TSleep t n f :: tr2) = Some k /\ rel k c /\
    cl_task c t = (if (n =? portMAX_DELAY) && f then Forever else Until (cl_now (cl_run (cl_start first) tr1) + n)) /\
    cl_now c + cl_pend c = cl_now (cl_run (cl_start first) tr1) + cl_pend (cl_run (cl_start first) tr1) + ticks tr2.
Proof.
  intros first tr1 t n f tr2 F S M A L. destruct (rel_run _ _ _ (rel_start first F) S M) as (k & E & R).
  exists k, (cl_run (cl_start first) (tr1 ++ TSleep t n f :: tr2)). split; [exact E|]. split; [exact R|].
  rewrite cl_run_app. change (TSleep t n f :: tr2) with ([TSleep t n f] ++ tr2). rewrite cl_run_app.
  set (c1 := cl_run (cl_start first) tr1) in *. change (cl_run c1 [TSleep t n f]) with (cl_step c1 (TSleep t n f)). split.
  - apply cl_left_alone; auto.
    + cbn [cl_step]. rewrite A. cbn [cl_task]. unfold set_task. now rewrite Z.eqb_refl.
    + destruct ((n =? portMAX_DELAY) && f); discriminate.
  - rewrite cl_ticks. cbn [cl_step]. rewrite A. reflexivity.
Qed.

(** A task that goes to sleep for [n] ticks is ready again after exactly [n] ticks, not
    earlier and not later, unless something wakes it. The ticks count from the last
    moment at which the scheduler was running before the call put the task in the list
    (vTaskDelay and the calls that wait suspend it first). *)
Theorem C98_delay_exact : forall first tr1 t n f tr2,
  0 <= first < 2 ^ 32 -> Forall sleep_ok (tr1 ++ TSleep t n f :: tr2) -> matched 0 0 (tr1 ++ TSleep t n f :: tr2) ->
  asleep (cl_run (cl_start first) tr1) t = false -> Forall (left_alone t) tr2 ->
  (n =? portMAX_DELAY) && f = false ->
  exists k, kt_run (kt_start first) (tr1 ++ TSleep t n f :: tr2) = Some k /\
    (kt_susp k = 0 -> blocked k t = (cl_pend (cl_run (cl_start first) tr1) + ticks tr2 <? n)).
Proof.
  intros first tr1 t n f tr2 F S M A L NF. destruct (sleeping first tr1 t n f tr2 F S M A L) as (k & c & E & R & T & N).
  exists k. split; [exact E|]. intros Z0. rewrite (rel_view k c t R). unfold asleep. rewrite T, NF.
  destruct (r_free _ _ R Z0) as (P & _). rewrite (r_pend _ _ R) in P. rewrite P in N. lia.
Qed.
Print Assumptions C98_delay_exact.

(** A call that waits with portMAX_DELAY is never ended by time alone. *)
Theorem C98_forever : forall first tr1 t tr2,
  0 <= first < 2 ^ 32 -> Forall sleep_ok (tr1 ++ TSleep t portMAX_DELAY true :: tr2) -> matched 0 0 (tr1 ++ TSleep t portMAX_DELAY true :: tr2) ->
  asleep (cl_run (cl_start first) tr1) t = false -> Forall (left_alone t) tr2 ->
  exists k, kt_run (kt_start first) (tr1 ++ TSleep t portMAX_DELAY true :: tr2) = Some k /\ blocked k t = true.
Proof.
  intros first tr1 t tr2 F S M A L. destruct (sleeping first tr1 t portMAX_DELAY true tr2 F S M A L) as (k & c & E & R & T & N).
  exists k. split; [exact E|]. rewrite (rel_view k c t R). unfold asleep. now rewrite T.
Qed.
Print Assumptions C98_forever.

Lemma woken_later : forall tr c t, 0 <= cl_susp c -> matched (cl_susp c) (cl_pend c) tr ->
  Forall (not_asleep_anew t) tr ->
  cl_task c t = Ready \/ (cl_task c t = Woken /\ 0 < cl_susp c) ->
  cl_task (cl_run c tr) t = Ready \/ (cl_task (cl_run c tr) t = Woken /\ 0 < cl_susp (cl_run c tr)).
Proof.
  induction tr as [|ev tr IH]; intros c t Z0 M F H; [exact H|]. inversion F as [|? ? F1 F2]; subst.
  change (cl_run c (ev :: tr)) with (cl_run (cl_step c ev) tr).
  destruct ev as [u n f|u| | |]; cbn [matched cl_step] in *.
  - destruct (asleep c u); [now apply IH|]. apply IH; auto. cbn. unfold set_task. destruct (Z.eqb_spec t u); [congruence|exact H].
  - destruct (asleep c u) eqn:A; [|now apply IH]. apply IH; auto. cbn. unfold set_task. destruct (Z.eqb_spec t u) as [EQ|NE]; [|exact H].
    destruct (Z.eqb_spec (cl_susp c) 0); [now left|right; split; [reflexivity|lia]].
  - destruct (Z.eqb_spec (cl_susp c) 0) as [E|E]; apply IH; auto. cbn. tauto.
  - apply IH; auto; cbn; [lia|]. destruct H as [H|(H & _)]; [now left|right; split; [exact H|lia]].
  - destruct M as (M1 & M2). destruct (Z.eqb_spec (cl_susp c) 1) as [E|E].
    + apply IH; auto; cbn; [lia|rewrite E in M2; exact M2|]. left. now destruct H as [-> |(-> & _)].
    + apply IH; auto; cbn; [lia|]. destruct H as [H|(H & _)]; [now left|right; split; [exact H|lia]].
Qed.
Lemma matched_app : forall a b c, matched (cl_susp c) (cl_pend c) (a ++ b) -> matched (cl_susp (cl_run c a)) (cl_pend (cl_run c a)) b.
Proof.
  induction a as [|ev a IH]; intros b c M; [exact M|]. change (cl_run c (ev :: a)) with (cl_run (cl_step c ev) a). apply IH.
  destruct ev as [u n f|u| | |]; cbn [matched cl_step app] in *.
  - destruct (asleep c u); exact M.
  - destruct (asleep c u); exact M.
  - destruct (Z.eqb_spec (cl_susp c) 0) as [E|E]; cbn; tauto.
  - exact M.
  - destruct M as (M1 & M2). destruct (Z.eqb_spec (cl_susp c) 1) as [E|E]; cbn; [rewrite E in M2|]; exact M2.
Qed.
Lemma matched_pre : forall a b n p, matched n p (a ++ b) -> matched n p a.
Proof.
  induction a as [|ev a IH]; intros b n p M; [exact I|]. destruct ev; cbn [matched app] in *; eauto.
  - destruct (n =? 0); [eauto|]. destruct M. split; eauto.
  - destruct M. split; eauto.
Qed.

(** A wake-up is never lost: whenever something wakes a task, also while the scheduler
    is suspended, the task is ready as soon as the scheduler runs. *)
Theorem C98_wake_not_lost : forall first tr1 t tr2,
  0 <= first < 2 ^ 32 -> Forall sleep_ok (tr1 ++ TWake t :: tr2) -> matched 0 0 (tr1 ++ TWake t :: tr2) ->
  asleep (cl_run (cl_start first) tr1) t = true ->
  Forall (not_asleep_anew t) tr2 ->
  exists k, kt_run (kt_start first) (tr1 ++ TWake t :: tr2) = Some k /\ (kt_susp k = 0 -> blocked k t = false).
Proof.
  intros first tr1 t tr2 F S M A L. destruct (rel_run _ _ _ (rel_start first F) S M) as (k & E & R).
  exists k. split; [exact E|]. intros Z0. rewrite (rel_view _ _ t R).
  assert (S1 : Forall sleep_ok tr1) by (apply Forall_app in S; tauto).
  destruct (rel_run tr1 _ _ (rel_start first F) S1 (matched_pre tr1 _ 0 0 M)) as (k1 & _ & R1).
  pose proof (matched_app tr1 _ (cl_start first) M) as M2. cbn [matched] in M2.
  pose proof (r_susp0 _ _ R1) as SP. rewrite (r_susp _ _ R1) in SP. rewrite (r_susp _ _ R) in Z0.
  rewrite cl_run_app in *. change (TWake t :: tr2) with ([TWake t] ++ tr2) in *. rewrite cl_run_app in *.
  set (c1 := cl_run (cl_start first) tr1) in *. change (cl_run c1 [TWake t]) with (cl_step c1 (TWake t)) in *.
  assert (W : cl_task (cl_run (cl_step c1 (TWake t)) tr2) t = Ready \/
    (cl_task (cl_run (cl_step c1 (TWake t)) tr2) t = Woken /\ 0 < cl_susp (cl_run (cl_step c1 (TWake t)) tr2))).
  { cbn [cl_step]. rewrite A. apply woken_later; auto. cbn. unfold set_task. rewrite Z.eqb_refl.
    destruct (Z.eqb_spec (cl_susp c1) 0); [now left|right; split; [reflexivity|lia]]. }
  unfold asleep. destruct W as [-> |(_ & W)]; [reflexivity|lia].
Qed.
Print Assumptions C98_wake_not_lost.

(** A call that waits at most [n] ticks and looks at its time-out now and then, at times
    less than 2^32 ticks apart, is told that its time is up exactly when [n] ticks have
    passed since it began; with portMAX_DELAY it is never told so. *)
Theorem C98_timeout_exact : forall start n k0 ns ks,
  0 <= start -> 0 <= n <= portMAX_DELAY -> at_time start k0 -> Forall2 at_time ns ks -> close_times start ns ->
  checks (set_timeout k0 n) ks = if n =? portMAX_DELAY then map (fun _ => false) ks else right_answers start n ns.
Proof.
  intros start n k0 ns ks S N (A1 & A2) F C. destruct (Z.eqb_spec n portMAX_DELAY) as [E|E].
  - clear F C. subst n. unfold set_timeout. induction ks as [|k ks IH]; [reflexivity|]. cbn [checks map]. cbv zeta.
    unfold xTaskCheckForTimeOut. cbn [to_wait]. rewrite Z.eqb_refl. cbn [fst snd]. f_equal. exact IH.
  - unfold set_timeout. rewrite A1, A2. pose proof (checks_ok ks ns start start n) as K. rewrite Z.sub_diag, Z.sub_0_r in K.
    apply K; auto; lia.
Qed.
Print Assumptions C98_timeout_exact.

(** ** Concrete cases *)
(** Two tasks sleep across the wrap of the tick count; one of them is woken while the
    scheduler is suspended, and two ticks come during that suspension. *)
Definition across_the_wrap : list tevent :=
  [TSleep 1 5 false; TSleep 2 portMAX_DELAY true; TTick; TSuspend; TTick; TWake 2; TTick].
Example C98_ex_hypotheses : Forall sleep_ok across_the_wrap /\ matched 0 0 across_the_wrap.
Proof.
  split; [|vm_compute; repeat split]. unfold across_the_wrap.
  repeat (apply Forall_cons; [vm_compute; repeat split; discriminate|]). apply Forall_nil.
Qed.
Example C98_ex_wrap :
  match kt_run (kt_start (2 ^ 32 - 2)) (across_the_wrap ++ [TResume]) with
  | Some k => (kt_tick k, kt_ovf k, blocked k 1, blocked k 2)
  | None => (0, 0, false, false)
  end = (1, 1, true, false) /\
  match kt_run (kt_start (2 ^ 32 - 2)) (across_the_wrap ++ [TResume; TTick; TTick]) with
  | Some k => (kt_tick k, blocked k 1)
  | None => (0, true)
  end = (3, false).
Proof. split; vm_compute; reflexivity. Qed.

(** A wait of ten ticks across the wrap, with three looks at the time-out. *)
Example C98_ex_timeout :
  let at_ n := mkKt (n mod 2 ^ 32) (n / 2 ^ 32) [] [] [] 0 0 0 [] in
  checks (set_timeout (at_ (2 ^ 32 - 3)) 10) [at_ (2 ^ 32 - 1); at_ (2 ^ 32 + 6); at_ (2 ^ 32 + 7)] = [false; false; true].
Proof. vm_compute. reflexivity. Qed.
(** Looks at the time-out must be less than 2^32 ticks (49 days) apart: here a wait of
    ten ticks is told after 2^32 + 6 ticks that its time is not up. *)
Example C98_ex_gap_matters :
  let at_ n := mkKt (n mod 2 ^ 32) (n / 2 ^ 32) [] [] [] 0 0 0 [] in
  checks (set_timeout (at_ (2 ^ 32 - 1)) 10) [at_ (2 ^ 33 + 5)] = [false] /\
  right_answers (2 ^ 32 - 1) 10 [2 ^ 33 + 5] = [true].
Proof. split; vm_compute; reflexivity. Qed.
