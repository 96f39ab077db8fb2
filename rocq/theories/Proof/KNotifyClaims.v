(** The claims about task notifications, from the invariants. *)
From Coq Require Import ZifyBool ZifyNat.
From Verif.Spec Require Import KNotifySpec.
From Verif.Proof Require Import KNotifyProof.
Open Scope Z_scope.

Lemma inv_step : forall s e, inv s -> event_ok e -> (e = NResume -> 0 < n_susp s) ->
  exists s', n_step s e = Some s' /\ inv s'.
Proof.
  intros s [] I OK G; [now apply inv_take|now apply inv_recv|now apply inv_send|now apply inv_nstep|now apply inv_give
    |now apply inv_data|now apply inv_told|now apply inv_roomk|now apply inv_dma|now apply inv_tick|now apply inv_suspend|].
  apply inv_resume; auto.
Qed.

(** What an event changes in the count of suspensions, in time, in the notifications. *)
Definition opens (e : nevent) : Z := match e with NSuspend => 1 | NResume => -1 | _ => 0 end.

Ltac scan := repeat match goal with
  | H : context [if ?b then _ else _] |- _ => destruct b eqn:?
  | H : context [match ?st with NotWaiting => _ | Waiting => _ | Received => _ end] |- _ => destruct st eqn:?
  | H : context [match ?st with Awake => _ | Until _ => _ | Forever => _ end] |- _ => destruct st eqn:?
  end.
Ltac look s :=
  destruct s as [val st sl li su pe ti pc av rd ow ro sd irq la lg]; 
  unfold n_step, task_step, notify_isr, notify_task, wait_begin, wait_end, state_clear, sleep_for,
    set_note, set_sleep, set_time, set_npc, set_in, set_out, set_last, returns in *;
  cbn [n_val n_st n_sleep n_listed n_susp n_pend n_tick n_pc n_avail n_reader n_owed n_room n_sender n_irq n_last n_log] in *;
  try match goal with H : (if can_run _ then match _ with _ => _ end else _) = _ |- _ => destruct pc end.
Ltac read_step H := scan; try discriminate H; injection H as <-;
  cbn [n_val n_st n_sleep n_listed n_susp n_pend n_tick n_pc n_avail n_reader n_owed n_room n_sender n_irq n_last n_log].

Lemma step_susp : forall s e s', n_step s e = Some s' -> n_susp s' = n_susp s + opens e.
Proof.
  intros s e s' H. destruct e; look s; cbn [opens]; read_step H; try lia.
Qed.
Lemma step_time : forall s e s', inv s -> n_step s e = Some s' ->
  n_tick s' + n_pend s' = n_tick s + n_pend s + nticks [e].
Proof.
  intros s e s' I H. destruct I as [_ SU PE RU _ _ _ _ _ _ _].
  destruct e; look s; cbn [nticks]; read_step H; try lia.
Qed.
Lemma step_count : forall s e s', inv s -> n_val s + gives [e] < 2 ^ 32 -> n_step s e = Some s' ->
  n_val s' + taken (n_log s') = n_val s + taken (n_log s) + gives [e].
Proof.
  intros s e s' I B H. destruct I as [_ SU PE RU _ _ _ _ _ _ VA].
  assert (U : 0 <= n_val s + 1 < 2 ^ 32 -> u32 (n_val s + 1) = n_val s + 1) by (intros; now apply Z.mod_small).
  assert (U' : 0 <= n_val s - 1 < 2 ^ 32 -> u32 (n_val s - 1) = n_val s - 1) by (intros; now apply Z.mod_small).
  destruct e; look s; cbn [gives] in *; read_step H; try lia;
    rewrite taken_app; cbn [taken]; try destruct clear; lia.
Qed.

(** With fewer than 2^32 outstanding, a take that would report nothing still waits. *)
Definition take_waits (s : nt) : Prop := forall c w t, n_pc s = PTake c w t -> n_val s = 0 -> n_st s = Waiting.
Lemma step_take : forall s e s', inv s -> n_val s + gives [e] < 2 ^ 32 -> n_step s e = Some s' ->
  take_waits s -> take_waits s'.
Proof.
  intros s e s' I B H T. destruct I as [P SU PE RU _ _ _ _ _ _ VA].
  assert (U : 0 <= n_val s + 1 < 2 ^ 32 -> u32 (n_val s + 1) = n_val s + 1) by (intros; now apply Z.mod_small).
  unfold take_waits, pc_ok in *.
  destruct e; look s; cbn [gives] in *; read_step H; intros ? ? ? Q V;
    try discriminate Q; try lia; try congruence; try reflexivity; try (now eauto);
    try (specialize (T _ _ _ Q V); congruence); try (exfalso; lia);
    rewrite Q in P; destruct P as (_ & P1 & P2 & P3 & _); congruence.
Qed.

(** What is true of every call that has returned. *)
Definition ret_ok (r : nret) : Prop :=
  match r with
  | RTake c w t0 t1 v => 0 <= v /\ (v = 0 -> t0 + w <= t1 /\ w <> portMAX_DELAY)
  | RRecv n w t0 t1 g => 0 <= g <= n
  | RSend n w t0 t1 p => 0 <= p <= n /\ (p < n -> t0 + w <= t1)
  end.
Lemma can_run_awake : forall s, can_run s = true -> n_sleep s = Awake /\ n_susp s = 0.
Proof. intros s H. unfold can_run in H. destruct (n_sleep s); try discriminate. split; [reflexivity|lia]. Qed.

Lemma step_ret : forall s e s', inv s -> take_waits s -> n_step s e = Some s' ->
  Forall ret_ok (n_log s) -> Forall ret_ok (n_log s').
Proof.
  intros s e s' I T H F. destruct I as [P SU PE RU LI DU DA OW RO RE VA]. unfold take_waits in *.
  assert (C := can_run_awake s). unfold pc_ok in P.
  destruct e; look s; read_step H; try exact F;
    (apply Forall_app; split; [exact F|apply Forall_cons; [|apply Forall_nil]]); cbn [ret_ok]; try lia;
    destruct (C eq_refl) as (CS & _); try discriminate CS;
    (split; [lia|]; intros V; destruct P as (_ & _ & _ & _ & P & _); specialize (T _ _ _ eq_refl V);
         destruct (P T) as (PW & _); try rewrite CS in PW; exact PW).
Qed.

(** ** Whole histories *)
Lemma inv_run : forall tr s, inv s -> Forall event_ok tr -> paired (n_susp s) tr ->
  exists s', n_run s tr = Some s' /\ inv s'.
Proof.
  induction tr as [|e tr IH]; intros s I F P; [now exists s|]. inversion F; subst.
  destruct (inv_step s e I) as (s1 & E & I1); [assumption|intros ->; now destruct P|].
  cbn [n_run]. rewrite E. apply IH; [assumption|assumption|]. rewrite (step_susp s e s1 E).
  destruct e; cbn [paired opens] in *; rewrite ?Z.add_0_r; try exact P. now destruct P.
Qed.
Lemma paired_app : forall a b n, paired n (a ++ b) -> paired n a.
Proof. induction a as [|e a IH]; intros b n P; [exact Logic.I|]. destruct e; cbn [app paired] in *; try (now apply (IH b)). destruct P. split; eauto. Qed.
Lemma history_app : forall a b, history (a ++ b) -> history a.
Proof. intros a b (F & P). split; [apply Forall_app in F; apply F|now apply (paired_app a b)]. Qed.
Lemma inv_reach : forall first room tr s, 0 <= room -> history tr -> n_run (n_start first room) tr = Some s -> inv s.
Proof.
  intros first room tr s R (F & P) E. destruct (inv_run tr (n_start first room)) as (s' & E' & I); auto using inv_start. congruence.
Qed.
Lemma run_prefix : forall a b s0 s, n_run s0 (a ++ b) = Some s -> exists s1, n_run s0 a = Some s1 /\ n_run s1 b = Some s.
Proof. intros a b s0 s H. rewrite n_run_app in H. destruct (n_run s0 a) as [s1|]; [eauto|discriminate]. Qed.
Lemma keeps_up_app : forall first room a b, keeps_up first room (a ++ b) -> keeps_up first room a.
Proof. intros first room a b K x y s E R. apply (K x (y ++ b) s); [|exact R]. subst a. now rewrite app_assoc. Qed.

Lemma time_reach : forall first room tr s, 0 <= room -> history tr -> n_run (n_start first room) tr = Some s ->
  n_tick s + n_pend s = first + nticks tr.
Proof.
  intros first room tr s R. revert s. induction tr as [|e tr IH] using rev_ind; intros s H E.
  - cbn [n_run] in E. injection E as <-. cbn. lia.
  - destruct (run_prefix _ _ _ _ E) as (s1 & E1 & E2). cbn [n_run] in E2. destruct (n_step s1 e) eqn:ES; [|discriminate]. injection E2 as ->.
    assert (I := inv_reach _ _ _ _ R (history_app _ _ H) E1).
    rewrite (step_time _ _ _ I ES), (IH _ (history_app _ _ H) E1), nticks_app. lia.
Qed.

Lemma count_reach : forall first room tr s, 0 <= room -> history tr -> keeps_up first room tr ->
  n_run (n_start first room) tr = Some s ->
  n_val s + taken (n_log s) = gives tr /\ take_waits s /\ Forall ret_ok (n_log s).
Proof.
  intros first room tr s R. revert s. induction tr as [|e tr IH] using rev_ind; intros s H K E.
  - cbn [n_run] in E. injection E as <-. cbn. repeat split; [|constructor]. intros c w t Q. discriminate Q.
  - destruct (run_prefix _ _ _ _ E) as (s1 & E1 & E2). cbn [n_run] in E2. destruct (n_step s1 e) eqn:ES; [|discriminate]. injection E2 as ->.
    assert (I := inv_reach _ _ _ _ R (history_app _ _ H) E1).
    destruct (IH _ (history_app _ _ H) (keeps_up_app _ _ _ _ K) E1) as (C & T & L).
    assert (B : n_val s1 + gives [e] < 2 ^ 32).
    { assert (LG : n_log s = n_log s1 \/ gives [e] = 0).
      { destruct e; auto. left. clear -ES. look s1. read_step ES; reflexivity. }
      destruct LG as [LG|LG].
      - assert (Q := K (tr ++ [e]) [] s). rewrite app_nil_r in Q. specialize (Q eq_refl E).
        rewrite LG, gives_app in Q. lia.
      - rewrite LG. destruct I. lia. }
    split; [|split].
    + rewrite (step_count _ _ _ I B ES), C, gives_app. lia.
    + exact (step_take _ _ _ I B ES T).
    + exact (step_ret _ _ _ I T ES L).
Qed.

(** ** Checks, for the examples *)
Definition event_okb (e : nevent) : bool :=
  match e with
  | NTake _ w => (0 <=? w) && (w <=? portMAX_DELAY)
  | NRecv n w => (0 <=? n) && ((0 <=? w) && (w <=? portMAX_DELAY))
  | NSend n w => (0 <=? n) && ((0 <=? w) && (w <? portMAX_DELAY))
  | NData k => 0 <? k
  | NRoom k => 0 <=? k
  | _ => true
  end.
Fixpoint pairedb (n : Z) (tr : list nevent) : bool :=
  match tr with
  | [] => true
  | NSuspend :: r => pairedb (n + 1) r
  | NResume :: r => (0 <? n) && pairedb (n - 1) r
  | _ :: r => pairedb n r
  end.
Lemma history_check : forall tr, forallb event_okb tr && pairedb 0 tr = true -> history tr.
Proof.
  intros tr H. apply andb_prop in H. destruct H as (H1 & H2). split.
  - apply Forall_forall. intros e IN. rewrite forallb_forall in H1. specialize (H1 e IN). destruct e; cbn [event_okb event_ok] in *; lia.
  - revert H2. generalize 0. induction tr as [|e tr IH]; intros n H2; [exact Logic.I|].
    cbn [forallb] in H1. apply andb_prop in H1. destruct H1 as (_ & H1). specialize (IH H1).
    destruct e; cbn [pairedb paired] in *; auto. apply andb_prop in H2. destruct H2 as (A & B). split; [lia|auto].
Qed.
Lemma few_keep_up : forall first room tr, 0 <= room -> history tr -> gives tr < 2 ^ 32 -> keeps_up first room tr.
Proof.
  intros first room tr R HT G a b s -> H.
  assert (KT : forall l, Forall (fun r => match r with RTake _ _ _ _ v => 0 <= v | _ => True end) l -> 0 <= taken l).
  { induction l as [|r l IH]; intros F; cbn [taken]; [lia|]. inversion F as [|x y Hr Hl]; subst. specialize (IH Hl). destruct r as [[] | |]; lia. }
  assert (F : Forall (fun r => match r with RTake _ _ _ _ v => 0 <= v | _ => True end) (n_log s)).
  { assert (HA := history_app _ _ HT). clear -H HA R. revert s H. induction a as [|e a IH] using rev_ind; intros s H.
    - injection H as <-. constructor.
    - destruct (run_prefix _ _ _ _ H) as (s1 & E1 & E2). cbn [n_run] in E2. destruct (n_step s1 e) eqn:ES; [|discriminate]. injection E2 as ->.
      assert (I := inv_reach first room a s1 R (history_app _ _ HA) E1). specialize (IH (history_app _ _ HA) s1 E1).
      destruct I as [_ _ _ _ _ _ _ _ _ _ VA]. destruct e; look s1; read_step ES; try exact IH;
        (apply Forall_app; split; [exact IH|apply Forall_cons; [first [exact Logic.I|cbn in *; lia]|apply Forall_nil]]). }
  specialize (KT _ F). rewrite gives_app in G. assert (N := gives_nonneg b). lia.
Qed.
