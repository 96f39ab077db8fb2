(** Invariants of the notification model, for C101 and C102. *)
From Coq Require Import ZifyBool ZifyNat.
From Verif.Spec Require Import KNotifySpec.
Open Scope Z_scope.

Lemma n_run_app : forall a b s, n_run s (a ++ b) = match n_run s a with Some s' => n_run s' b | None => None end.
Proof. induction a as [|e a IH]; intros b s; cbn; [reflexivity|]. destruct (n_step s e); auto. Qed.

Lemma gives_app : forall a b, gives (a ++ b) = gives a + gives b.
Proof. induction a as [|e a IH]; intros b; cbn [app gives]; [lia|]. destruct e; rewrite IH; lia. Qed.
Lemma nticks_app : forall a b, nticks (a ++ b) = nticks a + nticks b.
Proof. induction a as [|e a IH]; intros b; cbn [app nticks]; [lia|]. destruct e; rewrite IH; lia. Qed.
Lemma taken_app : forall a b, taken (a ++ b) = taken a + taken b.
Proof. induction a as [|r a IH]; intros b; cbn [app taken]; [lia|]. destruct r as [[] | |]; rewrite IH; lia. Qed.
Lemma gives_nonneg : forall a, 0 <= gives a.
Proof. induction a as [|[] a IH]; cbn [gives]; lia. Qed.

(** Waiting, and until when. *)
Definition waits_ok (sl : nsleep) (wait start tick : Z) : Prop :=
  match sl with
  | Awake => start + wait <= tick /\ wait <> portMAX_DELAY
  | Until w => w = start + wait /\ wait <> portMAX_DELAY
  | Forever => wait = portMAX_DELAY
  end.

Definition pc_ok (s : nt) : Prop :=
  match n_pc s with
  | POut => n_st s <> Waiting /\ n_sleep s = Awake /\ n_reader s = false /\ n_sender s = false /\ n_irq s = true
  | PTake c w t => 0 <= w /\ n_reader s = false /\ n_sender s = false /\ n_irq s = true /\
      (n_st s = Waiting -> waits_ok (n_sleep s) w t (n_tick s) /\ n_val s = 0) /\
      (n_st s <> Waiting -> n_sleep s = Awake \/ n_listed s = true)
  | PRecv1 n w t => 0 <= n /\ 0 < w /\ n_sender s = false /\ n_irq s = true /\ n_st s <> Waiting /\ n_sleep s = Awake /\
      (n_reader s = false -> n_st s = Received) /\ t <= n_tick s
  | PRecv2 n w t => 0 <= n /\ 0 < w /\ n_sender s = false /\ n_irq s = true /\ t <= n_tick s /\
      (n_reader s = false -> n_st s = Received) /\
      (n_st s = Waiting -> match n_sleep s with
                           | Awake => t + w <= n_tick s /\ w <> portMAX_DELAY
                           | Until x => t + w <= x /\ w <> portMAX_DELAY
                           | Forever => w = portMAX_DELAY end) /\
      (n_st s <> Waiting -> n_sleep s = Awake \/ n_listed s = true)
  | PRecv3 n w t => 0 <= n /\ 0 < w /\ n_sender s = false /\ n_irq s = true /\ n_st s <> Waiting /\ n_sleep s = Awake
  | PRecv4 n w t => 0 <= n /\ n_reader s = false /\ n_sender s = false /\ n_irq s = true /\ n_st s <> Waiting /\ n_sleep s = Awake
  | PSend0 n w t l => 0 <= n /\ 0 < w /\ n_reader s = false /\ n_sender s = false /\ n_irq s = false /\ n_st s <> Waiting /\ n_sleep s = Awake
  | PSend1 n w t l => 0 <= n /\ 0 < w /\ n_reader s = false /\ n_irq s = false /\ n_st s <> Waiting /\ n_sleep s = Awake /\
      (n_sender s = false -> n_st s = Received) /\ (n_sender s = true -> n_room s < n)
  | PSend2 n w t l => 0 <= n /\ 0 < w /\ n_reader s = false /\ n_irq s = false /\
      (n_sender s = false -> n_st s = Received) /\ (n_sender s = true -> n_room s < n) /\
      (n_st s <> Waiting -> n_sleep s = Awake \/ n_listed s = true)
  | PSend3 n w t l => 0 <= n /\ 0 < w /\ n_reader s = false /\ n_irq s = false /\ n_st s <> Waiting /\ n_sleep s = Awake
  | PSend4 n w t => 0 <= n /\ n_reader s = false /\ n_sender s = false /\ n_irq s = false /\ n_st s <> Waiting /\ n_sleep s = Awake /\
      (n <= n_room s \/ t + w <= n_tick s)
  end.

Record inv (s : nt) : Prop := mkInv {
  i_pc : pc_ok s;
  i_susp : 0 <= n_susp s;
  i_pend : 0 <= n_pend s;
  i_run : n_susp s = 0 -> n_pend s = 0 /\ n_listed s = false;
  i_listed : n_listed s = true -> n_st s = Received;
  i_due : match n_sleep s with Until w => n_tick s < w | _ => True end;
  i_data : 0 <= n_avail s;
  i_owed : 0 <= n_owed s;
  i_room : 0 <= n_room s;
  i_reader : n_reader s = true -> n_avail s = 0 \/ 0 < n_owed s;
  i_val : 0 <= n_val s < 2 ^ 32 }.

Lemma inv_start : forall first room, 0 <= room -> inv (n_start first room).
Proof.
  intros first room R. constructor; cbn; try easy; try lia.
Qed.

Ltac open_step s :=
  destruct s as [val st sl li su pe ti pc av rd ow ro sd irq la lg]; 
  unfold n_step, can_run, outside, task_step, notify_isr, notify_task, wait_begin, wait_end, state_clear, sleep_for,
    set_note, set_sleep, set_time, set_npc, set_in, set_out, set_last, returns in *;
  cbn [n_val n_st n_sleep n_listed n_susp n_pend n_tick n_pc n_avail n_reader n_owed n_room n_sender n_irq n_last n_log] in *.

Ltac cases := repeat match goal with
  | |- context [if ?b then _ else _] => destruct b eqn:?
  | |- context [match ?st with NotWaiting => _ | Waiting => _ | Received => _ end] => destruct st eqn:?
  | |- context [match ?st with Awake => _ | Until _ => _ | Forever => _ end] => destruct st eqn:?
  end.
Ltac done1 := assert (portMAX_DELAY = 4294967295) by reflexivity; subst; cbn in *; try assumption; try congruence;
  repeat match goal with H : _ /\ _ |- _ => destruct H end;
  subst; try assumption; try lia; repeat match goal with |- _ /\ _ => split end; try assumption; try discriminate; try congruence;
  try solve [intuition (subst; cbn in *; try congruence; try lia; auto)].
Ltac finish := eexists; split; [reflexivity|];
  constructor; cbn [n_val n_st n_sleep n_listed n_susp n_pend n_tick n_pc n_avail n_reader n_owed n_room n_sender n_irq n_last n_log pc_ok]; 
  unfold pc_ok, waits_ok, due in *;
  cbn [n_val n_st n_sleep n_listed n_susp n_pend n_tick n_pc n_avail n_reader n_owed n_room n_sender n_irq n_last n_log pc_ok].

Lemma u32_lt : forall x, 0 <= u32 x < 2 ^ 32.
Proof. intros x. unfold u32. apply Z.mod_pos_bound. lia. Qed.

Lemma inv_give : forall s, inv s -> exists s', n_step s NGive = Some s' /\ inv s'.
Proof.
  intros s [P SU PE RU LI DU DA OW RO RE VA]. unfold pc_ok, waits_ok in P.
  pose proof (u32_lt (n_val s + 1)) as U. open_step s.
  destruct st, li; cases; try (specialize (LI eq_refl); discriminate);
    finish; try destruct pc; done1.
Qed.

Lemma inv_take : forall s c w, inv s -> event_ok (NTake c w) -> exists s', n_step s (NTake c w) = Some s' /\ inv s'.
Proof.
  intros s c w [P SU PE RU LI DU DA OW RO RE VA] OK. unfold pc_ok, waits_ok, event_ok in *.
  open_step s. destruct sl; cbn [andb]; [|eexists; split; [reflexivity|constructor; auto]..].
  destruct pc; try (rewrite Bool.andb_false_r; eexists; split; [reflexivity|constructor; auto]).
  cases; finish; done1.
Qed.
Lemma inv_recv : forall s n w, inv s -> event_ok (NRecv n w) -> exists s', n_step s (NRecv n w) = Some s' /\ inv s'.
Proof.
  intros s n w [P SU PE RU LI DU DA OW RO RE VA] OK. unfold pc_ok, waits_ok, event_ok in *.
  open_step s. destruct sl; cbn [andb]; [|eexists; split; [reflexivity|constructor; auto]..].
  destruct pc; try (rewrite Bool.andb_false_r; eexists; split; [reflexivity|constructor; auto]).
  cases; try (finish; done1); done1.
Qed.
Lemma inv_send : forall s n w, inv s -> event_ok (NSend n w) -> exists s', n_step s (NSend n w) = Some s' /\ inv s'.
Proof.
  intros s n w [P SU PE RU LI DU DA OW RO RE VA] OK. unfold pc_ok, waits_ok, event_ok in *.
  open_step s. destruct sl; cbn [andb]; [|eexists; split; [reflexivity|constructor; auto]..].
  destruct pc; try (rewrite Bool.andb_false_r; eexists; split; [reflexivity|constructor; auto]).
  cases; finish; done1.
Qed.
Lemma inv_data : forall s k, inv s -> event_ok (NData k) -> exists s', n_step s (NData k) = Some s' /\ inv s'.
Proof.
  intros s k [P SU PE RU LI DU DA OW RO RE VA] OK. unfold pc_ok, waits_ok, event_ok in *.
  open_step s. finish; try destruct pc; done1.
Qed.
Lemma inv_told : forall s b, inv s -> exists s', n_step s (NTold b) = Some s' /\ inv s'.
Proof.
  intros s b [P SU PE RU LI DU DA OW RO RE VA]. unfold pc_ok, waits_ok in *.
  open_step s. destruct st, li, b; cases; try (specialize (LI eq_refl); discriminate);
    try (finish; try destruct pc; done1).
Qed.
Lemma inv_roomk : forall s k, inv s -> event_ok (NRoom k) -> exists s', n_step s (NRoom k) = Some s' /\ inv s'.
Proof.
  intros s k [P SU PE RU LI DU DA OW RO RE VA] OK. unfold pc_ok, waits_ok, event_ok in *.
  open_step s. destruct st, li; cases; try (specialize (LI eq_refl); discriminate);
    try (finish; try destruct pc; done1).
Qed.
Lemma inv_dma : forall s, inv s -> exists s', n_step s NDma = Some s' /\ inv s'.
Proof.
  intros s [P SU PE RU LI DU DA OW RO RE VA]. unfold pc_ok, waits_ok in *.
  open_step s. cases; finish; try destruct pc; done1.
Qed.
Lemma inv_tick : forall s, inv s -> exists s', n_step s NTick = Some s' /\ inv s'.
Proof.
  intros s [P SU PE RU LI DU DA OW RO RE VA]. unfold pc_ok, waits_ok in *.
  open_step s. cases; finish; destruct sl; cases; try destruct pc; done1.
Qed.
Lemma inv_suspend : forall s, inv s -> exists s', n_step s NSuspend = Some s' /\ inv s'.
Proof.
  intros s [P SU PE RU LI DU DA OW RO RE VA]. unfold pc_ok, waits_ok in *.
  open_step s. finish; try destruct pc; done1.
Qed.
Lemma inv_resume : forall s, inv s -> 0 < n_susp s -> exists s', n_step s NResume = Some s' /\ inv s'.
Proof.
  intros s [P SU PE RU LI DU DA OW RO RE VA] G. unfold pc_ok, waits_ok in *.
  open_step s. cases; try lia; finish; destruct sl, li; cases; try destruct pc; done1.
Qed.
Lemma inv_nstep : forall s, inv s -> exists s', n_step s NStep = Some s' /\ inv s'.
Proof.
  intros s [P SU PE RU LI DU DA OW RO RE VA]. unfold pc_ok, waits_ok in *.
  pose proof (u32_lt (n_val s - 1)) as U.
  open_step s. destruct sl; [|eexists; split; [reflexivity|constructor; auto]..].
  destruct (su =? 0) eqn:SZ; [|eexists; split; [reflexivity|constructor; auto]].
  destruct pc; cases; try (finish; done1); done1.
Qed.
