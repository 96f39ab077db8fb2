(** Waiting on streams, for C102. *)
From Coq Require Import ZifyBool ZifyNat.
From Verif.Spec Require Import KNotifySpec.
From Verif.Proof Require Import KNotifyProof KNotifyClaims.
Open Scope Z_scope.

Lemma reader_wakes : forall s, inv s -> in_receive s -> sleeps s -> n_susp s = 0 -> n_owed s = 0 -> n_avail s = 0.
Proof.
  intros s [P SU PE RU LI DU DA OW RO RE VA] (n & w & t & PC) SL S0 O. unfold pc_ok, sleeps in *. rewrite PC in P.
  destruct P as (_ & _ & _ & _ & _ & P1 & _ & P2). destruct (RU S0) as (_ & L).
  assert (W : n_st s = Waiting).
  { destruct (n_st s) eqn:E; auto; destruct P2 as [Q|Q]; try discriminate; congruence. }
  destruct (n_reader s) eqn:R; [destruct (RE eq_refl); lia|]. specialize (P1 eq_refl). congruence.
Qed.

Lemma sender_wakes : forall s n w t l, inv s -> n_pc s = PSend2 n w t l -> sleeps s -> n_susp s = 0 -> n_room s < n.
Proof.
  intros s n w t l [P SU PE RU LI DU DA OW RO RE VA] PC SL S0. unfold pc_ok, sleeps in *. rewrite PC in P.
  destruct P as (_ & _ & _ & _ & P1 & P3 & P2). destruct (RU S0) as (_ & L).
  assert (W : n_st s = Waiting).
  { destruct (n_st s) eqn:E; auto; destruct P2 as [Q|Q]; try discriminate; congruence. }
  destruct (n_sender s) eqn:R; [now apply P3|]. specialize (P1 eq_refl). congruence.
Qed.

(** With prompt senders and no other notification, a receive that finds nothing has
    waited its time. *)
Definition recv_ok (o : bool) (s : nt) : Prop :=
  n_owed s = (if o then 1 else 0) /\ (o = true -> 0 < n_avail s) /\
  match n_pc s with
  | PRecv1 n w t => n_st s = Received -> 0 < n_avail s
  | PRecv2 n w t => n_st s <> NotWaiting /\ (n_st s = Received -> 0 < n_avail s)
  | PRecv3 n w t | PRecv4 n w t => 0 < n_avail s \/ (t + w <= n_tick s /\ w <> portMAX_DELAY)
  | _ => True
  end.
Definition recv_ret (r : nret) : Prop :=
  match r with RRecv n w t0 t1 g => g = 0 -> n = 0 \/ (t0 + w <= t1 /\ w <> portMAX_DELAY) | _ => True end.

Definition after (o : bool) (e : nevent) : bool := match e with NData _ => true | NTold _ => false | _ => o end.

Lemma step_recv : forall o s e s', inv s -> event_ok e -> gives [e] = 0 -> prompt o [e] -> recv_ok o s -> Forall recv_ret (n_log s) ->
  n_step s e = Some s' -> recv_ok (after o e) s' /\ Forall recv_ret (n_log s').
Proof.
  intros o s e s' [P SU PE RU LI DU DA OW RO RE VA] OK G PR (R1 & R2 & R3) F H. unfold recv_ok, pc_ok in *.
  assert (MX : portMAX_DELAY = 4294967295) by reflexivity.
  assert (C := can_run_awake s).
  destruct e; cbn [gives after prompt event_ok] in *; try lia.
  - (* take *) look s. destruct PR as (-> & _). cbn in *. destruct (can_run _ && outside _) eqn:CO; [|injection H as <-; cbn; auto].
    destruct (val =? 0); [destruct (wait >? 0)|]; injection H as <-; cbn; auto.
  - (* receive *) look s. destruct PR as (-> & _). destruct (can_run _ && outside _) eqn:CO; [|injection H as <-; cbn; auto].
    destruct ((wait =? 0) || negb (av =? 0)) eqn:Z; [injection H as <-; cbn; repeat split; auto; lia|].
    destruct rd; [discriminate|]. destruct st; injection H as <-; cbn; repeat split; auto; try discriminate.
  - (* send *) look s. destruct PR as (-> & _). destruct (can_run _ && outside _) eqn:CO; [|injection H as <-; cbn; auto].
    injection H as <-. cbn. repeat split; auto. now destruct (wait =? 0).
  - (* step *) look s; destruct PR as (-> & _); destruct (can_run _) eqn:CR; try (injection H as <-; cbn; now auto);
      destruct (C eq_refl) as (CS & _); cbn in CS; subst sl; read_step H; cbn [n_pc n_st n_avail n_tick n_owed];
      (split; [repeat split; auto; try discriminate; try lia; try tauto|try exact F]);
      try (apply Forall_app; split; [exact F|apply Forall_cons; [|apply Forall_nil]]); cbn [recv_ret]; auto; try lia.
    all: try (destruct P as (_ & _ & _ & _ & _ & _ & P & P'); destruct st; [| |]; try (specialize (P eq_refl)); try tauto).
  - (* data *) look s. destruct PR as (-> & _). injection H as <-. cbn. repeat split; try lia; auto.
    destruct pc; auto; try lia; try (intros; lia); try (destruct R3; split; [assumption|intros; lia]).
  - (* told *) destruct PR as (-> & _). specialize (R2 eq_refl). look s. destruct st; read_step H; cbn; 
      (repeat split; try lia; try discriminate; auto); try (destruct pc; auto; try (intros; lia); try (destruct R3; split; [first [assumption|discriminate]|intros; lia])).
  - (* room *) look s. destruct PR as (-> & _).
    read_step H; cbn; repeat split; try lia; auto; try (destruct pc; try exact R3; try (intros; apply R3; congruence); exfalso; tauto || intuition congruence).
  - (* dma *) look s. destruct PR as (-> & _). read_step H; cbn; auto.
  - (* tick *) look s. destruct PR as (-> & _). read_step H; cbn; repeat split; auto; destruct pc; auto; lia.
  - (* suspend *) look s. destruct PR as (-> & _). injection H as <-. cbn. auto.
  - (* resume *) look s. destruct PR as (-> & _). read_step H; cbn; repeat split; auto; destruct pc; auto; lia.
Qed.

Lemma prompt_cons : forall o e r, prompt o (e :: r) -> prompt o [e] /\ prompt (after o e) r.
Proof. intros o e r H. destruct e; cbn [prompt after] in *; try (destruct H as (-> & H)); auto. Qed.

Lemma recv_run : forall tr o s s', inv s -> Forall event_ok tr -> paired (n_susp s) tr -> gives tr = 0 -> prompt o tr ->
  recv_ok o s -> Forall recv_ret (n_log s) -> n_run s tr = Some s' -> Forall recv_ret (n_log s').
Proof.
  induction tr as [|e tr IH]; intros o s s' I F P G PR R L E; [injection E as <-; exact L|].
  inversion F; subst. destruct (prompt_cons _ _ _ PR) as (PR1 & PR2).
  assert (G2 : gives [e] = 0 /\ gives tr = 0).
  { assert (Q := gives_nonneg tr). assert (A := gives_app [e] tr). cbn [app] in A. rewrite G in A.
    assert (B := gives_nonneg [e]). lia. }
  destruct G2 as (Ge & Gt).
  destruct (inv_step s e I) as (s1 & ES & I1); [assumption|intros ->; now destruct P|].
  cbn [n_run] in E. rewrite ES in E.
  destruct (step_recv o s e s1 I H1 Ge PR1 R L ES) as (R1 & L1).
  apply (IH (after o e) s1); auto. rewrite (step_susp s e s1 ES).
  destruct e; cbn [paired opens] in *; rewrite ?Z.add_0_r; try exact P. now destruct P.
Qed.

(** ** Sending *)
Lemma log_grows : forall s e s', n_step s e = Some s' -> exists l, n_log s' = n_log s ++ l.
Proof.
  intros s e s' H. destruct e; look s; read_step H; eauto; try (exists []; now rewrite app_nil_r).
Qed.
Lemma log_run : forall tr s s', n_run s tr = Some s' -> exists l, n_log s' = n_log s ++ l.
Proof.
  induction tr as [|e tr IH]; intros s s' H; [injection H as <-; exists []; now rewrite app_nil_r|].
  cbn [n_run] in H. destruct (n_step s e) as [s1|] eqn:E; [|discriminate].
  destruct (log_grows _ _ _ E) as (l1 & L1). destruct (IH _ _ H) as (l2 & L2). exists (l1 ++ l2).
  now rewrite L2, L1, app_assoc.
Qed.

(** In the call of length [n], wait [w], begun at [t] with [r] bytes of room. *)
Definition sending (n w t r : Z) (s : nt) : Prop :=
  n_room s = r /\ n_irq s = false /\ n_last s = false /\
  match n_pc s with
  | PSend0 n' w' t' _ | PSend1 n' w' t' _ | PSend2 n' w' t' _ | PSend3 n' w' t' _ => n' = n /\ w' = w /\ t' = t
  | PSend4 n' w' t' => n' = n /\ w' = w /\ t' = t /\ t + w <= n_tick s
  | _ => False
  end.
Lemma step_sending : forall n w t r s e s', inv s -> 0 <= r < n -> w <> portMAX_DELAY -> sending n w t r s -> n_step s e = Some s' ->
  (sending n w t r s' /\ n_log s' = n_log s) \/
  (n_log s' = n_log s ++ [RSend n w t (n_tick s) r] /\ t + w <= n_tick s).
Proof.
  intros n w t r s e s' I R W (S1 & S2 & S4 & S3) H. unfold sending.
  assert (PE := i_pend s I).
  destruct e; look s; read_step H; subst; cbn in *; try lia;
    try (left; split; [|reflexivity]; split; [reflexivity|]; split; [reflexivity|]; split; [reflexivity|]; destruct pc; intuition lia);
    try (left; split; [|reflexivity]; intuition lia); try discriminate.
  all: try (destruct pc; unfold can_run, outside in *; cbn in *; rewrite ?Bool.andb_false_r in *; try discriminate; contradiction).
  right. destruct S3 as (-> & -> & -> & T). split; [|exact T]. rewrite Z.min_r by lia. reflexivity.
Qed.
Lemma send_run : forall b n w t r s s', inv s -> Forall event_ok b -> paired (n_susp s) b -> 0 <= r < n -> w <> portMAX_DELAY ->
  sending n w t r s -> n_run s b = Some s' ->
  n_log s' = n_log s \/ exists stop l, n_log s' = n_log s ++ RSend n w t stop r :: l /\ t + w <= stop.
Proof.
  induction b as [|e b IH]; intros n w t r s s' I F P R W S E; [injection E as <-; now left|].
  inversion F; subst. destruct (inv_step s e I) as (s1 & ES & I1); [assumption|intros ->; now destruct P|].
  cbn [n_run] in E. rewrite ES in E.
  destruct (step_sending n w t r s e s1 I R W S ES) as [(S' & L)|(L & T)].
  - rewrite <- L. apply (IH n w t r s1); auto. rewrite (step_susp s e s1 ES).
    destruct e; cbn [paired opens] in *; rewrite ?Z.add_0_r; try exact P. now destruct P.
  - right. destruct (log_run _ _ _ E) as (l & L2). exists (n_tick s), l. split; [|exact T].
    rewrite L2, L, <- app_assoc. reflexivity.
Qed.
