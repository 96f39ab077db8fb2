(** Tasks that wait for room or for an item are not forgotten. *)
From Coq Require Import ZifyBool ZifyNat.
From Verif.Base Require Import Words.
From Verif.Model Require Import KQueue.
From Verif.Spec Require Import KQueueSpec.
From Verif.Proof Require Import KQueueProof.
Open Scope Z_scope.

(** [b] = true: the side of the senders; false: the side of the receivers. *)
Definition side (b : bool) (o : kop) : bool := match o with Send _ => b | Receive => negb b end.
Definition lst (b : bool) (q : kq) : list Z := if b then k_senders q else k_receivers q.
Definition lock (b : bool) (q : kq) : Z := if b then k_rx q else k_tx q.
Definition todo (b : bool) (q : kq) : Z := if b then k_len q - k_count q else k_count q.
Definition waits (b : bool) (p : kpc) : bool :=
  match p with Blocked o _ | UnlockTx o _ NWait | UnlockRx o _ NWait => side b o | _ => false end.
Definition wants (b : bool) (p : kpc) : bool :=
  match p with Try o _ => side b o | _ => waits b p end.
Definition inlock (p : kpc) : bool :=
  match p with Locked _ _ | UnlockTx _ _ _ | UnlockRx _ _ _ => true | _ => false end.
Definition half (p : kpc) : bool := match p with UnlockRx _ _ _ => true | _ => false end.
Definition wcount (b : bool) (f : Z -> kpc) (ts : list Z) : nat := length (filter (fun t => wants b (f t)) ts).
Definition b2n (x : bool) : nat := if x then 1%nat else 0%nat.

Lemma waits_wants : forall b p, waits b p = true -> wants b p = true.
Proof. intros b [] H; auto; discriminate. Qed.
Lemma wcount_other : forall b f t p ts, ~ In t ts -> wcount b (put_pc f t p) ts = wcount b f ts.
Proof.
  intros b f t p ts N. unfold wcount. f_equal. apply filter_ext_in. intros x I. unfold put_pc.
  destruct (Z.eqb_spec x t) as [->|]; [contradiction|reflexivity].
Qed.
Lemma wcount_put : forall b f t p ts, NoDup ts -> In t ts ->
  (wcount b (put_pc f t p) ts + b2n (wants b (f t)) = wcount b f ts + b2n (wants b p))%nat.
Proof.
  intros b f t p ts D I. induction D as [|x ts NI D IH]; [destruct I|].
  destruct (Z.eq_dec x t) as [->|NE].
  - pose proof (wcount_other b f t p ts NI) as W. unfold wcount in *. cbn [filter]. unfold put_pc at 1. rewrite Z.eqb_refl.
    destruct (wants b p), (wants b (f t)); cbn [length b2n]; lia.
  - destruct I as [E|I]; [contradiction|]. specialize (IH I). unfold wcount in *. cbn [filter]. unfold put_pc at 1.
    destruct (Z.eqb_spec x t); [contradiction|]. destruct (wants b (f x)); cbn [length]; lia.
Qed.

Lemma insert_in : forall prio t l x, In x (event_insert prio t l) <-> x = t \/ In x l.
Proof.
  intros prio t l x. induction l as [|y l IH]; cbn [event_insert]; [cbn; intuition|].
  destruct (prio t <=? prio y); cbn [In]; [rewrite IH|]; intuition.
Qed.
Lemma insert_nodup : forall prio t l, NoDup l -> ~ In t l -> NoDup (event_insert prio t l).
Proof.
  intros prio t l D N. induction D as [|y l NY D IH]; cbn [event_insert]; [constructor; auto; constructor|].
  destruct (prio t <=? prio y).
  - constructor; [rewrite insert_in; intros [E|I]; [apply N; left; auto|auto]|]. apply IH. intros I. apply N. now right.
  - constructor; auto. constructor; auto.
Qed.
Lemma skipn_nodup : forall (l : list Z) n, NoDup l -> NoDup (skipn n l).
Proof. induction l as [|x l IH]; intros [|n] D; cbn; auto. apply IH. now inversion D. Qed.
Lemma skipn_in : forall (l : list Z) n x, In x (skipn n l) -> In x l.
Proof. induction l as [|y l IH]; intros [|n] x I; cbn in *; auto. right. eapply IH; eauto. Qed.
Lemma tl_in : forall (l : list Z) x, In x (tl l) -> In x l.
Proof. intros [|y l] x I; cbn in *; auto. Qed.
Lemma tl_nodup : forall (l : list Z), NoDup l -> NoDup (tl l).
Proof. intros [|y l] D; cbn; auto. now inversion D. Qed.

Section Wake.
  Variables (prio : Z -> Z) (len size : Z) (ts : list Z) (b : bool).
  Hypothesis (HL : 0 < len <= 127) (HS : 0 <= size) (HB : len * size < 2 ^ 32) (ND : NoDup ts).

  Record winv (s : ksys) : Prop := {
    w_nodup : NoDup (lst b (ks_q s));
    w_wait : forall t, In t (lst b (ks_q s)) -> waits b (ks_pc s t) = true;
    w_lock : forall t, inlock (ks_pc s t) = true <-> ks_susp s = Some t;
    w_out : forall t, ~ In t ts -> ks_pc s t = Out;
    w_free : ks_susp s = None -> lock b (ks_q s) = -1;
    w_half : b = false -> forall t, half (ks_pc s t) = true -> lock b (ks_q s) = -1;
    w_bound : -1 <= lock b (ks_q s) <= todo b (ks_q s);
    w_count : lst b (ks_q s) <> [] ->
      todo b (ks_q s) + Z.of_nat (length (lst b (ks_q s))) <= Z.of_nat (wcount b (ks_pc s) ts) + Z.max 0 (lock b (ks_q s)) }.

  Lemma listed_fit : forall (l : list Z) f, NoDup l -> (forall t, In t l -> waits b (f t) = true) ->
    (forall t, ~ In t ts -> f t = Out) -> (length l <= wcount b f ts)%nat.
  Proof.
    intros l f D W O. unfold wcount. apply NoDup_incl_length; [exact D|]. intros x I. apply filter_In.
    specialize (W x I). split; [|now apply waits_wants].
    destruct (in_dec Z.eq_dec x ts) as [K|K]; [exact K|]. rewrite (O x K) in W. discriminate.
  Qed.

  Lemma winv_same : forall s q log, winv s -> NoDup (lst b q) -> (forall x, In x (lst b q) -> In x (lst b (ks_q s))) ->
    (ks_susp s = None -> lock b q = -1) ->
    (b = false -> (exists t, half (ks_pc s t) = true) -> lock b q = -1) ->
    -1 <= lock b q <= todo b q ->
    (lst b q <> [] -> todo b q + Z.of_nat (length (lst b q)) <= Z.of_nat (wcount b (ks_pc s) ts) + Z.max 0 (lock b q)) ->
    winv (mkKs q (ks_pc s) (ks_susp s) log).
  Proof.
    intros s q log W D I F H B C. split; cbn [ks_q ks_pc ks_susp]; auto.
    - intros t K. apply (w_wait s W). auto.
    - apply (w_lock s W).
    - apply (w_out s W).
    - intros E t K. eauto.
  Qed.

  Lemma winv_put : forall s q t p u log, winv s -> In t ts -> NoDup (lst b q) ->
    (forall x, In x (lst b q) -> x <> t -> In x (lst b (ks_q s))) -> (In t (lst b q) -> waits b p = true) ->
    (inlock p = true <-> u = Some t) ->
    (ks_susp s = None \/ ks_susp s = Some t) -> (u = None \/ u = Some t) ->
    (u = None -> lock b q = -1) -> (b = false -> half p = true -> lock b q = -1) -> (forall x, x <> t -> half (ks_pc s x) = false) ->
    -1 <= lock b q <= todo b q ->
    (lst b q <> [] -> todo b q <= 0 \/
      todo b q + Z.of_nat (length (lst b q)) + Z.of_nat (b2n (wants b (ks_pc s t)))
      <= Z.of_nat (wcount b (ks_pc s) ts) + Z.of_nat (b2n (wants b p)) + Z.max 0 (lock b q)) ->
    winv (mkKs q (put_pc (ks_pc s) t p) u log).
  Proof.
    intros s q t p u log W T D I IT L S U F H OH B C.
    assert (W' : forall x, In x (lst b q) -> waits b (put_pc (ks_pc s) t p x) = true).
    { intros x K. unfold put_pc. destruct (Z.eqb_spec x t) as [->|NE]; [auto|]. apply (w_wait s W). auto. }
    assert (O' : forall x, ~ In x ts -> put_pc (ks_pc s) t p x = Out).
    { intros x K. unfold put_pc. destruct (Z.eqb_spec x t) as [->|NE]; [contradiction|]. apply (w_out s W). auto. }
    split; cbn [ks_q ks_pc ks_susp]; auto.
    - intros x. unfold put_pc. destruct (Z.eqb_spec x t) as [->|NE]; [exact L|]. rewrite (w_lock s W).
      split; intros K; exfalso; destruct S, U; congruence.
    - intros E x. unfold put_pc. destruct (Z.eqb_spec x t) as [->|NE]; [auto|]. rewrite OH by auto. discriminate.
    - intros N. specialize (C N). pose proof (wcount_put b (ks_pc s) t p ts ND T) as K.
      destruct C as [C|C]; [|lia]. pose proof (listed_fit (lst b q) _ D W' O'). lia.
  Qed.

  (** The fields after an item is copied. *)
  Lemma to_fields : forall q x q', prvCopyDataToQueue q x = Some q' ->
    k_count q' = u32 (k_count q + 1) /\ k_len q' = k_len q /\ k_rx q' = k_rx q /\ k_tx q' = k_tx q /\
    k_senders q' = k_senders q /\ k_receivers q' = k_receivers q.
  Proof.
    intros q x q'. unfold prvCopyDataToQueue. destruct (k_size q =? 0); [intros E; injection E as <-; cbn; auto 10|].
    destruct (rd_block x 0 (k_size q)); [|discriminate]. destruct (wr_block (k_mem q) (k_write q) l); [|discriminate].
    intros E; injection E as <-; cbn; auto 10.
  Qed.
  Lemma from_fields : forall q p, prvCopyDataFromQueue q = Some p -> let q' := fst p in
    k_count q' = u32 (k_count q - 1) /\ k_len q' = k_len q /\ k_rx q' = k_rx q /\ k_tx q' = k_tx q /\
    k_senders q' = k_senders q /\ k_receivers q' = k_receivers q.
  Proof.
    intros q p. unfold prvCopyDataFromQueue. destruct (k_size q =? 0); [intros E; injection E as <-; cbn; auto 10|].
    destruct (rd_block _ _ (k_size q)); [|discriminate].
    intros E; injection E as <-; cbn; auto 10.
  Qed.
  Lemma base_bounds : forall s, base_inv len size s -> k_len (ks_q s) = len /\ 0 <= k_count (ks_q s) <= len.
  Proof. intros s [(l & _ & R) _]. rewrite (ri_len _ _ _ _ R), (ri_count _ _ _ _ R). pose proof (ri_fits _ _ _ _ R). lia. Qed.

  Lemma not_susp : forall s t, winv s -> may_run s t = true -> inlock (ks_pc s t) = false -> ks_susp s = None.
  Proof.
    intros s t W M L. unfold may_run in M. destruct (ks_susp s) as [u|] eqn:E; [|reflexivity]. apply Z.eqb_eq in M. subst u.
    apply (w_lock s W) in E. congruence.
  Qed.
  Lemma half_in : forall p, half p = true -> inlock p = true.
  Proof. intros []; cbn; congruence. Qed.
  Lemma no_half : forall s t, winv s -> (ks_susp s = None \/ ks_susp s = Some t) -> forall x, x <> t -> half (ks_pc s x) = false.
  Proof.
    intros s t W S x NE. destruct (half (ks_pc s x)) eqn:E; [|reflexivity]. apply half_in, (w_lock s W) in E. destruct S; congruence.
  Qed.
  Lemma caller : forall s t, winv s -> ks_pc s t <> Out -> In t ts.
  Proof. intros s t W N. destruct (in_dec Z.eq_dec t ts) as [I|I]; [exact I|]. now apply (w_out s W) in I. Qed.

  Lemma len_tl : forall l : list Z, tl l <> [] -> Z.of_nat (length l) = Z.of_nat (length (tl l)) + 1 /\ l <> [].
  Proof. intros [|x l] N; [now destruct N|]. cbn [length tl]. split; [lia|discriminate]. Qed.

  Lemma wake_try : forall s t o w s', winv s -> base_inv len size s -> ks_susp s = None -> In t ts ->
    wants b (ks_pc s t) = side b o -> inlock (ks_pc s t) = false -> ~ In t (lst b (ks_q s)) ->
    try_op s t o w = Some s' -> winv s'.
  Proof.
    intros s t o w s' W B S T WA IL NI E. destruct (base_bounds s B) as (KL & KC).
    pose proof (w_count s W) as C. pose proof (w_bound s W) as BD. pose proof (w_free s W S) as FR. pose proof (w_nodup s W) as D.
    assert (NH : forall x, x <> t -> half (ks_pc s x) = false) by (apply no_half; auto).
    assert (FAIL : todo b (ks_q s) <= 0 \/ side b o = false -> forall p log, inlock p = false -> half p = false ->
      wants b p = false -> winv (mkKs (ks_q s) (put_pc (ks_pc s) t p) (ks_susp s) log)).
    { intros Z0 p log I1 H1 V1. rewrite S. apply winv_put; auto; try tauto; try congruence.
      - split; congruence.
      - intros N. specialize (C N). rewrite WA, V1. destruct Z0 as [Z0| ->]; [left; exact Z0|right; cbn [b2n]; lia]. }
    unfold try_op in E. destruct o as [x|].
    - destruct (k_count (ks_q s) <? k_len (ks_q s)) eqn:CC.
      + destruct (prvCopyDataToQueue (ks_q s) x) as [q'|] eqn:K; [|discriminate]. injection E as <-.
        destruct (to_fields _ _ _ K) as (F1 & F2 & F3 & F4 & F5 & F6).
        unfold u32 in F1. rewrite Z.mod_small in F1 by lia. rewrite S.
        apply winv_put; auto; rewrite ?WA; try tauto; try congruence; revert C BD FR D NI; unfold side, lst, lock, todo, wake_receiver;
          destruct b; cbn [k_senders k_receivers k_rx k_tx k_count k_len negb]; rewrite ?F1, ?F2, ?F3, ?F4, ?F5, ?F6; intros; auto; try tauto; try lia.
        * now apply tl_nodup.
        * now apply tl_in.
        * exfalso. apply NI. now apply tl_in.
        * split; cbn; congruence.
        * split; cbn; congruence.
        * specialize (C H). right. cbn [b2n wants waits]. lia.
        * destruct (len_tl _ H) as (LT & NE). specialize (C NE). right. cbn [b2n wants waits]. lia.
      + injection E as <-. destruct w; apply FAIL; try reflexivity; destruct b; cbn [side negb todo]; auto; left; lia.
    - destruct (0 <? k_count (ks_q s)) eqn:CC.
      + destruct (prvCopyDataFromQueue (ks_q s)) as [p|] eqn:K; [|discriminate]. injection E as <-.
        destruct (from_fields _ _ K) as (F1 & F2 & F3 & F4 & F5 & F6).
        unfold u32 in F1. rewrite Z.mod_small in F1 by lia. rewrite S.
        apply winv_put; auto; rewrite ?WA; try tauto; try congruence; revert C BD FR D NI; unfold side, lst, lock, todo, wake_sender;
          destruct b; cbn [k_senders k_receivers k_rx k_tx k_count k_len negb]; rewrite ?F1, ?F2, ?F3, ?F4, ?F5, ?F6; intros; auto; try tauto; try lia.
        * now apply tl_nodup.
        * now apply tl_in.
        * exfalso. apply NI. now apply tl_in.
        * split; cbn; congruence.
        * split; cbn; congruence.
        * destruct (len_tl _ H) as (LT & NE). specialize (C NE). right. cbn [b2n wants waits]. lia.
        * specialize (C H). right. cbn [b2n wants waits]. lia.
      + injection E as <-. destruct w; apply FAIL; try reflexivity; destruct b; cbn [side negb todo]; auto; left; lia.
  Qed.
  Lemma in_listed : forall t q o, side b o = true -> listed q t o = false -> ~ In t (lst b q).
  Proof.
    intros t q o SD L I. assert (listed q t o = true); [|congruence]. unfold listed. apply existsb_exists. exists t.
    split; [|apply Z.eqb_refl]. destruct o, b; cbn in *; auto; discriminate.
  Qed.
  Lemma not_listed : forall s t, winv s -> waits b (ks_pc s t) = false -> ~ In t (lst b (ks_q s)).
  Proof. intros s t W N I. apply (w_wait s W) in I. congruence. Qed.

  Lemma len_skipn : forall (l : list Z) n, skipn n l <> [] -> Z.of_nat (length l) = Z.of_nat (length (skipn n l)) + Z.of_nat n /\ l <> [].
  Proof.
    intros l n N. rewrite skipn_length. assert (n < length l)%nat.
    { destruct (Nat.lt_ge_cases n (length l)); [auto|]. exfalso. apply N. now apply skipn_all2. }
    split; [lia|]. intros ->. cbn in *. lia.
  Qed.
  Lemma len_insert : forall t l, length (event_insert prio t l) = S (length l).
  Proof. intros t l. induction l as [|x l IH]; cbn [event_insert]; [reflexivity|]. destruct (prio t <=? prio x); cbn [length]; lia. Qed.

  (** Interrupts that would take what the waiting tasks of side [b] wait for. *)
  Definition no_taker (ev : kevent) : Prop := if b then no_isr_send ev else no_isr_receive ev.

  Lemma wake_task : forall s t e s', winv s -> base_inv len size s -> may_run s t = true ->
    task_step prio s t e = Some s' -> winv s'.
  Proof.
    intros s t e s' W B M E. destruct (base_bounds s B) as (KL & KC).
    pose proof (w_count s W) as C. pose proof (w_bound s W) as BD. pose proof (w_nodup s W) as D.
    pose proof (not_susp s t W M) as NS. pose proof (not_listed s t W) as NL. pose proof (caller s t W) as CA.
    pose proof (proj1 (w_lock s W t)) as SU. pose proof (w_free s W) as FR.
    assert (MR : ks_susp s = None \/ ks_susp s = Some t).
    { unfold may_run in M. destruct (ks_susp s) as [u|]; [right; f_equal; lia|auto]. }
    assert (NH := no_half s t W MR). assert (HF := fun h => w_half s W h t).
    assert (Q : 0 <= todo b (ks_q s)) by (unfold todo; destruct b; lia).
    unfold task_step in E. destruct (ks_pc s t) as [|o w|o w|o w|o w n|o w n|o w|] eqn:P; cbn [inlock half waits wants] in *.
    - injection E as <-. exact W.
    - eapply wake_try with (t := t); eauto; try (rewrite P; reflexivity). apply CA; congruence.
    - injection E as <-. specialize (NS eq_refl). specialize (FR NS). specialize (NL eq_refl). apply winv_put; auto; try congruence; rewrite ?P.
      + apply CA; congruence.
      + cbn. tauto.
      + cbn. intros; discriminate.
      + revert FR Q. unfold lock, todo. destruct b; cbn; intros FR Q; rewrite FR; change (-1 =? queueUNLOCKED) with true; cbv iota; unfold queueLOCKED_UNMODIFIED; lia.
      + intros N. specialize (C N). right. cbn [wants waits b2n]. revert FR C. unfold lock, todo, lst, prvLockQueue, with_locks.
        destruct b; cbn [k_rx k_tx k_count k_len k_senders k_receivers]; intros FR C; rewrite FR in *; change (-1 =? queueUNLOCKED) with true; cbv iota; unfold queueLOCKED_UNMODIFIED; lia.
    - specialize (SU eq_refl). specialize (NL eq_refl). assert (T : In t ts) by (apply CA; congruence).
      assert (KEEP : forall n w', n <> NWait -> winv (mkKs (ks_q s) (put_pc (ks_pc s) t (UnlockTx o w' n)) (ks_susp s) (ks_log s))).
      { intros n w' NW. apply winv_put; auto; try tauto; rewrite ?P; cbn [inlock half]; try (split; auto; fail); try (intros; discriminate).
        intros N. specialize (C N). right. cbn [wants waits b2n]. destruct n; cbn [b2n]; try lia; congruence. }
      destruct e; [injection E as <-; apply KEEP; congruence|].
      destruct (unmet (ks_q s) o) eqn:U; [|injection E as <-; apply KEEP; congruence].
      injection E as <-. rewrite SU.
      apply winv_put; auto; rewrite ?P; cbn [inlock half wants waits]; try tauto; try congruence.
      + destruct o, b; cbn [place lst with_locks k_senders k_receivers] in *; auto; apply insert_nodup; auto.
      + intros x. destruct o, b; cbn [place lst with_locks k_senders k_receivers] in *; auto; rewrite insert_in; tauto.
      + destruct o, b; cbn [place lst with_locks k_senders k_receivers side negb] in *; auto; tauto.
      + revert BD. destruct o, b; cbn; auto.
      + intros N. destruct o, b; cbn [place lst lock todo with_locks k_senders k_receivers k_count k_len k_rx k_tx side negb b2n unmet] in *.
        * left. lia.
        * right. specialize (C N). lia.
        * right. specialize (C N). lia.
        * left. lia.
    - specialize (SU eq_refl). assert (T : In t ts) by (apply CA; congruence). injection E as <-. rewrite SU.
      apply winv_put; auto; rewrite ?P; cbn [inlock half]; try tauto; try congruence.
      + destruct b; cbn in *; auto. now apply skipn_nodup.
      + intros x. destruct b; cbn in *; auto. intros I _. eapply skipn_in; eauto.
      + intros I. assert (I2 : In t (lst b (ks_q s))) by (revert I; destruct b; cbn; auto; apply skipn_in).
        apply (w_wait s W) in I2. rewrite P in I2. exact I2.
      + intros Hb. unfold lock. rewrite Hb. reflexivity.
      + revert BD Q. unfold lock, todo. destruct b; cbn; auto; unfold queueUNLOCKED; lia.
      + intros N. right. assert (WW : wants b (UnlockTx o w n) = wants b (UnlockRx o w n)) by reflexivity. rewrite WW.
        revert C BD N. unfold lst, lock, todo. destruct b; cbn [unlock_tx with_locks k_senders k_receivers k_rx k_tx k_count k_len]; intros C BD N.
        * specialize (C N). lia.
        * destruct (len_skipn _ _ N) as (LS & NE). specialize (C NE). unfold queueUNLOCKED. lia.
    - specialize (SU eq_refl). assert (T : In t ts) by (apply CA; congruence).
      assert (GO : forall p log, inlock p = false -> half p = false -> (In t (lst b (ks_q s)) -> waits b p = true) ->
        (wants b (UnlockRx o w n) = true -> wants b p = true) ->
        winv (mkKs (unlock_rx (ks_q s)) (put_pc (ks_pc s) t p) None log)).
      { intros p log I1 H1 L1 L2. apply winv_put; auto; rewrite ?P; try congruence.
        - destruct b; cbn in *; auto. now apply skipn_nodup.
        - intros x. destruct b; cbn in *; auto. intros I _. eapply skipn_in; eauto.
        - intros I. apply L1. revert I. destruct b; cbn; auto; apply skipn_in.
        - split; congruence.
        - intros _. revert HF. unfold lock. destruct b; cbn; auto.
        - revert BD Q. unfold lock, todo. destruct b; cbn; auto; unfold queueUNLOCKED; lia.
        - intros N. right.
          assert (LE : (b2n (wants b (UnlockRx o w n)) <= b2n (wants b p))%nat).
          { destruct (wants b (UnlockRx o w n)); [rewrite L2 by auto|]; cbn; lia. }
          revert C BD N LE. unfold lst, lock, todo. destruct b; cbn [unlock_rx with_locks k_senders k_receivers k_rx k_tx k_count k_len]; intros C BD N LE.
          * destruct (len_skipn _ _ N) as (LS & NE). specialize (C NE). unfold queueUNLOCKED. lia.
          * specialize (C N). lia. }
      assert (WT : In t (lst b (ks_q s)) -> waits b (UnlockRx o w n) = true).
      { intros I. apply (w_wait s W) in I. rewrite P in I. exact I. }
      destruct n.
      + injection E as <-. apply GO; auto.
      + injection E as <-. apply GO; auto.
        cbn. discriminate.
      + destruct o; injection E as <-; apply GO; auto.
    - destruct (listed (ks_q s) t o) eqn:LI; [injection E as <-; exact W|].
      eapply wake_try with (t := t); eauto; try (rewrite P; reflexivity); [apply CA; congruence|].
      destruct (side b o) eqn:SD; [eapply in_listed; eauto|]. auto.
    - specialize (NL eq_refl). specialize (NS eq_refl). assert (T : In t ts) by (apply CA; congruence). rewrite NS in E.
      assert (GO : forall p log, inlock p = false -> half p = false ->
        winv (mkKs (ks_q s) (put_pc (ks_pc s) t p) None log)).
      { intros p log I1 H1. apply winv_put; auto; rewrite ?P; try tauto; try congruence.
        - split; congruence.
        - intros N. specialize (C N). right. cbn [wants waits b2n]. lia. }
      destruct (k_count (ks_q s) =? 0); injection E as <-; apply GO; reflexivity.
  Qed.

  Lemma wake_step : forall s ev s', winv s -> base_inv len size s -> called_by ts ev -> no_taker ev ->
    ks_step prio s ev = Some s' -> winv s'.
  Proof.
    intros s ev s' W B CB NT E. destruct (base_bounds s B) as (KL & KC).
    pose proof (w_count s W) as C. pose proof (w_bound s W) as BD. pose proof (w_nodup s W) as D.
    assert (Q : 0 <= todo b (ks_q s)) by (unfold todo; destruct b; lia).
    assert (HF : b = false -> (exists t, half (ks_pc s t) = true) -> lock b (ks_q s) = -1).
    { intros Hb (t & H). exact (w_half s W Hb t H). }
    pose proof (w_free s W) as FR.
    destruct ev as [t o w|t e|x| |t]; cbn [ks_step called_by] in *.
    - destruct (ks_pc s t) eqn:P; try (injection E as <-; exact W). destruct (may_run s t) eqn:M; injection E as <-; [|exact W].
      assert (NS : ks_susp s = None) by (apply (not_susp s t W M); now rewrite P). rewrite NS.
      apply winv_put; auto; rewrite ?P; cbn [inlock half]; try tauto; try congruence.
      + intros I. apply (w_wait s W) in I. rewrite P in I. discriminate.
      + split; congruence.
      + apply no_half; auto.
      + intros N. specialize (C N). right. cbn [wants waits b2n]. lia.
    - destruct (may_run s t) eqn:M; [|injection E as <-; exact W]. eapply wake_task; eauto.
    - unfold isr_send in E. destruct (k_count (ks_q s) <? k_len (ks_q s)) eqn:CC.
      + destruct (prvCopyDataToQueue (ks_q s) x) as [q'|] eqn:K; [|discriminate]. injection E as <-.
        destruct (to_fields _ _ _ K) as (F1 & F2 & F3 & F4 & F5 & F6). unfold u32 in F1. rewrite Z.mod_small in F1 by lia.
        unfold no_taker in NT. destruct b eqn:Eb; cbn [no_isr_send] in NT; [destruct NT|].
        destruct (Z.eqb_spec (k_tx (ks_q s)) queueUNLOCKED) as [U|U]; unfold queueUNLOCKED in U;
          apply winv_same; auto; unfold lst, lock, todo in *; rewrite ?Eb; cbn [wake_receiver with_locks k_senders k_receivers k_rx k_tx k_count k_len];
          rewrite ?F1, ?F2, ?F3, ?F4, ?F5, ?F6; auto; try lia.
        * now apply tl_nodup.
        * intros y. apply tl_in.
        * intros N. destruct (len_tl _ N) as (LT & NE). specialize (C NE). lia.
        * unfold s8. rewrite Z.mod_small by lia. lia.
        * intros N. specialize (C N). unfold s8. rewrite Z.mod_small by lia. lia.
      + injection E as <-. apply winv_same; auto.
    - unfold isr_receive in E. destruct (0 <? k_count (ks_q s)) eqn:CC.
      + destruct (prvCopyDataFromQueue (ks_q s)) as [p|] eqn:K; [|discriminate]. injection E as <-.
        destruct (from_fields _ _ K) as (F1 & F2 & F3 & F4 & F5 & F6). unfold u32 in F1. rewrite Z.mod_small in F1 by lia.
        unfold no_taker in NT. destruct b eqn:Eb; cbn [no_isr_receive] in NT; [|destruct NT].
        destruct (Z.eqb_spec (k_rx (ks_q s)) queueUNLOCKED) as [U|U]; unfold queueUNLOCKED in U;
          apply winv_same; auto; unfold lst, lock, todo in *; rewrite ?Eb; cbn [wake_sender with_locks k_senders k_receivers k_rx k_tx k_count k_len];
          rewrite ?F1, ?F2, ?F3, ?F4, ?F5, ?F6; auto; try lia.
        * now apply tl_nodup.
        * intros y. apply tl_in.
        * intros N. destruct (len_tl _ N) as (LT & NE). specialize (C NE). lia.
        * unfold s8. rewrite Z.mod_small by lia. lia.
        * intros N. specialize (C N). unfold s8. rewrite Z.mod_small by lia. lia.
      + injection E as <-. apply winv_same; auto.
    - injection E as <-. unfold tick_out. destruct (ks_susp s) as [u|] eqn:S; [exact W|]. rewrite <- S.
      assert (LB : lst b (with_locks (ks_q s) (k_rx (ks_q s)) (k_tx (ks_q s))
                 (filter (fun x => negb (x =? t)) (k_senders (ks_q s))) (filter (fun x => negb (x =? t)) (k_receivers (ks_q s))))
               = filter (fun x => negb (x =? t)) (lst b (ks_q s))) by (destruct b; reflexivity).
      apply winv_same; auto; rewrite ?LB.
      + now apply NoDup_filter.
      + intros y I. apply filter_In in I. tauto.
      + intros N. assert (NE : lst b (ks_q s) <> []) by (intros Z0; apply N; rewrite Z0; reflexivity). specialize (C NE).
        assert (FL : forall l : list Z, (length (filter (fun x : Z => negb (x =? t)%Z) l) <= length l)%nat).
        { induction l as [|y l IH]; cbn [filter length]; [lia|]. destruct (negb (y =? t)); cbn [length]; lia. }
        specialize (FL (lst b (ks_q s))). change (todo b (with_locks _ _ _ _ _)) with (todo b (ks_q s)).
        change (lock b (with_locks _ _ _ _ _)) with (lock b (ks_q s)). lia.
  Qed.

  Lemma wake_run : forall tr s s', winv s -> base_inv len size s -> Forall (item_ok size) tr -> Forall (called_by ts) tr ->
    Forall no_taker tr -> ks_run prio s tr = Some s' -> winv s'.
  Proof.
    induction tr as [|ev tr IH]; intros s s' W B I C N E; cbn [ks_run] in E; [injection E as <-; exact W|].
    inversion I as [|? ? I1 I2]; subst. inversion C as [|? ? C1 C2]; subst. inversion N as [|? ? N1 N2]; subst.
    assert (HL' : 0 < len < 2 ^ 32) by lia.
    destruct (ks_step_ok prio len size HL' HS HB s ev B I1) as (s1 & K & B1). rewrite K in E.
    eapply IH; [| |eauto|eauto|eauto|exact E]; auto. eapply wake_step; eauto.
  Qed.
  Lemma wake_init : forall mem, winv (ks_init mem len size).
  Proof.
    intros mem. unfold ks_init, queue_new. split; unfold lst, lock, todo; cbn;
      destruct b; cbn; unfold queueUNLOCKED; intros; try constructor; try contradiction; try congruence; try lia; try discriminate.
  Qed.

  (** With something to do and a task in the list, a task outside the list can do it. *)
  Lemma wake_found : forall s, winv s -> base_inv len size s -> ks_susp s = None -> lst b (ks_q s) <> [] -> 0 < todo b (ks_q s) ->
    exists u o w, ~ In u (lst b (ks_q s)) /\ side b o = true /\ (ks_pc s u = Try o w \/ ks_pc s u = Blocked o w).
  Proof.
    intros s W B S N T. pose proof (w_count s W N) as C. rewrite (w_free s W S) in C.
    set (f := fun t => wants b (ks_pc s t)) in *.
    assert (X : exists u, In u (filter f ts) /\ ~ In u (lst b (ks_q s))).
    { destruct (existsb (fun u => negb (existsb (Z.eqb u) (lst b (ks_q s)))) (filter f ts)) eqn:E.
      - apply existsb_exists in E. destruct E as (u & I & K). exists u. split; [exact I|]. intros J.
        assert (existsb (Z.eqb u) (lst b (ks_q s)) = true); [|rewrite H in K; discriminate].
        apply existsb_exists. exists u. split; [exact J|apply Z.eqb_refl].
      - exfalso. assert (INC : incl (filter f ts) (lst b (ks_q s))).
        { intros u I. destruct (in_dec Z.eq_dec u (lst b (ks_q s))) as [J|J]; [exact J|]. exfalso.
          assert (K : existsb (fun v => negb (existsb (Z.eqb v) (lst b (ks_q s)))) (filter f ts) = true); [|congruence].
          apply existsb_exists. exists u. split; [exact I|]. destruct (existsb (Z.eqb u) (lst b (ks_q s))) eqn:Z1; [|reflexivity].
          apply existsb_exists in Z1. destruct Z1 as (v & V1 & V2). apply Z.eqb_eq in V2. now subst v. }
        apply NoDup_incl_length in INC; [|now apply NoDup_filter].
        unfold wcount in C. fold f in C. lia. }
    destruct X as (u & I & J). apply filter_In in I. destruct I as (I & K). exists u. unfold f in K.
    assert (IL : inlock (ks_pc s u) = false).
    { destruct (inlock (ks_pc s u)) eqn:E; [|reflexivity]. apply (w_lock s W) in E. congruence. }
    destruct (ks_pc s u) as [|o w|o w|o w|o w n|o w n|o w|] eqn:P; cbn [wants waits inlock] in *; try discriminate; exists o, w; auto.
  Qed.
End Wake.

(** ** The lists are in the order of the priorities *)
Lemma insert_sorted : forall prio t l, by_priority prio l -> by_priority prio (event_insert prio t l).
Proof.
  intros prio t l. induction l as [|x l IH]; intros S; cbn [event_insert]; [exact I|].
  destruct (Z.leb_spec (prio t) (prio x)) as [L|L].
  - destruct l as [|y l]; [cbn; auto|]. cbn [by_priority] in S. destruct S as (S1 & S2). specialize (IH S2).
    cbn [event_insert] in *. destruct (prio t <=? prio y); split; auto.
  - cbn [by_priority]. split; [lia|exact S].
Qed.
Lemma sorted_tl : forall prio l, by_priority prio l -> by_priority prio (tl l).
Proof. intros prio [|x [|y l]] S; cbn in *; tauto. Qed.
Lemma sorted_skipn : forall prio n l, by_priority prio l -> by_priority prio (skipn n l).
Proof. intros prio n. induction n as [|n IH]; intros [|x l] S; cbn [skipn]; auto. apply IH. now apply (sorted_tl prio (x :: l)). Qed.
Lemma sorted_head : forall prio x l, by_priority prio (x :: l) -> forall y, In y l -> prio y <= prio x.
Proof.
  intros prio x l. revert x. induction l as [|z l IH]; intros x S y I; [destruct I|]. destruct S as (S1 & S2).
  destruct I as [->|I]; [exact S1|]. specialize (IH z S2 y I). lia.
Qed.
Lemma sorted_cons : forall prio x l, by_priority prio l -> (forall y, In y l -> prio y <= prio x) -> by_priority prio (x :: l).
Proof. intros prio x [|y l] S H; [exact I|]. cbn. split; [apply H; now left|exact S]. Qed.
Lemma sorted_filter : forall prio f l, by_priority prio l -> by_priority prio (filter f l).
Proof.
  intros prio f l. induction l as [|x l IH]; intros S; cbn [filter]; [exact I|].
  pose proof (IH (sorted_tl prio (x :: l) S)) as K. destruct (f x); [|exact K]. apply sorted_cons; [exact K|].
  intros y J. apply filter_In in J. apply (sorted_head prio x l S). tauto.
Qed.
Definition sorted (prio : Z -> Z) (q : kq) : Prop := by_priority prio (k_senders q) /\ by_priority prio (k_receivers q).
Lemma sorted_to : forall prio q x q', sorted prio q -> prvCopyDataToQueue q x = Some q' -> sorted prio q'.
Proof. intros prio q x q' S E. destruct (to_fields _ _ _ E) as (_ & _ & _ & _ & F5 & F6). unfold sorted. now rewrite F5, F6. Qed.
Lemma sorted_from : forall prio q p, sorted prio q -> prvCopyDataFromQueue q = Some p -> sorted prio (fst p).
Proof. intros prio q p S E. destruct (from_fields _ _ E) as (_ & _ & _ & _ & F5 & F6). unfold sorted. now rewrite F5, F6. Qed.
Lemma sorted_try : forall prio s t o w s', sorted prio (ks_q s) -> try_op s t o w = Some s' -> sorted prio (ks_q s').
Proof.
  intros prio s t o w s' S E. unfold try_op in E. destruct o as [x|].
  - destruct (k_count (ks_q s) <? k_len (ks_q s)); [|injection E as <-; destruct w; exact S].
    destruct (prvCopyDataToQueue (ks_q s) x) as [q'|] eqn:K; [|discriminate]. injection E as <-.
    destruct (sorted_to prio _ _ _ S K) as (A & B). split; cbn; auto. now apply sorted_tl.
  - destruct (0 <? k_count (ks_q s)); [|injection E as <-; destruct w; exact S].
    destruct (prvCopyDataFromQueue (ks_q s)) as [p|] eqn:K; [|discriminate]. injection E as <-.
    destruct (sorted_from prio _ _ S K) as (A & B). split; cbn; auto. now apply sorted_tl.
Qed.
Lemma sorted_step : forall prio s ev s', sorted prio (ks_q s) -> ks_step prio s ev = Some s' -> sorted prio (ks_q s').
Proof.
  intros prio s ev s' S E. pose proof S as (SA & SB). destruct ev as [t o w|t e|x| |t]; cbn [ks_step] in E.
  - destruct (ks_pc s t); try (injection E as <-; exact S). destruct (may_run s t); injection E as <-; exact S.
  - destruct (may_run s t); [|injection E as <-; exact S]. unfold task_step in E.
    destruct (ks_pc s t) as [|o w|o w|o w|o w n|o w n|o w|].
    + injection E as <-; exact S.
    + eapply sorted_try; eauto.
    + injection E as <-; exact S.
    + destruct e; [injection E as <-; exact S|]. destruct (unmet (ks_q s) o); injection E as <-; [|exact S].
      destruct o; split; cbn; auto using insert_sorted.
    + injection E as <-. split; cbn; auto using sorted_skipn.
    + destruct n; try (injection E as <-; split; cbn; auto using sorted_skipn). destruct o; injection E as <-; split; cbn; auto using sorted_skipn.
    + destruct (listed (ks_q s) t o); [injection E as <-; exact S|]. eapply sorted_try; eauto.
    + destruct (k_count (ks_q s) =? 0); injection E as <-; exact S.
  - unfold isr_send in E. destruct (k_count (ks_q s) <? k_len (ks_q s)); [|injection E as <-; exact S].
    destruct (prvCopyDataToQueue (ks_q s) x) as [q'|] eqn:K; [|discriminate]. injection E as <-.
    destruct (sorted_to prio _ _ _ S K) as (A & B). destruct (k_tx (ks_q s) =? queueUNLOCKED); split; cbn; auto using sorted_tl.
  - unfold isr_receive in E. destruct (0 <? k_count (ks_q s)); [|injection E as <-; exact S].
    destruct (prvCopyDataFromQueue (ks_q s)) as [p|] eqn:K; [|discriminate]. injection E as <-.
    destruct (sorted_from prio _ _ S K) as (A & B). destruct (k_rx (ks_q s) =? queueUNLOCKED); split; cbn; auto using sorted_tl.
  - injection E as <-. unfold tick_out. destruct (ks_susp s); [exact S|]. split; cbn; auto using sorted_filter.
Qed.
Lemma sorted_run : forall prio tr s s', sorted prio (ks_q s) -> ks_run prio s tr = Some s' -> sorted prio (ks_q s').
Proof.
  intros prio tr. induction tr as [|ev tr IH]; intros s s' S E; cbn [ks_run] in E; [injection E as <-; exact S|].
  destruct (ks_step prio s ev) as [s1|] eqn:K; [|discriminate]. eapply IH; [|exact E]. eapply sorted_step; eauto.
Qed.
