(** One sender at a time: what goes out is what was asked for. *)
From Verif Require Import Model.CanMailbox Spec.CanMailboxSpec.
From Coq Require Import Permutation PeanoNat.

Lemma split_at (mb : list mbox) m x : nth_error mb m = Some x ->
  mb = firstn m mb ++ x :: skipn (S m) mb.
Proof.
  revert m. induction mb as [|y t IH]; destruct m; cbn [nth_error]; try discriminate.
  - intro E. inversion E. reflexivity.
  - intro E. cbn [firstn skipn app]. f_equal. now apply IH.
Qed.

Lemma write_at f a x b :
  write_mb (length a) f (a ++ x :: b) = a ++ (if m_req x then x else f x) :: b.
Proof. induction a; cbn [length write_mb app]; congruence. Qed.

Lemma nth_at (a : list mbox) x b : nth_error (a ++ x :: b) (length a) = Some x.
Proof. induction a; cbn; auto. Qed.

Lemma at_inv (mb : list mbox) m x : nth_error mb m = Some x ->
  exists a b, mb = a ++ x :: b /\ m = length a.
Proof. intro E. apply nth_error_split in E. destruct E as (a & b & -> & <-). eauto. Qed.

Lemma waiting_split a x b :
  waiting (a ++ x :: b) = waiting a ++ (if m_req x then [out_frame x] else []) ++ waiting b.
Proof.
  unfold waiting. rewrite filter_app, map_app. cbn [filter]. destruct (m_req x); reflexivity.
Qed.

Lemma first_free_spec mb i m : first_free mb i = Some m ->
  exists x, nth_error mb (m - i) = Some x /\ m_req x = false /\ (i <= m)%nat.
Proof.
  revert i. induction mb as [|y t IH]; cbn [first_free]; intros i E; [discriminate|].
  destruct (m_req y) eqn:R.
  - apply IH in E. destruct E as (x & Ex & Rx & L). exists x.
    replace (m - i)%nat with (S (m - S i)) by lia. cbn. repeat split; auto; lia.
  - inversion E; subst. exists y. rewrite Nat.sub_diag. auto.
Qed.

Lemma first_free_some mb : (exists x, In x mb /\ m_req x = false) -> forall i, first_free mb i <> None.
Proof.
  intros (x & I & R). induction mb as [|y t IH]; [destruct I|].
  intro i. cbn. destruct (m_req y) eqn:Ry; [|discriminate].
  apply IH. destruct I as [->|I]; [congruence|auto].
Qed.

Section Exclusive.
Variable A : nat -> can_frame -> Prop.
Hypothesis A_full : forall i f, A i f -> full_frame f.
Hypothesis A_excl : (forall i f, A i f -> locker i = true) \/ (exists j, forall i f, A i f -> i = j).

(** The mailbox a task has chosen is still empty and holds what was written. *)
Definition chosen (mb : list mbox) (m : nat) (P : mbox -> Prop) : Prop :=
  exists x, nth_error mb m = Some x /\ m_req x = false /\ P x.

Definition stage_ok (mb : list mbox) (i : nat) (a : stage) : Prop :=
  match a with
  | Out => True
  | AtLevel f | AtQueue f => A i f
  | AtStatus f => A i f
  | AtId f m => A i f /\ chosen mb m (fun _ => True)
  | AtDlc f m => A i f /\ chosen mb m (fun x => m_id x = fr_id f)
  | AtHi f m => A i f /\ chosen mb m (fun x => m_id x = fr_id f /\ m_dlc x = fr_dlc f)
  | AtLo f m => A i f /\ chosen mb m (fun x => m_id x = fr_id f /\ m_dlc x = fr_dlc f /\
                                  m_hi x = skipn 4 (fr_data f))
  | AtRead f m => A i f /\ chosen mb m (fun x => m_id x = fr_id f /\ m_dlc x = fr_dlc f /\
                                  m_hi x = skipn 4 (fr_data f) /\ m_lo x = firstn 4 (fr_data f))
  | AtReq f m v => A i f /\ v = fr_id f /\
      chosen mb m (fun x => m_id x = fr_id f /\ m_dlc x = fr_dlc f /\
                                  m_hi x = skipn 4 (fr_data f) /\ m_lo x = firstn 4 (fr_data f))
  end.

Definition binv (s : busys) : Prop :=
  (forall i j, bs_at s i <> Out -> bs_at s j <> Out -> i = j) /\
  (forall i, bs_at s i <> Out -> locker i = true -> bs_holder s = Some i) /\
  (forall i, stage_ok (bs_mb s) i (bs_at s i)) /\
  (forall f, In f (bs_ok s) -> exists i, A i f) /\
  Permutation (bs_ok s) (bs_bus s ++ bs_lost s ++ waiting (bs_mb s) ++ bs_queue s).

Lemma stage_asked mb i a : stage_ok mb i a -> a <> Out -> exists f, A i f.
Proof. destruct a; cbn; intros H N; try congruence; intuition eauto. Qed.

Lemma binv_init : binv bus_init.
Proof.
  unfold bus_init. repeat split; cbn; try congruence; try tauto. apply perm_nil.
Qed.

(** Moving on without touching the mailboxes. *)
Lemma move_inv s i a : binv s -> bs_at s i <> Out -> stage_ok (bs_mb s) i a -> binv (move s i a).
Proof.
  intros (H1 & H2 & H3 & H4 & H5) N S.
  assert (E : forall k, bs_at (move s i a) k <> Out -> bs_at s k <> Out).
  { intro k. cbn. destruct (Nat.eqb_spec k i) as [->|]; auto. }
  repeat split; auto.
  - intro k. cbn. destruct (Nat.eqb_spec k i) as [->|]; auto.
Qed.

(** The chosen mailbox is written. *)
Lemma write_inv s i a m f x :
  binv s -> bs_at s i <> Out -> nth_error (bs_mb s) m = Some x -> m_req x = false ->
  m_req (f x) = false -> (forall mb, nth_error mb m = Some (f x) -> stage_ok mb i a) ->
  binv (move (set_mb s (write_mb m f (bs_mb s))) i a).
Proof.
  intros (H1 & H2 & H3 & H4 & H5) N E R R' S.
  assert (K : forall k, k <> i -> bs_at s k = Out).
  { intros k Hk. destruct (bs_at s k) eqn:Ek; auto; exfalso; apply Hk; apply H1; congruence. }
  destruct (at_inv _ _ _ E) as (p & q & Emb & ->).
  assert (W : write_mb (length p) f (bs_mb s) = p ++ f x :: q) by (rewrite Emb, write_at, R; auto).
  assert (Wt : waiting (p ++ f x :: q) = waiting (bs_mb s))
    by (rewrite Emb, !waiting_split, R, R'; reflexivity).
  assert (G : forall k, bs_at (move (set_mb s (write_mb (length p) f (bs_mb s))) i a) k <> Out -> k = i).
  { intro k. cbn. destruct (Nat.eqb_spec k i) as [->|NE]; auto. }
  repeat split; auto.
  - intros k j Hk Hj. apply G in Hk. apply G in Hj. congruence.
  - intros k Hk L. apply G in Hk. subst k. cbn. now apply H2.
  - intro k. cbn. destruct (Nat.eqb_spec k i) as [->|NE].
    + apply S. rewrite W. apply nth_at.
    + rewrite K by auto. exact I.
  - cbn [bs_ok bs_bus bs_lost bs_mb bs_queue move set_mb]. rewrite W, Wt. exact H5.
Qed.

(** The call ends. *)
Lemma leave_inv s i mb q ok :
  binv s -> bs_at s i <> Out -> (forall f, In f ok -> exists j, A j f) ->
  Permutation (waiting mb ++ q) (waiting (bs_mb s) ++ bs_queue s ++ ok) ->
  binv (leave (mkBus mb q (bs_at s) (bs_holder s) (bs_bus s) (bs_lost s) (bs_ok s)) i ok).
Proof.
  intros (H1 & H2 & H3 & H4 & H5) N O P.
  assert (K : forall k, bs_at (leave (mkBus mb q (bs_at s) (bs_holder s) (bs_bus s) (bs_lost s) (bs_ok s)) i ok) k = Out).
  { intro k. cbn. destruct (Nat.eqb_spec k i) as [->|NE]; auto.
    destruct (bs_at s k) eqn:Ek; auto; exfalso; apply NE; apply H1; congruence. }
  repeat split.
  - intros k j Hk. now rewrite K in Hk.
  - intros k Hk. now rewrite K in Hk.
  - intro k. rewrite K. exact I.
  - cbn. intros f Hf. apply in_app_or in Hf. destruct Hf; auto.
  - cbn. rewrite P, H5. rewrite !app_assoc. reflexivity.
Qed.

Lemma leave_same s i : binv s -> bs_at s i <> Out -> binv (leave s i []).
Proof.
  intros I N. pose proof (leave_inv s i (bs_mb s) (bs_queue s) [] I N) as H.
  destruct s; cbn in *. apply H; [intros ? []|]. now rewrite app_nil_r.
Qed.

Lemma out_full i f x : A i f -> m_id x = fr_id f -> m_dlc x = fr_dlc f ->
  m_hi x = skipn 4 (fr_data f) -> m_lo x = firstn 4 (fr_data f) -> out_frame x = f.
Proof.
  intros Ha E1 E2 E3 E4. apply A_full in Ha. destruct Ha as (B & _ & _).
  unfold out_frame. rewrite E1, E2, E3, E4, firstn_skipn, <- B. destruct f; reflexivity.
Qed.

Ltac neq := match goal with H : bs_at ?s ?i = _ |- bs_at ?s ?i <> Out => rewrite H; discriminate end.

Lemma go_inv s i : binv s -> binv (bus_go s i).
Proof.
  intro I. pose proof I as (H1 & H2 & H3 & H4 & H5). unfold bus_go.
  specialize (H3 i). destruct (bs_at s i) as [|f|f|f m|f m|f m|f m|f m|f m v|f] eqn:E; cbn in H3; auto.
  - destruct (first_free (bs_mb s) 0) as [m|] eqn:F; apply move_inv; auto; neq.
  - destruct (first_free (bs_mb s) 0) as [m|] eqn:F.
    + apply move_inv; auto; [neq|]. cbn. split; auto.
      destruct (first_free_spec _ _ _ F) as (x & Ex & Rx & _). rewrite Nat.sub_0_r in Ex.
      exists x. auto.
    + apply leave_same; auto. neq.
  - destruct H3 as (Ha & x & Ex & Rx & _). eapply write_inv; eauto; [neq|].
    intros mb Em. split; auto. exists (put_id (fr_id f) x). auto.
  - destruct H3 as (Ha & x & Ex & Rx & X). eapply write_inv; eauto; [neq|].
    intros mb Em. split; auto. exists (put_dlc (fr_dlc f) x). auto.
  - destruct H3 as (Ha & x & Ex & Rx & X). eapply write_inv; eauto; [neq|].
    intros mb Em. split; auto. exists (put_hi (skipn 4 (fr_data f)) x). cbn. intuition.
  - destruct H3 as (Ha & x & Ex & Rx & X). eapply write_inv; eauto; [neq|].
    intros mb Em. split; auto. exists (put_lo (firstn 4 (fr_data f)) x). cbn. intuition.
  - destruct H3 as (Ha & x & Ex & Rx & X). rewrite Ex. apply move_inv; auto; [neq|].
    cbn. split; auto. split; [apply X|]. exists x. auto.
  - destruct H3 as (Ha & -> & x & Ex & Rx & X1 & X2 & X3 & X4).
    apply leave_inv; auto; [neq|intros g [<-|[]]; eauto|].
    destruct (at_inv _ _ _ Ex) as (p & q & Emb & ->).
    rewrite Emb, write_at, Rx, !waiting_split, Rx. cbn [m_req put_req].
    rewrite (out_full i f); auto. cbn [app]. rewrite <- !app_assoc. apply Permutation_app_head.
    cbn [app]. rewrite app_assoc. apply Permutation_cons_append.
  - destruct (_ <? _)%nat.
    + apply leave_inv; auto; [neq|intros g [<-|[]]; eauto].
    + apply leave_same; auto. neq.
Qed.

Lemma begin_inv s i f : binv s -> A i f -> binv (bus_step s (Begin i f)).
Proof.
  intros I Ha. pose proof I as (H1 & H2 & H3 & H4 & H5). cbn.
  destruct (bs_at s i) eqn:E; auto.
  assert (NB : (if locker i then bs_holder s = None else True) -> forall j, bs_at s j = Out).
  { intros L j. destruct (bs_at s j) eqn:Ej; auto; exfalso;
      (assert (N : bs_at s j <> Out) by (rewrite Ej; discriminate));
      destruct (stage_asked _ _ _ (H3 j) N) as [g Hg];
      (destruct A_excl as [Al|[k Hk]];
       [ specialize (H2 j N (Al _ _ Hg)); rewrite (Al _ _ Ha) in L; congruence
       | assert (j = i) by (rewrite (Hk _ _ Hg), (Hk _ _ Ha); reflexivity); congruence ]). }
  assert (G : forall h, (locker i = true -> h = Some i) ->
     (forall j, bs_at s j = Out) ->
     binv (mkBus (bs_mb s) (bs_queue s) (bs_at (move s i (AtLevel f))) h (bs_bus s) (bs_lost s) (bs_ok s))).
  { intros h Hh No.
    assert (K : forall k, bs_at (move s i (AtLevel f)) k <> Out -> k = i).
    { intro k. cbn. destruct (Nat.eqb_spec k i) as [->|]; auto. }
    repeat split; auto; cbn [bs_at bs_mb bs_holder bs_ok].
    - intros k j Hk Hj. apply K in Hk. apply K in Hj. congruence.
    - intros k Hk L. apply K in Hk. subst k. auto.
    - intro k. cbn. destruct (Nat.eqb_spec k i) as [->|]; [exact Ha|]. rewrite No. exact Logic.I. }
  destruct (locker i) eqn:L.
  - destruct (bs_holder s) eqn:Hd; auto.
  - apply (G (bs_holder s)); auto. discriminate.
Qed.

Lemma sent_inv s m ok : binv s -> binv (bus_step s (Sent m ok)).
Proof.
  intros I. pose proof I as (H1 & H2 & H3 & H4 & H5). cbn.
  destruct (nth_error (bs_mb s) m) as [x|] eqn:E; auto. destruct (m_req x) eqn:R; auto.
  destruct (at_inv _ _ _ E) as (p & q & Emb & ->).
  assert (E1 : firstn (length p) (bs_mb s) = p)
    by (rewrite Emb, firstn_app, Nat.sub_diag, firstn_all; cbn; now rewrite app_nil_r).
  assert (E2 : skipn (S (length p)) (bs_mb s) = q).
  { rewrite Emb. replace (S (length p)) with (length (p ++ [x])) by (rewrite app_length; cbn; lia).
    replace (p ++ x :: q) with ((p ++ [x]) ++ q) by (rewrite <- app_assoc; reflexivity).
    rewrite skipn_app, skipn_all, Nat.sub_diag. reflexivity. }
  cbn [skipn] in E2. rewrite E1, E2.
  assert (Wt : Permutation (waiting (bs_mb s)) (out_frame x :: waiting (p ++ put_free x :: q))).
  { rewrite Emb, !waiting_split, R. cbn [m_req put_free app].
    apply Permutation_sym, Permutation_middle. }
  assert (SO : forall i, stage_ok (p ++ put_free x :: q) i (bs_at s i)).
  { intro i. specialize (H3 i).
    assert (C : forall k P, chosen (bs_mb s) k P -> chosen (p ++ put_free x :: q) k P).
    { intros k P (y & Ey & Ry & Py). exists y. repeat split; auto. rewrite Emb in Ey.
      destruct (Nat.eq_dec k (length p)) as [->|NE].
      - rewrite nth_at in Ey. congruence.
      - destruct (Nat.lt_ge_cases k (length p)).
        + rewrite nth_error_app1 in * by auto. exact Ey.
        + rewrite nth_error_app2 in * by auto. destruct (k - length p)%nat eqn:Z; [lia|exact Ey]. }
    destruct (bs_at s i); cbn in *; auto; intuition. }
  destruct ok; repeat split; auto; cbn [bs_ok bs_bus bs_lost bs_mb bs_queue].
  - rewrite H5, Wt. rewrite <- !app_assoc. apply Permutation_app_head. cbn [app].
    apply Permutation_sym. apply Permutation_middle.
  - rewrite H5, Wt. rewrite <- !app_assoc. reflexivity.
Qed.

Lemma run_binv sch : (forall i f, In (Begin i f) sch -> A i f) ->
  forall s, binv s -> binv (fold_left bus_step sch s).
Proof.
  induction sch as [|e sch IH]; intros Hs s I; auto. cbn [fold_left]. apply IH.
  - intros. apply Hs. now right.
  - destruct e as [i f|i|m ok].
    + apply begin_inv; auto. apply Hs. now left.
    + apply go_inv; auto.
    + apply sent_inv; auto.
Qed.
End Exclusive.

(** ** Without exclusion: every register holds a part of some frame asked for *)
Section Parts.
Variable A : nat -> can_frame -> Prop.

Definition id_ok (v : Z) : Prop := exists i f, A i f /\ v = fr_id f.
Definition dlc_ok (v : Z) : Prop := exists i f, A i f /\ v = fr_dlc f.
Definition hi_ok (v : list Z) : Prop := exists i f, A i f /\ v = skipn 4 (fr_data f).
Definition lo_ok (v : list Z) : Prop := exists i f, A i f /\ v = firstn 4 (fr_data f).

(** The first [n] of the four registers have been written. *)
Definition parts (n : nat) (x : mbox) : Prop :=
  ((1 <= n)%nat -> id_ok (m_id x)) /\ ((2 <= n)%nat -> dlc_ok (m_dlc x)) /\
  ((3 <= n)%nat -> hi_ok (m_hi x)) /\ ((4 <= n)%nat -> lo_ok (m_lo x)).

Definition has (mb : list mbox) (m n : nat) : Prop :=
  forall x, nth_error mb m = Some x -> parts n x.

Definition stage_parts (mb : list mbox) (i : nat) (a : stage) : Prop :=
  match a with
  | Out => True
  | AtLevel f | AtStatus f | AtQueue f | AtId f _ => A i f
  | AtDlc f m => A i f /\ has mb m 1
  | AtHi f m => A i f /\ has mb m 2
  | AtLo f m => A i f /\ has mb m 3
  | AtRead f m => A i f /\ has mb m 4
  | AtReq f m v => A i f /\ has mb m 4 /\ id_ok v
  end.

Definition made_of_parts (g : can_frame) : Prop :=
  fr_bus g = CAN_DEV1 /\ id_ok (fr_id g) /\ dlc_ok (fr_dlc g) /\
  exists lo hi, fr_data g = lo ++ hi /\ lo_ok lo /\ hi_ok hi.

Definition pinv (s : busys) : Prop :=
  (forall x, In x (bs_mb s) -> m_req x = true -> parts 4 x) /\
  (forall i, stage_parts (bs_mb s) i (bs_at s i)) /\
  (forall g, In g (bs_bus s) -> made_of_parts g).

Lemma parts_le n k x : (n <= k)%nat -> parts k x -> parts n x.
Proof. intros L (a & b & c & d). repeat split; intro; [apply a|apply b|apply c|apply d]; lia. Qed.

Lemma parts_out x : parts 4 x -> made_of_parts (out_frame x).
Proof.
  intros (a & b & c & d). split; [reflexivity|]. cbn. split; [apply a; lia|]. split; [apply b; lia|].
  exists (m_lo x), (m_hi x). repeat split; [apply d|apply c]; lia.
Qed.

(** A write [f] that keeps written registers written. *)
Definition keeps (f : mbox -> mbox) : Prop := forall n x, parts n x -> parts n (f x).

Lemma has_write mb m f k n : keeps f -> has mb k n -> has (write_mb m f mb) k n.
Proof.
  intros Kf. revert m k. induction mb as [|y t IH]; intros m k H; [destruct m; exact H|].
  destruct m as [|m], k as [|k]; cbn [write_mb].
  - intros x E. cbn in E. inversion E; subst. specialize (H y eq_refl). destruct (m_req y); auto.
  - exact H.
  - exact H.
  - apply (IH m k H).
Qed.

Lemma stage_write mb m f i a : keeps f -> stage_parts mb i a -> stage_parts (write_mb m f mb) i a.
Proof. intros Kf. destruct a; cbn; intuition; now apply has_write. Qed.

Lemma in_write mb m f x : In x (write_mb m f mb) ->
  In x mb \/ exists y, nth_error mb m = Some y /\ m_req y = false /\ x = f y.
Proof.
  revert m. induction mb as [|y t IH]; intros m; [destruct m; destruct 1|].
  destruct m as [|m]; cbn.
  - destruct (m_req y) eqn:R; intros [<-|H]; auto. right. eauto.
  - intros [<-|H]; auto. apply IH in H. destruct H as [H|H]; auto.
Qed.

Lemma has_after mb m f n :
  (forall y, nth_error mb m = Some y -> m_req y = true -> parts n y) ->
  (forall y, nth_error mb m = Some y -> parts n (f y)) -> has (write_mb m f mb) m n.
Proof.
  intros R W. revert m R W. induction mb as [|y t IH]; intros m R W x E.
  - destruct m; discriminate.
  - destruct m as [|m]; cbn in E.
    + inversion E; subst. destruct (m_req y) eqn:Q; [apply R|apply W]; auto.
    + apply (IH m); auto.
Qed.

Lemma keeps_id v : id_ok v -> keeps (put_id v).
Proof. intros V n x (a & b & c & d). repeat split; cbn; auto. Qed.
Lemma keeps_dlc v : dlc_ok v -> keeps (put_dlc v).
Proof. intros V n x (a & b & c & d). repeat split; cbn; auto. Qed.
Lemma keeps_hi v : hi_ok v -> keeps (put_hi v).
Proof. intros V n x (a & b & c & d). repeat split; cbn; auto. Qed.
Lemma keeps_lo v : lo_ok v -> keeps (put_lo v).
Proof. intros V n x (a & b & c & d). repeat split; cbn; auto. Qed.
Lemma keeps_req v : id_ok v -> keeps (put_req v).
Proof. intros V n x (a & b & c & d). repeat split; cbn; auto. Qed.

Lemma pinv_init : pinv bus_init.
Proof.
  split; [|split].
  - cbn. intros x [<-|[<-|[<-|[]]]] D; discriminate D.
  - cbn. auto.
  - intros g [].
Qed.

Lemma move_pinv s i a : pinv s -> stage_parts (bs_mb s) i a -> pinv (move s i a).
Proof.
  intros (H1 & H2 & H3) S. split; [exact H1|]. split; [|exact H3].
  intro k. cbn. destruct (Nat.eqb_spec k i) as [->|]; auto.
Qed.

Lemma leave_pinv s i ok : pinv s -> pinv (leave s i ok).
Proof.
  intros (H1 & H2 & H3). split; [exact H1|]. split; [|exact H3].
  intro k. cbn. destruct (Nat.eqb_spec k i) as [->|]; cbn; auto.
Qed.

Lemma set_pinv s m f : pinv s -> keeps f ->
  (forall y, nth_error (bs_mb s) m = Some y -> m_req y = false -> m_req (f y) = true -> parts 4 y) ->
  pinv (set_mb s (write_mb m f (bs_mb s))).
Proof.
  intros (H1 & H2 & H3) Kf Hr. split; [|split].
  - cbn. intros x Ix R. apply in_write in Ix. destruct Ix as [Ix|(y & Ey & Ry & ->)]; [now apply H1|].
    apply Kf. now apply Hr.
  - cbn. intro i. apply stage_write; auto.
  - exact H3.
Qed.

Lemma req_parts s m y n : pinv s -> nth_error (bs_mb s) m = Some y -> m_req y = true -> (n <= 4)%nat -> parts n y.
Proof.
  intros (H1 & _) E R L. apply (parts_le n 4); auto. apply H1; auto. now apply nth_error_In in E.
Qed.

Lemma go_pinv s i : pinv s -> pinv (bus_go s i).
Proof.
  intro I. pose proof I as (H1 & H2 & H3). unfold bus_go. specialize (H2 i).
  destruct (bs_at s i) as [|f|f|f m|f m|f m|f m|f m|f m v|f] eqn:E; cbn in H2; auto.
  - destruct (first_free (bs_mb s) 0); apply move_pinv; auto.
  - destruct (first_free (bs_mb s) 0); [apply move_pinv; auto|now apply leave_pinv].
  - assert (V : id_ok (fr_id f)) by (exists i, f; auto).
    apply move_pinv; [apply set_pinv; auto using keeps_id; cbn; congruence|].
    cbn. split; auto. apply has_after.
    + intros y Ey R. eapply req_parts; eauto.
    + intros y Ey. repeat split; cbn; auto; lia.
  - assert (V : dlc_ok (fr_dlc f)) by (exists i, f; intuition).
    apply move_pinv; [apply set_pinv; auto using keeps_dlc; cbn; congruence|].
    cbn. split; [tauto|]. apply has_after.
    + intros y Ey R. eapply req_parts; eauto.
    + intros y Ey. destruct H2 as [_ H2]. destruct (H2 y Ey) as (a & _). repeat split; cbn; auto; lia.
  - assert (V : hi_ok (skipn 4 (fr_data f))) by (exists i, f; intuition).
    apply move_pinv; [apply set_pinv; auto using keeps_hi; cbn; congruence|].
    cbn [stage_parts]. split; [tauto|]. apply has_after.
    + intros y Ey R. eapply req_parts; eauto.
    + intros y Ey. destruct H2 as [_ H2]. destruct (H2 y Ey) as (a & b & _). repeat split; cbn [put_hi m_id m_dlc m_hi m_lo]; intro; auto; lia.
  - assert (V : lo_ok (firstn 4 (fr_data f))) by (exists i, f; intuition).
    apply move_pinv; [apply set_pinv; auto using keeps_lo; cbn; congruence|].
    cbn [stage_parts]. split; [tauto|]. apply has_after.
    + intros y Ey R. eapply req_parts; eauto.
    + intros y Ey. destruct H2 as [_ H2]. destruct (H2 y Ey) as (a & b & c & _). repeat split; cbn [put_lo m_id m_dlc m_hi m_lo]; intro; auto; lia.
  - destruct (nth_error (bs_mb s) m) as [x|] eqn:Ex; auto. apply move_pinv; auto.
    cbn. destruct H2 as [Ha H2]. repeat split; auto; try (apply (H2 x); auto; lia).
    all: intros; eapply H2; eauto.
  - destruct H2 as (Ha & Hm & V). apply leave_pinv. apply set_pinv; auto using keeps_req.
  - destruct (_ <? _)%nat; [|now apply leave_pinv].
    apply leave_pinv. exact I.
Qed.

Lemma sent_pinv s m ok : pinv s -> pinv (bus_step s (Sent m ok)).
Proof.
  intro I. pose proof I as (H1 & H2 & H3). cbn.
  destruct (nth_error (bs_mb s) m) as [x|] eqn:E; auto. destruct (m_req x) eqn:R; auto.
  destruct (at_inv _ _ _ E) as (p & q & Emb & ->).
  assert (E1 : firstn (length p) (bs_mb s) = p)
    by (rewrite Emb, firstn_app, Nat.sub_diag, firstn_all; cbn; now rewrite app_nil_r).
  assert (E2 : skipn (S (length p)) (bs_mb s) = q).
  { rewrite Emb. replace (S (length p)) with (length (p ++ [x])) by (rewrite app_length; cbn; lia).
    replace (p ++ x :: q) with ((p ++ [x]) ++ q) by (rewrite <- app_assoc; reflexivity).
    rewrite skipn_app, skipn_all, Nat.sub_diag. reflexivity. }
  cbn [skipn] in E2. rewrite E1, E2.
  assert (X4 : parts 4 x) by (apply H1; auto; rewrite Emb; apply in_elt).
  assert (MB : forall y, In y (p ++ put_free x :: q) -> m_req y = true -> parts 4 y).
  { intros y Iy Ry. apply in_app_or in Iy. destruct Iy as [Iy|[<-|Iy]]; [|discriminate|];
      apply H1; auto; rewrite Emb; apply in_or_app; cbn; auto. }
  assert (HS : forall k n, has (bs_mb s) k n -> has (p ++ put_free x :: q) k n).
  { intros k n Hk y Ey. rewrite Emb in Hk.
    destruct (Nat.eq_dec k (length p)) as [->|NE].
    - rewrite nth_at in Ey. injection Ey as <-. specialize (Hk x (nth_at p x q)). exact Hk.
    - apply Hk. destruct (Nat.lt_ge_cases k (length p)).
      + rewrite nth_error_app1 in * by auto. exact Ey.
      + rewrite nth_error_app2 in * by auto. destruct (k - length p)%nat eqn:Z; [lia|exact Ey]. }
  assert (SP : forall i, stage_parts (p ++ put_free x :: q) i (bs_at s i)).
  { intro i. specialize (H2 i). destruct (bs_at s i); cbn in *; intuition. }
  destruct ok; split; auto; split; auto. cbn [bs_bus].
  intros g Ig. apply in_app_or in Ig. destruct Ig as [Ig|[<-|[]]]; auto. now apply parts_out.
Qed.

Lemma run_pinv sch : (forall i f, In (Begin i f) sch -> A i f) ->
  forall s, pinv s -> pinv (fold_left bus_step sch s).
Proof.
  induction sch as [|e sch IH]; intros Hs s I; auto. cbn [fold_left]. apply IH.
  - intros. apply Hs. now right.
  - destruct e as [i f|i|m ok].
    + assert (Ha : A i f) by (apply Hs; now left). cbn. destruct (bs_at s i); auto.
      pose proof (move_pinv s i (AtLevel f) I Ha) as M.
      destruct (locker i); auto. destruct (bs_holder s); auto.
    + apply go_pinv; auto.
    + apply sent_pinv; auto.
Qed.
End Parts.

(** ** The mutex, whatever the other tasks do *)
Definition hold_inv (s : busys) : Prop :=
  forall i, locker i = true -> bs_at s i <> Out -> bs_holder s = Some i.

Lemma hold_move s i a : hold_inv s -> bs_at s i <> Out -> hold_inv (move s i a).
Proof.
  intros H N j L. cbn [move bs_at bs_holder]. destruct (Nat.eqb_spec j i) as [->|]; intros K; auto.
Qed.
Lemma hold_leave s i ok : hold_inv s -> bs_at s i <> Out -> hold_inv (leave s i ok).
Proof.
  intros H N j L. cbn [leave bs_at bs_holder]. destruct (Nat.eqb_spec j i) as [->|D]; intros K; [congruence|].
  pose proof (H j L K) as Hj. destruct (locker i) eqn:Li; [|exact Hj]. pose proof (H i Li N) as Hi. congruence.
Qed.
Lemma hold_step s e : hold_inv s -> hold_inv (bus_step s e).
Proof.
  intros H. destruct e as [i f|i|m ok]; cbn [bus_step].
  - destruct (bs_at s i) eqn:E; try exact H. destruct (locker i) eqn:L.
    + destruct (bs_holder s) eqn:Ho; [exact H|]. intros j Lj. cbn. destruct (Nat.eqb_spec j i) as [->|D]; [reflexivity|].
      intros K. specialize (H j Lj K). congruence.
    + intros j Lj. cbn. destruct (Nat.eqb_spec j i) as [->|D]; [congruence|]. now apply H.
  - unfold bus_go. destruct (bs_at s i) as [|f|f|f m|f m|f m|f m|f m|f m v|f] eqn:E; [exact H|..];
      assert (N : bs_at s i <> Out) by congruence.
    + destruct (first_free _ _); now apply hold_move.
    + destruct (first_free _ _); [now apply hold_move|now apply hold_leave].
    + apply hold_move; assumption.
    + apply hold_move; assumption.
    + apply hold_move; assumption.
    + apply hold_move; assumption.
    + destruct (nth_error _ _); [now apply hold_move|exact H].
    + apply hold_leave; assumption.
    + destruct (_ <? _)%nat; apply hold_leave; assumption.
  - destruct (nth_error _ _) as [x|]; [|exact H]. destruct (m_req x); [|exact H]. destruct ok; exact H.
Qed.
Lemma hold_run sch : hold_inv (bus_run sch).
Proof.
  unfold bus_run. assert (G : forall s, hold_inv s -> hold_inv (fold_left bus_step sch s)).
  { induction sch as [|e sch IH]; intros s H; [exact H|]. cbn [fold_left]. apply IH, hold_step, H. }
  apply G. intros i _ H. now elim H.
Qed.
