From Coq Require Import ZifyBool ZifyNat.
From Verif.Base Require Import Mem.

Lemma rd_mid : forall A (a : list A) x b i, i = Z.of_nat (length a) -> rd (a ++ x :: b) i = Some x.
Proof.
  intros A a x b i ->. unfold rd, get.
  destruct (Z.ltb_spec (Z.of_nat (length a)) (Z.of_nat (length (a ++ x :: b))));
    [|rewrite app_length in *; simpl length in *; lia].
  destruct (Z.ltb_spec (Z.of_nat (length a)) 0); [lia|].
  rewrite Nat2Z.id, nth_error_app2, Nat.sub_diag by lia. reflexivity.
Qed.

Lemma rd_some : forall A (l : list A) i, 0 <= i < Z.of_nat (length l) -> exists x, rd l i = Some x.
Proof.
  intros A l i H. unfold rd, get.
  destruct (Z.ltb_spec i (Z.of_nat (length l))); [|lia]. destruct (Z.ltb_spec i 0); [lia|].
  destruct (nth_error l (Z.to_nat i)) eqn:E; eauto. apply nth_error_None in E. lia.
Qed.

Lemma rd_nth : forall A (l : list A) i d, 0 <= i < Z.of_nat (length l) ->
  rd l i = Some (nth (Z.to_nat i) l d).
Proof.
  intros A l i d H. unfold rd, get.
  destruct (Z.ltb_spec i (Z.of_nat (length l))); [|lia]. destruct (Z.ltb_spec i 0); [lia|].
  apply nth_error_nth'. lia.
Qed.

Lemma rd_block_mid : forall A (a x b : list A) i n,
  i = Z.of_nat (length a) -> n = Z.of_nat (length x) -> rd_block (a ++ x ++ b) i n = Some x.
Proof.
  intros A a x b i n -> ->. unfold rd_block. rewrite !app_length.
  destruct (Z.leb_spec 0 (Z.of_nat (length a))); [|lia].
  destruct (Z.leb_spec 0 (Z.of_nat (length x))); [|lia].
  destruct (Z.leb_spec (Z.of_nat (length a) + Z.of_nat (length x))
              (Z.of_nat (length a + (length x + length b)))); [|lia].
  simpl. rewrite !Nat2Z.id, skipn_app, skipn_all2, Nat.sub_diag by lia. simpl.
  rewrite firstn_app, Nat.sub_diag, firstn_all. simpl. now rewrite app_nil_r.
Qed.

Lemma wr_block_mid : forall A (a x y b : list A) i,
  i = Z.of_nat (length a) -> length x = length y -> wr_block (a ++ x ++ b) i y = Some (a ++ y ++ b).
Proof.
  intros A a x y b i -> E. unfold wr_block. rewrite !app_length.
  destruct (Z.leb_spec 0 (Z.of_nat (length a))); [|lia].
  destruct (Z.leb_spec (Z.of_nat (length a) + Z.of_nat (length y))
              (Z.of_nat (length a + (length x + length b)))); [|lia].
  simpl. f_equal. rewrite !Nat2Z.id, firstn_app, Nat.sub_diag, firstn_all. simpl. rewrite app_nil_r.
  f_equal. f_equal. rewrite <- E, app_assoc. rewrite skipn_app, skipn_all2 by (rewrite app_length; lia).
  rewrite app_length, Nat.sub_diag. reflexivity.
Qed.

Lemma upd_mid : forall A (a : list A) x y b, upd (a ++ x :: b) (length a) y = a ++ y :: b.
Proof. induction a; intros; simpl; [reflexivity|now rewrite IHa]. Qed.

Lemma wr_mid : forall A (a : list A) x y b i, i = Z.of_nat (length a) ->
  wr (a ++ x :: b) i y = Some (a ++ y :: b).
Proof.
  intros A a x y b i ->. unfold wr. rewrite app_length. simpl length.
  destruct (Z.leb_spec 0 (Z.of_nat (length a))); [|lia].
  destruct (Z.ltb_spec (Z.of_nat (length a)) (Z.of_nat (length a + S (length b)))); [|lia].
  simpl. now rewrite Nat2Z.id, upd_mid.
Qed.

Lemma upd_length : forall A (l : list A) i x, length (upd l i x) = length l.
Proof. induction l; intros [|i] x; simpl; auto. Qed.

Lemma wr_length : forall A (l l' : list A) i x, wr l i x = Some l' -> length l' = length l.
Proof.
  intros A l l' i x. unfold wr. destruct (_ && _); [|discriminate]. intros [= <-]. apply upd_length.
Qed.

Lemma split_at : forall A n (l : list A), (n <= length l)%nat ->
  exists a b, l = a ++ b /\ length a = n.
Proof.
  intros A n l H. exists (firstn n l), (skipn n l). split; [now rewrite firstn_skipn|].
  rewrite firstn_length. lia.
Qed.

Lemma firstn_exact : forall A (a b : list A) n, length a = n -> firstn n (a ++ b) = a.
Proof. intros A a b n <-. rewrite firstn_app, firstn_all, Nat.sub_diag. simpl. apply app_nil_r. Qed.
Lemma skipn_exact : forall A (a b : list A) n, length a = n -> skipn n (a ++ b) = b.
Proof. intros A a b n <-. rewrite skipn_app, skipn_all, Nat.sub_diag. reflexivity. Qed.

Lemma nth_app_r : forall A (a b : list A) d i, nth (length a + i) (a ++ b) d = nth i b d.
Proof. intros. rewrite app_nth2 by lia. f_equal. lia. Qed.

(** Accesses that stay inside the first part of an array. *)
Lemma upd_app_l : forall A (l t : list A) i x, (i < length l)%nat -> upd (l ++ t) i x = upd l i x ++ t.
Proof.
  induction l as [|y l IH]; intros t i x H; [simpl in H; lia|]. destruct i; [reflexivity|].
  simpl in *. rewrite IH by lia. reflexivity.
Qed.
Lemma wr_app_l : forall A (l t l' : list A) i x, wr l i x = Some l' -> wr (l ++ t) i x = Some (l' ++ t).
Proof.
  intros A l t l' i x. unfold wr. rewrite app_length.
  destruct (Z.leb_spec 0 i); [|discriminate]. destruct (Z.ltb_spec i (Z.of_nat (length l))); [|discriminate].
  destruct (Z.ltb_spec i (Z.of_nat (length l + length t))); [|lia]. cbn [andb]. intros [= <-].
  rewrite upd_app_l by lia. reflexivity.
Qed.
Lemma wr_block_app_l : forall A (l t l' : list A) i xs,
  wr_block l i xs = Some l' -> wr_block (l ++ t) i xs = Some (l' ++ t).
Proof.
  intros A l t l' i xs. unfold wr_block. rewrite app_length.
  destruct (Z.leb_spec 0 i); [|discriminate].
  destruct (Z.leb_spec (i + Z.of_nat (length xs)) (Z.of_nat (length l))); [|discriminate].
  destruct (Z.leb_spec (i + Z.of_nat (length xs)) (Z.of_nat (length l + length t))); [|lia].
  cbn [andb]. intros [= <-]. rewrite firstn_app, skipn_app.
  replace (Z.to_nat i - length l)%nat with 0%nat by lia.
  replace (Z.to_nat i + length xs - length l)%nat with 0%nat by lia.
  cbn [firstn skipn]. rewrite app_nil_r, <- !app_assoc. reflexivity.
Qed.
Lemma rd_block_app_l : forall A (l t r : list A) i n,
  rd_block l i n = Some r -> rd_block (l ++ t) i n = Some r.
Proof.
  intros A l t r i n. unfold rd_block. rewrite app_length.
  destruct (Z.leb_spec 0 i); [|discriminate]. destruct (Z.leb_spec 0 n); [|discriminate].
  destruct (Z.leb_spec (i + n) (Z.of_nat (length l))); [|discriminate].
  destruct (Z.leb_spec (i + n) (Z.of_nat (length l + length t))); [|lia].
  cbn [andb]. intros [= <-]. rewrite skipn_app, firstn_app, skipn_length.
  replace (Z.to_nat n - (length l - Z.to_nat i))%nat with 0%nat by lia.
  cbn [firstn]. now rewrite app_nil_r.
Qed.
Lemma wr_block_length : forall A (l l' : list A) i xs, wr_block l i xs = Some l' -> length l' = length l.
Proof.
  intros A l l' i xs. unfold wr_block.
  destruct (Z.leb_spec 0 i); [|discriminate].
  destruct (Z.leb_spec (i + Z.of_nat (length xs)) (Z.of_nat (length l))); [|discriminate].
  cbn [andb]. intros [= <-]. rewrite !app_length, firstn_length, skipn_length. lia.
Qed.
