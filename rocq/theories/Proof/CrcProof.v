(** The CRC register is linear over GF(2); bursts up to its width are detected. *)
From Coq Require Import ZifyBool ZifyNat.
From Verif.Model Require Import Crc.
From Verif.Proof Require Import BitFacts.
Ltac Zify.zify_post_hook ::= Z.div_mod_to_equations.

Definition feed (r : Z) (bits : list bool) : Z := fold_left crc_step bits r.
Fixpoint xor_bits (a b : list bool) : list bool :=
  match a, b with
  | x :: a', y :: b' => xorb x y :: xor_bits a' b'
  | _, _ => []
  end.
Definition zeros (n : nat) : list bool := repeat false n.

Lemma mod32_land : forall z, z mod 2 ^ 32 = Z.land z (Z.ones 32).
Proof. intros. now rewrite Z.land_ones by lia. Qed.

Lemma step_linear : forall r r' b b',
  crc_step (Z.lxor r r') (xorb b b') = Z.lxor (crc_step r b) (crc_step r' b').
Proof.
  intros. unfold crc_step. rewrite !mod32_land. rewrite Z.lxor_spec.
  assert (P : (if xorb (xorb (Z.testbit r 31) (Z.testbit r' 31)) (xorb b b') then CRC_POLY else 0)
    = Z.lxor (if xorb (Z.testbit r 31) b then CRC_POLY else 0)
             (if xorb (Z.testbit r' 31) b' then CRC_POLY else 0)).
  { destruct (Z.testbit r 31), (Z.testbit r' 31), b, b'; reflexivity. }
  rewrite P. apply Z.bits_inj'. intros n Hn.
  rewrite !Z.lxor_spec, !Z.land_spec.
  assert (T : Z.testbit (2 * Z.lxor r r') n = xorb (Z.testbit (2 * r) n) (Z.testbit (2 * r') n)).
  { destruct (Z.eq_dec n 0) as [->|N]; [now rewrite !Z.testbit_even_0|].
    replace n with (Z.succ (n - 1)) by lia. rewrite !Z.testbit_even_succ by lia. apply Z.lxor_spec. }
  rewrite T. destruct (Z.testbit (2 * r) n), (Z.testbit (2 * r') n), (Z.testbit (Z.ones 32) n),
    (Z.testbit (if xorb (Z.testbit r 31) b then CRC_POLY else 0) n),
    (Z.testbit (if xorb (Z.testbit r' 31) b' then CRC_POLY else 0) n); reflexivity.
Qed.

Lemma feed_linear : forall a b r r', length a = length b ->
  feed (Z.lxor r r') (xor_bits a b) = Z.lxor (feed r a) (feed r' b).
Proof.
  induction a as [|x a IH]; intros [|y b] r r' H; try discriminate; [reflexivity|].
  simpl. unfold feed in *. simpl. rewrite step_linear. apply IH. simpl in H. lia.
Qed.

Lemma xor_zeros : forall a, xor_bits a (zeros (length a)) = a.
Proof. induction a as [|x a IH]; [reflexivity|]. simpl. f_equal; [now destruct x|exact IH]. Qed.
Lemma zeros_xor : forall a, xor_bits (zeros (length a)) a = a.
Proof. induction a as [|x a IH]; [reflexivity|]. simpl. f_equal; [now destruct x|exact IH]. Qed.
Lemma xor_app : forall a b c d, length a = length b ->
  xor_bits (a ++ c) (b ++ d) = xor_bits a b ++ xor_bits c d.
Proof.
  induction a as [|x a IH]; intros [|y b] c d H; try discriminate; [reflexivity|].
  simpl. f_equal. apply IH. simpl in H. lia.
Qed.
Lemma xor_length : forall a b, length a = length b -> length (xor_bits a b) = length a.
Proof.
  induction a as [|x a IH]; intros [|y b] H; try discriminate; [reflexivity|]. simpl. f_equal. apply IH.
  simpl in H. lia.
Qed.

Lemma feed_xor : forall r a e, length a = length e ->
  feed r (xor_bits a e) = Z.lxor (feed r a) (feed 0 e).
Proof. intros. rewrite <- (Z.lxor_0_r r) at 1. now apply feed_linear. Qed.

Lemma feed_split : forall r a, feed r a = Z.lxor (feed r (zeros (length a))) (feed 0 a).
Proof.
  intros. rewrite <- feed_xor by (unfold zeros; now rewrite repeat_length). now rewrite zeros_xor.
Qed.

Lemma feed_app : forall r a b, feed r (a ++ b) = feed (feed r a) b.
Proof. intros. apply fold_left_app. Qed.

Lemma step_0 : crc_step 0 false = 0. Proof. reflexivity. Qed.
Lemma feed_zeros_0 : forall n, feed 0 (zeros n) = 0.
Proof. induction n; [reflexivity|]. unfold feed, zeros in *. simpl. exact IHn. Qed.

Lemma feed_zeros_lxor : forall n r r',
  feed (Z.lxor r r') (zeros n) = Z.lxor (feed r (zeros n)) (feed r' (zeros n)).
Proof.
  intros. rewrite <- feed_linear by reflexivity. f_equal.
  pose proof (xor_zeros (zeros n)) as H. unfold zeros in *. rewrite repeat_length in H. now rewrite H.
Qed.

Definition word (r : Z) : Prop := 0 <= r < 2 ^ 32.

Lemma lxor_word : forall a b, word a -> word b -> word (Z.lxor a b).
Proof.
  unfold word. intros a b A B. split; [apply Z.lxor_nonneg; lia|].
  destruct (Z.eq_dec (Z.lxor a b) 0) as [->|N]; [lia|].
  assert (0 <= Z.lxor a b) by (apply Z.lxor_nonneg; lia).
  apply Z.log2_lt_cancel. rewrite Z.log2_pow2 by lia.
  apply Z.le_lt_trans with (Z.max (Z.log2 a) (Z.log2 b)); [apply Z.log2_lxor; lia|].
  apply Z.max_lub_lt.
  - destruct (Z.eq_dec a 0) as [->|]; [reflexivity|]. apply Z.log2_lt_pow2; lia.
  - destruct (Z.eq_dec b 0) as [->|]; [reflexivity|]. apply Z.log2_lt_pow2; lia.
Qed.

Lemma step_word : forall r b, word (crc_step r b).
Proof.
  intros. unfold crc_step. apply lxor_word.
  - unfold word. apply Z.mod_pos_bound. lia.
  - unfold word, CRC_POLY. destruct (xorb _ _); lia.
Qed.

Lemma feed_word : forall bits r, word r -> word (feed r bits).
Proof. induction bits as [|b bits IH]; intros r H; [exact H|]. apply IH, step_word. Qed.

Lemma testbit31 : forall r, word r -> Z.testbit r 31 = (2 ^ 31 <=? r).
Proof.
  unfold word. intros r H. rewrite Z.testbit_odd, Z.shiftr_div_pow2 by lia.
  change (2 ^ 32) with 4294967296 in H. change (2 ^ 31) with 2147483648.
  destruct (Z.leb_spec 2147483648 r).
  - replace (r / 2147483648) with 1 by lia. reflexivity.
  - replace (r / 2147483648) with 0 by lia. reflexivity.
Qed.

(** A zero input bit never clears a non-zero register. *)
Lemma step0_nonzero : forall r, word r -> r <> 0 -> crc_step r false <> 0.
Proof.
  intros r W N. unfold crc_step. rewrite testbit31 by exact W. rewrite xorb_false_r.
  unfold word in W. change (2 ^ 32) with 4294967296 in *. change (2 ^ 31) with 2147483648.
  destruct (Z.leb_spec 2147483648 r).
  - intros E. apply Z.lxor_eq in E. unfold CRC_POLY in E. lia.
  - rewrite Z.lxor_0_r. lia.
Qed.

Lemma feed_zeros_nonzero : forall n r, word r -> r <> 0 -> feed r (zeros n) <> 0.
Proof.
  induction n as [|n IH]; intros r W N; [exact N|]. unfold feed, zeros. simpl.
  apply (IH (crc_step r false)); [apply step_word|now apply step0_nonzero].
Qed.

Fixpoint bits_val (bs : list bool) : Z :=
  match bs with [] => 0 | b :: t => b2z b * 2 ^ Z.of_nat (length t) + bits_val t end.

Lemma bits_val_range : forall bs, 0 <= bits_val bs < 2 ^ Z.of_nat (length bs).
Proof.
  induction bs as [|b bs IH]; [simpl; lia|]. simpl length. simpl bits_val.
  rewrite Nat2Z.inj_succ, Z.pow_succ_r by lia. destruct b; simpl b2z; lia.
Qed.

Lemma bits_val_nonzero : forall bs, In true bs -> bits_val bs <> 0.
Proof.
  induction bs as [|b bs IH]; intros H; [easy|]. simpl.
  generalize (bits_val_range bs). assert (0 < 2 ^ Z.of_nat (length bs)) by (apply Z.pow_pos_nonneg; lia).
  destruct H as [->|H]; [simpl b2z; lia|]. specialize (IH H). destruct b; simpl b2z; lia.
Qed.

Lemma step_top : forall b, crc_step 0 b = crc_step (b2z b * 2 ^ 31) false.
Proof. intros []; reflexivity. Qed.

(** Feeding up to 32 bits into a cleared register is feeding as many zeros into
    the register preset with them. *)
Lemma feed_preset : forall bs, (length bs <= 32)%nat ->
  feed 0 bs = feed (bits_val bs * 2 ^ (32 - Z.of_nat (length bs))) (zeros (length bs)).
Proof.
  induction bs as [|b bs IH]; intros H; [reflexivity|].
  simpl length in *. set (k := length bs) in *.
  assert (R : 0 <= bits_val bs < 2 ^ Z.of_nat k) by apply bits_val_range.
  set (e := 32 - Z.of_nat (S k)). assert (He : 0 <= e) by lia.
  change (feed 0 (b :: bs)) with (feed (crc_step 0 b) bs).
  rewrite feed_split. fold k. rewrite IH by lia. rewrite <- feed_zeros_lxor.
  change (zeros (S k)) with (false :: zeros k).
  change (feed (bits_val (b :: bs) * 2 ^ e) (false :: zeros k))
    with (feed (crc_step (bits_val (b :: bs) * 2 ^ e) false) (zeros k)).
  f_equal. rewrite step_top.
  assert (P31 : 2 ^ Z.of_nat k * 2 ^ e = 2 ^ 31).
  { rewrite <- Z.pow_add_r by lia. f_equal. lia. }
  assert (PE : 2 ^ (32 - Z.of_nat k) = 2 * 2 ^ e).
  { rewrite <- Z.pow_succ_r by lia. f_equal. lia. }
  set (x := bits_val bs * 2 ^ e).
  assert (Hx : 0 <= x < 2 ^ 31).
  { unfold x. split; [apply Z.mul_nonneg_nonneg; [lia|apply Z.pow_nonneg; lia]|].
    rewrite <- P31. apply Z.mul_lt_mono_pos_r; [apply Z.pow_pos_nonneg; lia|lia]. }
  assert (V : bits_val (b :: bs) * 2 ^ e = Z.lxor (b2z b * 2 ^ 31) x).
  { simpl bits_val. fold k. rewrite Z.mul_add_distr_r. fold x.
    rewrite <- Z.mul_assoc, P31. rewrite Z.add_comm, <- lor_disjoint by lia.
    rewrite Z.lxor_comm. symmetry. apply Z.lxor_lor.
    apply Z.bits_inj'. intros n Hn. rewrite Z.land_spec, Z.bits_0.
    destruct (Z_lt_le_dec n 31).
    - rewrite Z.mul_pow2_bits_low by lia. apply andb_false_r.
    - rewrite (testbit_small x 31 n) by lia. reflexivity. }
  rewrite V. change false with (xorb false false) at 2. rewrite step_linear. f_equal.
  unfold crc_step at 1. rewrite testbit31 by (unfold word; change (2 ^ 31) with 2147483648 in Hx; lia).
  destruct (Z.leb_spec (2 ^ 31) x); [lia|]. simpl xorb. cbv iota. rewrite Z.lxor_0_r.
  rewrite Z.mod_small by (change (2 ^ 31) with 2147483648 in Hx; lia). rewrite PE. unfold x. lia.
Qed.

Lemma burst_nonzero : forall a bs c, (length bs <= 32)%nat -> In true bs ->
  feed 0 (zeros a ++ bs ++ zeros c) <> 0.
Proof.
  intros a bs c L H. rewrite !feed_app, feed_zeros_0.
  apply feed_zeros_nonzero; [apply feed_word; unfold word; lia|].
  rewrite feed_preset by exact L.
  assert (R := bits_val_range bs). assert (N := bits_val_nonzero bs H).
  assert (P : 2 ^ Z.of_nat (length bs) * 2 ^ (32 - Z.of_nat (length bs)) = 2 ^ 32).
  { rewrite <- Z.pow_add_r by lia. f_equal. lia. }
  assert (0 < 2 ^ (32 - Z.of_nat (length bs))) by (apply Z.pow_pos_nonneg; lia).
  apply feed_zeros_nonzero.
  - unfold word. split; [lia|]. rewrite <- P. apply Z.mul_lt_mono_pos_r; lia.
  - lia.
Qed.

(** Two isolated bits: the second can cancel the first only if the register
    holds exactly 2^31 at that time. *)
Lemma step_true_zero : forall r, word r -> r <> 2 ^ 31 -> crc_step r true <> 0.
Proof.
  intros r W N. unfold crc_step. rewrite testbit31 by exact W.
  unfold word in W. change (2 ^ 32) with 4294967296 in *. change (2 ^ 31) with 2147483648 in *.
  destruct (Z.leb_spec 2147483648 r).
  - simpl xorb. cbv iota. rewrite Z.lxor_0_r. lia.
  - simpl xorb. cbv iota. intros E. apply Z.lxor_eq in E. unfold CRC_POLY in E. lia.
Qed.

Fixpoint never_top (n : nat) (r : Z) : bool :=
  match n with O => true | S k => negb (r =? 2 ^ 31) && never_top k (crc_step r false) end.

Lemma never_top_at : forall n r k, never_top n r = true -> (k < n)%nat -> feed r (zeros k) <> 2 ^ 31.
Proof.
  induction n as [|n IH]; intros r k H K; [lia|]. simpl in H. apply andb_prop in H. destruct H as [H1 H2].
  destruct k as [|k].
  - simpl. intros E. change (feed r (zeros 0)) with r in E. rewrite E in H1. discriminate.
  - apply (IH (crc_step r false) k H2). lia.
Qed.

Lemma never_top_2048 : never_top (Z.to_nat 2048) CRC_POLY = true.
Proof. vm_compute. reflexivity. Qed.

Lemma two_bits_nonzero : forall a d c, (d < Z.to_nat 2048)%nat ->
  feed 0 (zeros a ++ [true] ++ zeros d ++ [true] ++ zeros c) <> 0.
Proof.
  intros a d c H. rewrite !feed_app, feed_zeros_0.
  apply feed_zeros_nonzero; [apply feed_word; apply feed_word; apply feed_word; unfold word; lia|].
  change (feed 0 [true]) with CRC_POLY.
  change (feed (feed CRC_POLY (zeros d)) [true]) with (crc_step (feed CRC_POLY (zeros d)) true).
  apply step_true_zero; [apply feed_word; unfold word, CRC_POLY; lia|].
  apply never_top_at with (Z.to_nat 2048); [exact never_top_2048|exact H].
Qed.

Lemma hal_word : forall l, word (HAL_CRC_Calculate l).
Proof. intros. apply feed_word. unfold word, CRC_INIT. lia. Qed.

Lemma hal_feed : forall l, HAL_CRC_Calculate l = feed CRC_INIT (flat_map byte_bits l).
Proof. reflexivity. Qed.

Lemma byte_bits_length : forall l, length (flat_map byte_bits l) = (8 * length l)%nat.
Proof. induction l as [|b l IH]; [reflexivity|]. 
  change (flat_map byte_bits (b :: l)) with (byte_bits b ++ flat_map byte_bits l).
  rewrite app_length, IH. simpl. lia. Qed.

(** Changing the bits of a part of the input by an error pattern that the
    register does not swallow changes the CRC. *)
Lemma crc_differs : forall h h' t e,
  length h' = length h -> length e = (8 * length h)%nat ->
  flat_map byte_bits h' = xor_bits (flat_map byte_bits h) e ->
  feed 0 e <> 0 ->
  HAL_CRC_Calculate (h' ++ t) <> HAL_CRC_Calculate (h ++ t).
Proof.
  intros h h' t e L Le B N. rewrite !hal_feed, !flat_map_app, B.
  assert (X : xor_bits (flat_map byte_bits h) e ++ flat_map byte_bits t
    = xor_bits (flat_map byte_bits h ++ flat_map byte_bits t) (e ++ zeros (length (flat_map byte_bits t)))).
  { rewrite xor_app by (rewrite byte_bits_length; lia). now rewrite xor_zeros. }
  rewrite X, feed_xor by (rewrite !app_length, byte_bits_length; unfold zeros; rewrite repeat_length; lia).
  intros E. apply (f_equal (Z.lxor (feed CRC_INIT (flat_map byte_bits h ++ flat_map byte_bits t)))) in E.
  rewrite <- Z.lxor_assoc, Z.lxor_nilpotent, Z.lxor_0_l in E.
  rewrite feed_app in E.
  apply (feed_zeros_nonzero (length (flat_map byte_bits t)) (feed 0 e)) in E; auto.
  apply feed_word. unfold word. lia.
Qed.
