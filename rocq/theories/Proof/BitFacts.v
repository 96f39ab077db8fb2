(** Bit operations used by the drivers, as arithmetic. *)
From Coq Require Import ZifyBool.
From Verif.Base Require Import Words.
Ltac Zify.zify_post_hook ::= Z.div_mod_to_equations.

Lemma testbit_small : forall a k n, 0 <= a < 2 ^ k -> k <= n -> Z.testbit a n = false.
Proof.
  intros a k n [A B] L. destruct (Z.eq_dec a 0) as [->|N]; [apply Z.bits_0|].
  destruct (Z_lt_le_dec k 0) as [K|K]; [rewrite Z.pow_neg_r in B by lia; lia|].
  apply Z.bits_above_log2; [lia|]. apply Z.lt_le_trans with k; [|lia].
  apply Z.log2_lt_pow2; lia.
Qed.

Lemma lor_disjoint : forall a b k, 0 <= k -> 0 <= a < 2 ^ k -> Z.lor a (b * 2 ^ k) = a + b * 2 ^ k.
Proof.
  intros a b k Hk Ha.
  assert (L : Z.land a (b * 2 ^ k) = 0).
  { apply Z.bits_inj'. intros n Hn. rewrite Z.land_spec, Z.bits_0.
    destruct (Z_lt_le_dec n k).
    - rewrite Z.mul_pow2_bits_low by lia. apply andb_false_r.
    - now rewrite (testbit_small a k n) by lia. }
  rewrite Z.add_nocarry_lxor by assumption. symmetry. now apply Z.lxor_lor.
Qed.

Lemma nth_byte : forall d i, Forall is_byte d -> is_byte (nth i d 0).
Proof.
  intros d i H. destruct (Nat.lt_ge_cases i (length d)).
  - rewrite Forall_forall in H. apply H, nth_In. assumption.
  - rewrite nth_overflow by assumption. unfold is_byte. lia.
Qed.
