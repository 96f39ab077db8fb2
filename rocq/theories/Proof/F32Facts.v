(** Truncation and comparison of binary32 data as real-number facts. *)
From Coq Require Import Reals Psatz.
From Coq Require Import Floats.SpecFloat.
From Flocq Require Import Core.
From Verif.Base Require Import Words F32 F32Real.
Open Scope R_scope.

Lemma f_trunc_R : forall x, f_isfin x = true -> f_trunc x = Some (Ztrunc (FR x)).
Proof.
  intros [s|s| |s m e] H; try discriminate; unfold FR; simpl.
  - now rewrite Ztrunc_IZR.
  - assert (P : 0 <= F2R (Float radix2 (Zpos m) e)) by (apply F2R_ge_0; simpl; lia).
    assert (T : Ztrunc (F2R (Float radix2 (Zpos m) e)) =
                if (0 <=? e)%Z then (Zpos m * 2 ^ e)%Z else (Zpos m / 2 ^ (- e))%Z).
    { destruct (Z.leb_spec 0 e) as [L|L].
      - unfold F2R. simpl Fnum. simpl Fexp. rewrite <- IZR_Zpower by assumption.
        rewrite <- mult_IZR. now rewrite Ztrunc_IZR.
      - rewrite Ztrunc_floor by assumption. unfold F2R. simpl Fnum. simpl Fexp.
        replace e with (- (- e))%Z at 1 by lia. rewrite bpow_opp.
        rewrite <- IZR_Zpower by lia. apply Zfloor_div.
        change (Z.pow_pos 2 1) with 2%Z. generalize (Z.pow_pos_nonneg 2 (- e)). simpl. lia. }
    f_equal. destruct s.
    + replace (F2R (Float radix2 (cond_Zopp true (Zpos m)) e))
        with (- F2R (Float radix2 (Zpos m) e)) by (rewrite <- F2R_Zopp; reflexivity).
      rewrite Ztrunc_opp, T. now destruct (0 <=? e)%Z.
    + simpl cond_Zopp. rewrite T. now destruct (0 <=? e)%Z.
Qed.

Lemma FR_zero : FR f_zero = 0. Proof. reflexivity. Qed.
Lemma fin_zero : fin f_zero. Proof. split; reflexivity. Qed.

Lemma fin_dec_true : forall x, f_ok x && f_isfin x = true -> fin x.
Proof. intros x H. apply andb_prop in H. exact H. Qed.

(** Real value of a closed datum, by computation. *)
Lemma FR_finite : forall s m e,
  FR (S754_finite s m e) = IZR (if s then Zneg m else Zpos m) * bpow radix2 e.
Proof. intros [|] m e; reflexivity. Qed.

Lemma bpow_neg_val : forall k : positive, bpow radix2 (Zneg k) = / IZR (2 ^ Zpos k).
Proof. intros k. reflexivity. Qed.
