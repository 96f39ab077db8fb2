(** The real-number meaning of the binary32 model, through Flocq. The lemmas up
    to [SFdiv_B] repeat the proofs of Flocq.IEEE754.PrimFloat for binary32. *)
From Coq Require Import ZArith Reals Psatz Lia.
From Coq Require Import Floats.SpecFloat.
From Flocq Require Import Core BinarySingleNaN Relative Sterbenz Operations.
From Verif.Base Require Import F32.

Definition hprec : Prec_gt_0 24 := eq_refl.
Definition hmax : Prec_lt_emax 24 128 := eq_refl.
Global Existing Instance hprec.
Global Existing Instance hmax.

Definition b32 := binary_float 24 128.

Lemma round_nearest_even_eq s m l : round_nearest_even m l = choice_mode mode_NE s m l.
Proof.
  case l; [reflexivity|intro c]. case c; [|reflexivity..].
  now simpl; unfold Round.cond_incr; case Z.even.
Qed.

Lemma binary_round_aux_eq sx mx ex lx :
  SpecFloat.binary_round_aux 24 128 sx mx ex lx
  = BinarySingleNaN.binary_round_aux 24 128 mode_NE sx mx ex lx.
Proof.
  unfold SpecFloat.binary_round_aux, BinarySingleNaN.binary_round_aux.
  set (mrse' := shr_fexp _ _ _ _ _). case mrse'; intros mrs' e'; simpl.
  now rewrite (round_nearest_even_eq sx).
Qed.

Lemma binary_round_eq s m e :
  SpecFloat.binary_round 24 128 s m e = BinarySingleNaN.binary_round 24 128 mode_NE s m e.
Proof.
  unfold SpecFloat.binary_round, BinarySingleNaN.binary_round, shl_align_fexp.
  set (mez := shl_align _ _ _); case mez as [mz ez]. apply binary_round_aux_eq.
Qed.

Lemma binary_normalize_eq m e szero :
  SpecFloat.binary_normalize 24 128 m e szero
  = B2SF (BinarySingleNaN.binary_normalize 24 128 hprec hmax mode_NE m e szero).
Proof.
  case m as [|p|p]; [now simpl|..]; simpl; rewrite B2SF_SF2B; apply binary_round_eq.
Qed.

Lemma SFmul_B (x y : b32) : SFmul 24 128 (B2SF x) (B2SF y) = B2SF (Bmult mode_NE x y).
Proof.
  case x as [sx|sx| |sx mx ex Bx]; case y as [sy|sy| |sy my ey By]; [now trivial..|].
  simpl. rewrite B2SF_SF2B. apply binary_round_aux_eq.
Qed.

Lemma SFadd_B (x y : b32) : SFadd 24 128 (B2SF x) (B2SF y) = B2SF (Bplus mode_NE x y).
Proof.
  case x as [sx|sx| |sx mx ex Bx]; case y as [sy|sy| |sy my ey By];
    [now (trivial || simpl; case Bool.eqb)..|].
  apply binary_normalize_eq.
Qed.

Lemma SFsub_B (x y : b32) : SFsub 24 128 (B2SF x) (B2SF y) = B2SF (Bminus mode_NE x y).
Proof.
  case x as [sx|sx| |sx mx ex Bx]; case y as [sy|sy| |sy my ey By];
    [now (trivial || simpl; case Bool.eqb)..|].
  simpl. unfold Zminus. rewrite <- cond_Zopp_negb. apply binary_normalize_eq.
Qed.

Lemma SFdiv_B (x y : b32) : SFdiv 24 128 (B2SF x) (B2SF y) = B2SF (Bdiv mode_NE x y).
Proof.
  case x as [sx|sx| |sx mx ex Bx]; case y as [sy|sy| |sy my ey By];
    [now (trivial || simpl; case Bool.eqb)..|].
  simpl. rewrite B2SF_SF2B. set (melz := SFdiv_core_binary _ _ _ _ _ _).
  case melz as [[mz ez] lz]. apply binary_round_aux_eq.
Qed.

(** ** Real value and rounding *)
Open Scope R_scope.
Definition FR (x : f32) : R := SF2R radix2 x.
Definition fexp32 : Z -> Z := FLT_exp (-149) 24.
Definition rnd (r : R) : R := round radix2 fexp32 ZnearestE r.
Definition fin (x : f32) : Prop := f_ok x = true /\ f_isfin x = true.
Definition fits (r : R) : Prop := Rabs r < bpow radix2 128.

Lemma fexp_same : forall e, SpecFloat.fexp 24 128 e = fexp32 e.
Proof. reflexivity. Qed.

Global Instance fexp32_valid : Valid_exp fexp32 := FLT_exp_valid (-149) 24.
Global Instance fexp32_mono : Monotone_exp fexp32 := FLT_exp_monotone (-149) 24.

Definition toB (x : f32) (H : f_ok x = true) : b32 := SF2B x H.

Lemma toB_back : forall x H, B2SF (toB x H) = x.
Proof. intros. apply B2SF_SF2B. Qed.

Lemma toB_R : forall x H, B2R (toB x H) = FR x.
Proof. intros. apply B2R_SF2B. Qed.

Lemma toB_fin : forall x H, is_finite (toB x H) = f_isfin x.
Proof. intros. unfold toB. rewrite is_finite_SF2B. now destruct x. Qed.

Lemma fin_of_B : forall b : b32, is_finite b = true -> fin (B2SF b).
Proof.
  intros b H. split; [apply valid_binary_B2SF|]. now destruct b.
Qed.

Lemma FR_B : forall b : b32, FR (B2SF b) = B2R b.
Proof. intros. apply SF2R_B2SF. Qed.

Lemma fadd_R : forall x y, fin x -> fin y -> fits (rnd (FR x + FR y)) ->
  fin (fadd x y) /\ FR (fadd x y) = rnd (FR x + FR y).
Proof.
  intros x y [Hx Fx] [Hy Fy] Hf.
  generalize (Bplus_correct 24 128 hprec hmax mode_NE (toB x Hx) (toB y Hy)).
  rewrite !toB_fin, !toB_R. intros C. specialize (C Fx Fy).
  rewrite Rlt_bool_true in C by exact Hf. destruct C as (C1 & C2 & _).
  assert (E : fadd x y = B2SF (Bplus mode_NE (toB x Hx) (toB y Hy)))
    by (rewrite <- SFadd_B, !toB_back; reflexivity).
  rewrite E. split; [now apply fin_of_B|]. rewrite FR_B. exact C1.
Qed.

Lemma fsub_R : forall x y, fin x -> fin y -> fits (rnd (FR x - FR y)) ->
  fin (fsub x y) /\ FR (fsub x y) = rnd (FR x - FR y).
Proof.
  intros x y [Hx Fx] [Hy Fy] Hf.
  generalize (Bminus_correct 24 128 hprec hmax mode_NE (toB x Hx) (toB y Hy)).
  rewrite !toB_fin, !toB_R. intros C. specialize (C Fx Fy).
  rewrite Rlt_bool_true in C by exact Hf. destruct C as (C1 & C2 & _).
  assert (E : fsub x y = B2SF (Bminus mode_NE (toB x Hx) (toB y Hy)))
    by (rewrite <- SFsub_B, !toB_back; reflexivity).
  rewrite E. split; [now apply fin_of_B|]. rewrite FR_B. exact C1.
Qed.

Lemma fmul_R : forall x y, fin x -> fin y -> fits (rnd (FR x * FR y)) ->
  fin (fmul x y) /\ FR (fmul x y) = rnd (FR x * FR y).
Proof.
  intros x y [Hx Fx] [Hy Fy] Hf.
  generalize (Bmult_correct 24 128 hprec hmax mode_NE (toB x Hx) (toB y Hy)).
  rewrite !toB_fin, !toB_R. intros C.
  rewrite Rlt_bool_true in C by exact Hf. destruct C as (C1 & C2 & _).
  rewrite Fx, Fy in C2.
  assert (E : fmul x y = B2SF (Bmult mode_NE (toB x Hx) (toB y Hy)))
    by (rewrite <- SFmul_B, !toB_back; reflexivity).
  rewrite E. split; [now apply fin_of_B|]. rewrite FR_B. exact C1.
Qed.

Lemma fdiv_R : forall x y, fin x -> fin y -> FR y <> 0 -> fits (rnd (FR x / FR y)) ->
  fin (fdiv x y) /\ FR (fdiv x y) = rnd (FR x / FR y).
Proof.
  intros x y [Hx Fx] [Hy Fy] Hnz Hf.
  generalize (Bdiv_correct 24 128 hprec hmax mode_NE (toB x Hx) (toB y Hy)).
  rewrite !toB_fin, !toB_R. intros C. specialize (C Hnz).
  rewrite Rlt_bool_true in C by exact Hf. destruct C as (C1 & C2 & _).
  rewrite Fx in C2.
  assert (E : fdiv x y = B2SF (Bdiv mode_NE (toB x Hx) (toB y Hy)))
    by (rewrite <- SFdiv_B, !toB_back; reflexivity).
  rewrite E. split; [now apply fin_of_B|]. rewrite FR_B. exact C1.
Qed.

(** Validity is closed under all operations, also for NaN and infinities. *)
Lemma fadd_ok : forall x y, f_ok x = true -> f_ok y = true -> f_ok (fadd x y) = true.
Proof.
  intros x y Hx Hy. unfold fadd. rewrite <- (toB_back x Hx), <- (toB_back y Hy), SFadd_B.
  apply valid_binary_B2SF.
Qed.
Lemma fsub_ok : forall x y, f_ok x = true -> f_ok y = true -> f_ok (fsub x y) = true.
Proof.
  intros x y Hx Hy. unfold fsub. rewrite <- (toB_back x Hx), <- (toB_back y Hy), SFsub_B.
  apply valid_binary_B2SF.
Qed.
Lemma fmul_ok : forall x y, f_ok x = true -> f_ok y = true -> f_ok (fmul x y) = true.
Proof.
  intros x y Hx Hy. unfold fmul. rewrite <- (toB_back x Hx), <- (toB_back y Hy), SFmul_B.
  apply valid_binary_B2SF.
Qed.
Lemma fdiv_ok : forall x y, f_ok x = true -> f_ok y = true -> f_ok (fdiv x y) = true.
Proof.
  intros x y Hx Hy. unfold fdiv. rewrite <- (toB_back x Hx), <- (toB_back y Hy), SFdiv_B.
  apply valid_binary_B2SF.
Qed.

(** Comparisons of finite data. *)
Lemma flt_R : forall x y, fin x -> fin y -> flt x y = Rlt_bool (FR x) (FR y).
Proof.
  intros x y [Hx Fx] [Hy Fy].
  generalize (Bltb_correct 24 128 (toB x Hx) (toB y Hy)). rewrite !toB_fin, !toB_R.
  unfold Bltb. rewrite !toB_back. auto.
Qed.

Lemma fle_R : forall x y, fin x -> fin y -> fle x y = Rle_bool (FR x) (FR y).
Proof.
  intros x y [Hx Fx] [Hy Fy].
  generalize (Bleb_correct 24 128 (toB x Hx) (toB y Hy)). rewrite !toB_fin, !toB_R.
  unfold Bleb. rewrite !toB_back. auto.
Qed.

(** ** Rounding facts *)
Lemma rnd_le : forall a b, a <= b -> rnd a <= rnd b.
Proof. intros. now apply round_le; try typeclasses eauto. Qed.

Definition fmt (r : R) : Prop := generic_format radix2 fexp32 r.

Lemma rnd_fmt : forall r, fmt r -> rnd r = r.
Proof. intros. apply round_generic; try typeclasses eauto. exact H. Qed.

Lemma fmt_rnd : forall r, fmt (rnd r).
Proof. intros. apply generic_format_round; typeclasses eauto. Qed.

Lemma fmt_FR : forall x, fin x -> fmt (FR x).
Proof. intros x [Hx _]. rewrite <- (toB_R x Hx). apply generic_format_B2R. Qed.

Lemma fmt_0 : fmt 0.
Proof. apply generic_format_0. Qed.

Lemma rnd_0 : rnd 0 = 0.
Proof. apply rnd_fmt, fmt_0. Qed.

Lemma fmt_F2R : forall m e, (Z.abs m < 2 ^ 24)%Z -> (-149 <= e)%Z ->
  fmt (F2R (Float radix2 m e)).
Proof.
  intros m e Hm He. apply generic_format_FLT. exists (Float radix2 m e); auto.
Qed.

Lemma fmt_IZR : forall z, (Z.abs z <= 2 ^ 24)%Z -> fmt (IZR z).
Proof.
  intros z Hz. destruct (Z.eq_dec (Z.abs z) (2 ^ 24)) as [E|E].
  - assert (IZR z = F2R (Float radix2 (z / 2) 1)).
    { unfold F2R; simpl. assert (z = 2 * (z / 2))%Z.
      { apply Z_div_exact_full_2; [lia|]. destruct (Z.abs_eq_or_opp z) as [A|A].
        - rewrite A in E. now rewrite E.
        - assert (z = (-2 ^ 24))%Z by lia. now rewrite H. }
      rewrite H at 1. rewrite mult_IZR. change (IZR (Z.pow_pos 2 1)) with 2. ring. }
    rewrite H. apply fmt_F2R; [|lia].
    assert (Z.abs (z / 2) <= 2 ^ 23)%Z; [|lia].
    apply Z.abs_le. split; [apply Z.div_le_lower_bound; lia|apply Z.div_le_upper_bound; lia].
  - assert (IZR z = F2R (Float radix2 z 0)) by (unfold F2R; simpl; ring).
    rewrite H. apply fmt_F2R; lia.
Qed.

Lemma rnd_IZR : forall z, (Z.abs z <= 2 ^ 24)%Z -> rnd (IZR z) = IZR z.
Proof. intros. now apply rnd_fmt, fmt_IZR. Qed.

Lemma bpow128 : bpow radix2 128 = 340282366920938463463374607431768211456.
Proof. reflexivity. Qed.

Lemma fits_le : forall r b, Rabs r <= b -> b < bpow radix2 128 -> fits r.
Proof. intros. unfold fits. lra. Qed.

Lemma rnd_abs_le : forall r z, (Z.abs z <= 2 ^ 24)%Z -> Rabs r <= IZR z -> Rabs (rnd r) <= IZR z.
Proof.
  intros r z Hz H. apply Rabs_le. apply Rabs_le_inv in H.
  rewrite <- (rnd_IZR z Hz). split.
  - rewrite (rnd_IZR z Hz). rewrite <- opp_IZR. rewrite <- (rnd_IZR (- z)) by lia.
    apply rnd_le. rewrite opp_IZR. tauto.
  - now apply rnd_le.
Qed.

Lemma fits_IZR : forall r z, (Z.abs z <= 2 ^ 24)%Z -> Rabs r <= IZR z -> fits (rnd r).
Proof.
  intros. apply fits_le with (IZR z); [now apply rnd_abs_le|].
  rewrite bpow128. apply IZR_lt. lia.
Qed.

Lemma f_of_Z_R : forall z, (Z.abs z <= 2 ^ 24)%Z -> fin (f_of_Z z) /\ FR (f_of_Z z) = IZR z.
Proof.
  intros z Hz. unfold f_of_Z. rewrite binary_normalize_eq.
  generalize (binary_normalize_correct 24 128 hprec hmax mode_NE z 0 false).
  assert (E : F2R (Float radix2 z 0) = IZR z) by (unfold F2R; simpl; ring). rewrite E.
  cbv zeta. change (round radix2 (fexp 24 128) (round_mode mode_NE) (IZR z)) with (rnd (IZR z)).
  rewrite rnd_IZR by assumption. rewrite Rlt_bool_true.
  - intros (H1 & H2 & _). split; [now apply fin_of_B|]. now rewrite FR_B.
  - rewrite <- abs_IZR. rewrite bpow128. apply IZR_lt. lia.
Qed.

(** Error of one rounding: half an ulp, in relative/absolute form. *)
Lemma rnd_err : forall r, exists d e, Rabs d <= bpow radix2 (-24) /\
   Rabs e <= bpow radix2 (-150) /\ rnd r = r * (1 + d) + e.
Proof.
  intros r. destruct (error_N_FLT radix2 (-149) 24 hprec (fun x => negb (Z.even x)) r)
    as (d & e & H1 & H2 & _ & H4).
  exists d, e. split; [|split].
  - eapply Rle_trans; [exact H1|]. right. unfold u_ro. simpl. lra.
  - eapply Rle_trans; [exact H2|]. right.
    replace (bpow radix2 (-150)) with (/ 2 * bpow radix2 (-149)); [reflexivity|].
    replace (/2)%R with (bpow radix2 (-1)) by reflexivity. now rewrite <- bpow_plus.
  - exact H4.
Qed.
