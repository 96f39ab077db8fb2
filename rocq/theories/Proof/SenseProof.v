From Coq Require Import Reals Psatz.
From Flocq Require Import Core.
From Verif.Base Require Import Words F32 F32Real.
From Verif.Model Require Import VehicleState Adc DiscreteSense.
From Verif.Spec Require Import SenseSpec.
From Verif.Proof Require Import F32Facts.
Open Scope R_scope.

Lemma one_R : fin f_one /\ FR f_one = 1.
Proof. apply (f_of_Z_R 1). lia. Qed.

Lemma linear_bound : forall l u raw, is_u16 l -> is_u16 u -> is_u16 raw -> l <> u ->
  Rabs (linear l u raw) <= 65535.
Proof.
  intros l u raw Hl Hu Hr Hne. unfold linear, is_u16 in *.
  unfold Rdiv. rewrite Rabs_mult, Rabs_inv, <- !abs_IZR.
  assert (A : IZR (Z.abs (raw - l)) <= 65535) by (apply IZR_le; lia).
  assert (A0 : 0 <= IZR (Z.abs (raw - l))) by (apply IZR_le; lia).
  assert (B : 1 <= IZR (Z.abs (u - l))) by (apply IZR_le; lia).
  assert (C : / IZR (Z.abs (u - l)) <= 1) by (rewrite <- Rinv_1; apply Rinv_le_contravar; lra).
  assert (C0 : 0 < / IZR (Z.abs (u - l))) by (apply Rinv_0_lt_compat; lra).
  nra.
Qed.

Definition quot (l u raw : Z) : f32 := fdiv (f_of_Z (raw - l)) (f_of_Z (u - l)).

Lemma quot_R : forall l u raw, is_u16 l -> is_u16 u -> is_u16 raw -> l <> u ->
  fin (quot l u raw) /\ FR (quot l u raw) = rnd (linear l u raw).
Proof.
  intros l u raw Hl Hu Hr Hne. unfold quot.
  destruct (f_of_Z_R (raw - l)) as [F1 V1]; [unfold is_u16 in *; lia|].
  destruct (f_of_Z_R (u - l)) as [F2 V2]; [unfold is_u16 in *; lia|].
  destruct (fdiv_R _ _ F1 F2) as [F V].
  - rewrite V2. apply IZR_neq. unfold is_u16 in *. lia.
  - rewrite V1, V2. apply fits_IZR with 65535%Z; [lia|]. now apply linear_bound.
  - split; [exact F|]. rewrite V, V1, V2. reflexivity.
Qed.

Lemma clip_id : forall x, 0 <= x <= 1 -> clip x = x.
Proof. intros x H. unfold clip. rewrite Rmax_right, Rmin_right; lra. Qed.
Lemma clip_hi : forall x, 1 < x -> clip x = 1.
Proof. intros x H. unfold clip. rewrite Rmax_right, Rmin_left; lra. Qed.
Lemma clip_lo : forall x, x < 0 -> clip x = 0.
Proof. intros x H. unfold clip. rewrite Rmax_left, Rmin_right; lra. Qed.
Lemma clip_range : forall x, 0 <= clip x <= 1.
Proof. intros x. unfold clip, Rmin, Rmax. repeat destruct (Rle_dec _ _); lra. Qed.
Lemma clip_mono : forall x y, x <= y -> clip x <= clip y.
Proof. intros x y. unfold clip, Rmin, Rmax. repeat destruct (Rle_dec _ _); lra. Qed.

Lemma scale_R : forall l u sat raw, is_u16 l -> is_u16 u -> is_u16 raw -> l <> u ->
  fin (ADC_ApplyScaling (mkScaling l u sat) raw) /\
  FR (ADC_ApplyScaling (mkScaling l u sat) raw) =
    if sat then clip (rnd (linear l u raw)) else rnd (linear l u raw).
Proof.
  intros l u sat raw Hl Hu Hr Hne. unfold ADC_ApplyScaling. cbn [sc_lower sc_upper sc_saturate].
  change (fdiv (f_of_Z (raw - l)) (f_of_Z (u - l))) with (quot l u raw). cbv zeta.
  destruct (quot_R l u raw Hl Hu Hr Hne) as [F V]. destruct one_R as [F1 V1].
  destruct sat; [|auto].
  change (fgt (quot l u raw) f_one) with (flt f_one (quot l u raw)).
  rewrite (flt_R _ _ F1 F), (flt_R _ _ F fin_zero), V1, V, FR_zero.
  destruct (Rlt_bool_spec 1 (rnd (linear l u raw))).
  - rewrite clip_hi by assumption. auto.
  - destruct (Rlt_bool_spec (rnd (linear l u raw)) 0).
    + rewrite clip_lo by assumption. split; [apply fin_zero|reflexivity].
    + rewrite clip_id by lra. auto.
Qed.

Lemma linear_mono : forall l u r1 r2, (l < u)%Z -> (r1 <= r2)%Z -> linear l u r1 <= linear l u r2.
Proof.
  intros l u r1 r2 H H'. unfold linear, Rdiv. apply Rmult_le_compat_r.
  - left. apply Rinv_0_lt_compat. apply IZR_lt. lia.
  - apply IZR_le. lia.
Qed.

Lemma linear_anti : forall l u r1 r2, (u < l)%Z -> (r1 <= r2)%Z -> linear l u r2 <= linear l u r1.
Proof.
  intros l u r1 r2 H H'. unfold linear, Rdiv.
  assert (I : / IZR (u - l) < 0) by (apply Rinv_lt_0_compat; apply IZR_lt; lia).
  assert (L : IZR (r1 - l) <= IZR (r2 - l)) by (apply IZR_le; lia). nra.
Qed.

Lemma linear_lower : forall l u, linear l u l = 0.
Proof. intros. unfold linear. rewrite Z.sub_diag. unfold Rdiv. apply Rmult_0_l. Qed.
Lemma linear_upper : forall l u, l <> u -> linear l u u = 1.
Proof. intros. unfold linear, Rdiv. apply Rinv_r. apply IZR_neq. lia. Qed.

Lemma fle_of : forall x y, fin x -> fin y -> FR x <= FR y -> fle x y = true.
Proof. intros. rewrite fle_R by assumption. now apply Rle_bool_true. Qed.

Lemma scale_mono : forall l u sat r1 r2, is_u16 l -> is_u16 u -> is_u16 r1 -> is_u16 r2 ->
  (l < u)%Z -> (r1 <= r2)%Z ->
  fle (ADC_ApplyScaling (mkScaling l u sat) r1) (ADC_ApplyScaling (mkScaling l u sat) r2) = true.
Proof.
  intros l u sat r1 r2 Hl Hu H1 H2 Hlt Hle. assert (l <> u) by lia.
  destruct (scale_R l u sat r1) as [F1 V1]; auto. destruct (scale_R l u sat r2) as [F2 V2]; auto.
  apply fle_of; auto. rewrite V1, V2.
  pose proof (rnd_le _ _ (linear_mono l u r1 r2 Hlt Hle)). destruct sat; [now apply clip_mono|assumption].
Qed.

Lemma scale_anti : forall l u sat r1 r2, is_u16 l -> is_u16 u -> is_u16 r1 -> is_u16 r2 ->
  (u < l)%Z -> (r1 <= r2)%Z ->
  fle (ADC_ApplyScaling (mkScaling l u sat) r2) (ADC_ApplyScaling (mkScaling l u sat) r1) = true.
Proof.
  intros l u sat r1 r2 Hl Hu H1 H2 Hlt Hle. assert (l <> u) by lia.
  destruct (scale_R l u sat r1) as [F1 V1]; auto. destruct (scale_R l u sat r2) as [F2 V2]; auto.
  apply fle_of; auto. rewrite V1, V2.
  pose proof (rnd_le _ _ (linear_anti l u r1 r2 Hlt Hle)). destruct sat; [now apply clip_mono|assumption].
Qed.

Lemma scale_range : forall l u raw, is_u16 l -> is_u16 u -> is_u16 raw -> l <> u ->
  fin (ADC_ApplyScaling (mkScaling l u true) raw) /\
  0 <= FR (ADC_ApplyScaling (mkScaling l u true) raw) <= 1.
Proof.
  intros l u raw Hl Hu Hr Hne. destruct (scale_R l u true raw) as [F V]; auto.
  split; [exact F|]. rewrite V. apply clip_range.
Qed.

Lemma unit_fle : forall x, fin x -> 0 <= FR x <= 1 -> fle f_zero x = true /\ fle x f_one = true.
Proof.
  intros x F [A B]. destruct one_R as [F1 V1]. pose proof fin_zero.
  split; apply fle_of; auto. now rewrite V1.
Qed.

Lemma scale_ends : forall l u sat, is_u16 l -> is_u16 u -> l <> u ->
  FR (ADC_ApplyScaling (mkScaling l u sat) l) = 0 /\ FR (ADC_ApplyScaling (mkScaling l u sat) u) = 1.
Proof.
  intros l u sat Hl Hu Hne.
  destruct (scale_R l u sat l) as [_ V1]; auto. destruct (scale_R l u sat u) as [_ V2]; auto.
  rewrite V1, V2, linear_lower, linear_upper, rnd_0 by assumption.
  rewrite (rnd_IZR 1) by lia. rewrite !clip_id by lra. now destruct sat.
Qed.

(** ** The average of two readings in [0,1] *)
Lemma half_R : fin f_half /\ FR f_half = / 2.
Proof.
  split; [split; vm_compute; reflexivity|].
  replace f_half with (SpecFloat.S754_finite false 8388608 (-24)) by (vm_compute; reflexivity).
  rewrite FR_finite, bpow_neg_val. change (2 ^ 24)%Z with 16777216%Z. simpl. lra.
Qed.

Lemma average_range : forall x y, fin x -> fin y -> 0 <= FR x <= 1 -> 0 <= FR y <= 1 ->
  fin (fmul f_half (fadd x y)) /\ 0 <= FR (fmul f_half (fadd x y)) <= 1.
Proof.
  intros x y Fx Fy Hx Hy.
  destruct (fadd_R x y Fx Fy) as [F V].
  { apply fits_IZR with 2%Z; [lia|]. rewrite Rabs_pos_eq; lra. }
  assert (B : 0 <= rnd (FR x + FR y) <= 2).
  { split.
    - rewrite <- rnd_0. apply rnd_le. lra.
    - rewrite <- (rnd_IZR 2) by lia. apply rnd_le. simpl. lra. }
  destruct half_R as [Fh Vh].
  destruct (fmul_R f_half (fadd x y) Fh F) as [G W].
  { apply fits_IZR with 1%Z; [lia|]. rewrite Vh, V, Rabs_pos_eq; lra. }
  split; [exact G|]. rewrite W, Vh, V. split.
  - rewrite <- rnd_0. apply rnd_le. lra.
  - rewrite <- (rnd_IZR 1) by lia. apply rnd_le. lra.
Qed.

(** ** Histories *)
Open Scope Z_scope.

Lemma newest_snoc : forall A good (f : ds_cycle -> A) prev h c,
  newest good f prev (h ++ [c]) = if cy_lock c && good c then f c else newest good f prev h.
Proof. intros. unfold newest. rewrite rev_app_distr. simpl. now destruct (cy_lock c && good c). Qed.

Lemma step_inputs : forall d s c, vs_inputs (ds_step d s c) =
  if cy_lock c then
    put_rear (ADC_ApplyScaling (ds_brakeRear d) (snd (cy_rear c))) (cy_rear c)
   (put_front (ADC_ApplyScaling (ds_brakeFront d) (snd (cy_front c))) (cy_front c)
   (put_accel (average d c) (cy_A c) (cy_B c)
   (put_B (val_B d c) (cy_B c) (put_A (val_A d c) (cy_A c) (vs_inputs s)))))
  else vs_inputs s.
Proof. intros. unfold ds_step. now destruct (cy_lock c). Qed.

Lemma puts_closed : forall vr vf va vB vA rr rf rA rB i0 i1 i2 i3 i4 i5 i6 i7 i8 i9,
  put_rear vr rr (put_front vf rf (put_accel va rA rB (put_B vB rB (put_A vA rA
    (mkInputs i0 i1 i2 i3 i4 i5 i6 i7 i8 i9))))) =
  mkInputs (if ok rA && ok rB then va else i0) (if ok rA then vA else i1) (if ok rB then vB else i2)
    (if ok rA then snd rA else i3) (if ok rB then snd rB else i4)
    (if ok rA && ok rB then true else i5) (if ok rf then vf else i6) (if ok rr then vr else i7)
    (if ok rf then snd rf else i8) (if ok rr then snd rr else i9).
Proof.
  intros. unfold put_A, put_B, put_accel, put_front, put_rear.
  destruct (ok rA), (ok rB), (ok rf), (ok rr); reflexivity.
Qed.

Lemma ds_refine : forall d h s,
  vs_inputs (ds_run d s h) = inputs_after d h (vs_inputs s).
Proof.
  intros d h s. induction h as [|c h IH] using rev_ind.
  - unfold ds_run, inputs_after, newest. simpl. now destruct (vs_inputs s).
  - unfold ds_run in *. rewrite fold_left_app. cbn [fold_left]. rewrite step_inputs, IH.
    unfold inputs_after. rewrite !newest_snoc. destruct (cy_lock c); [|reflexivity].
    rewrite puts_closed. reflexivity.
Qed.

Definition newest_button (prev : bool) (h : list ds_cycle) : bool :=
  newest (fun _ => true) cy_button prev h.

Lemma ds_frame : forall d h s,
  ds_run d s h = set_dash (set_inputs s (inputs_after d h (vs_inputs s)))
                   (mkDash (newest_button (d_buttonPressed (vs_dash s)) h) (d_ledOn (vs_dash s))).
Proof.
  intros d h s. rewrite <- ds_refine. induction h as [|c h IH] using rev_ind.
  - unfold ds_run, newest_button, newest. simpl. destruct s as [i [b l]]. reflexivity.
  - unfold ds_run in *. rewrite fold_left_app. cbn [fold_left]. rewrite step_inputs.
    unfold newest_button in *. rewrite newest_snoc. rewrite andb_true_r. unfold ds_step at 1.
    generalize dependent (fold_left (ds_step d) h s). intros X IH.
    destruct (cy_lock c); [|exact IH].
    assert (E1 : forall I D, set_dash (set_inputs X I) D = set_dash (set_inputs s I) D)
      by (intros I D; rewrite IH; reflexivity).
    assert (E2 : d_ledOn (vs_dash X) = d_ledOn (vs_dash s)) by (rewrite IH; reflexivity).
    cbv zeta. rewrite E1, E2. reflexivity.
Qed.
