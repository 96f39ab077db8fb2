From Coq Require Import Reals Psatz ZifyBool.
From Coq Require Import Floats.SpecFloat.
From Flocq Require Import Core.
From Verif.Base Require Import Words F32 F32Real.
From Verif.Model Require Import VehicleState Bms InverterRx.
From Verif.Spec Require Import RxSpec BmsDocSpec FaultSpec.
From Verif.Proof Require Import F32Facts BitFacts RxProof.
Open Scope R_scope.

Lemma raw_u16_range : forall o d, Forall is_byte d -> (0 <= raw_u16 o d <= 65535)%Z.
Proof.
  intros o d H. unfold raw_u16. generalize (nth_byte _ o H) (nth_byte _ (S o) H).
  unfold is_byte. lia.
Qed.
Lemma raw_s16_range : forall o d, Forall is_byte d -> (-32768 <= raw_s16 o d <= 32767)%Z.
Proof.
  intros o d H. unfold raw_s16. generalize (raw_u16_range o d H).
  destruct (Z.ltb_spec (raw_u16 o d) 32768); lia.
Qed.

Lemma Rabs_IZR_le : forall z b, (Z.abs z <= b)%Z -> Rabs (IZR z) <= IZR b.
Proof. intros. rewrite <- abs_IZR. now apply IZR_le. Qed.

(** Quotients by an integer are correctly rounded. *)
Lemma over_R : forall raw q, (Z.abs raw <= 65536)%Z -> (1 <= q <= 1000)%Z ->
  fin (over raw q) /\ FR (over raw q) = rnd (IZR raw / IZR q).
Proof.
  intros raw q H Q. unfold over.
  destruct (f_of_Z_R raw) as [F1 E1]; [lia|].
  destruct (f_of_Z_R q) as [F2 E2]; [lia|].
  assert (Qp : 1 <= IZR q) by (apply IZR_le; lia).
  rewrite <- E1, <- E2. apply fdiv_R; auto.
  - rewrite E2. lra.
  - rewrite E1, E2. apply fits_IZR with 65536%Z; [lia|].
    unfold Rdiv. rewrite Rabs_mult. rewrite (Rabs_pos_eq (/ IZR q))
      by (left; apply Rinv_0_lt_compat; lra).
    apply Rle_trans with (IZR 65536 * 1); [|lra].
    apply Rmult_le_compat; [apply Rabs_pos| |now apply Rabs_IZR_le|].
    + left; apply Rinv_0_lt_compat; lra.
    + rewrite <- Rinv_1. apply Rinv_le; lra.
Qed.

Lemma rnd_err_bound : forall r b, Rabs r <= b -> 1 <= b ->
  Rabs (rnd r - r) <= b * / 8000000.
Proof.
  intros r b H B. destruct (rnd_err r) as (d & e & Hd & He & ->).
  replace (r * (1 + d) + e - r) with (r * d + e) by ring.
  apply Rle_trans with (Rabs (r * d) + Rabs e); [apply Rabs_triang|].
  rewrite Rabs_mult.
  assert (K : bpow radix2 (-24) <= / 16000000) by (rewrite bpow_neg_val; apply Rinv_le; simpl; lra).
  assert (K2 : bpow radix2 (-150) <= / 16000000).
  { apply Rle_trans with (bpow radix2 (-24)); [apply bpow_le; lia|exact K]. }
  assert (Rabs r * Rabs d <= b * / 16000000).
  { apply Rmult_le_compat; try apply Rabs_pos; lra. }
  lra.
Qed.

Lemma over_err : forall raw q, (Z.abs raw <= 65536)%Z -> (10 <= q <= 1000)%Z ->
  Rabs (FR (over raw q) - IZR raw / IZR q) <= / 1000.
Proof.
  intros raw q H Q. destruct (over_R raw q) as [_ ->]; [lia|lia|].
  assert (Qp : 10 <= IZR q) by (apply IZR_le; lia).
  apply Rle_trans with (6553.6 * / 8000000); [|lra].
  apply rnd_err_bound; [|lra].
  unfold Rdiv. rewrite Rabs_mult. rewrite (Rabs_pos_eq (/ IZR q))
      by (left; apply Rinv_0_lt_compat; lra).
  apply Rle_trans with (IZR 65536 * / 10); [|lra].
  apply Rmult_le_compat; [apply Rabs_pos| |now apply Rabs_IZR_le|].
  - left; apply Rinv_0_lt_compat; lra.
  - apply Rinv_le; lra.
Qed.

Lemma tenth : f_lit 1 10 = S754_finite false 13421773 (-27). Proof. vm_compute. reflexivity. Qed.
Lemma tenthousandth : f_lit 1 10000 = S754_finite false 13743895 (-37).
Proof. vm_compute. reflexivity. Qed.
Lemma half : f_lit 1 2 = S754_finite false 8388608 (-24). Proof. vm_compute. reflexivity. Qed.

Lemma times_R : forall raw p q, (Z.abs raw <= 65536)%Z -> fin (f_lit p q) ->
  0 <= FR (f_lit p q) <= 1 ->
  fin (times raw p q) /\ FR (times raw p q) = rnd (IZR raw * FR (f_lit p q)).
Proof.
  intros raw p q H F B. unfold times.
  destruct (f_of_Z_R raw) as [F1 E1]; [lia|]. rewrite <- E1.
  apply fmul_R; auto. rewrite E1. apply fits_IZR with 65536%Z; [lia|].
  rewrite Rabs_mult, (Rabs_pos_eq (FR _)) by lra.
  apply Rle_trans with (IZR 65536 * 1); [|lra].
  apply Rmult_le_compat; [apply Rabs_pos|lra|now apply Rabs_IZR_le|lra].
Qed.

Lemma FR_tenth : FR (f_lit 1 10) = 13421773 / 134217728.
Proof. rewrite tenth, FR_finite, bpow_neg_val. change (2 ^ 27)%Z with 134217728%Z. lra. Qed.
Lemma FR_tenthousandth : FR (f_lit 1 10000) = 13743895 / 137438953472.
Proof. rewrite tenthousandth, FR_finite, bpow_neg_val. change (2 ^ 37)%Z with 137438953472%Z. lra. Qed.
Lemma FR_half : FR (f_lit 1 2) = 1 / 2.
Proof. rewrite half, FR_finite, bpow_neg_val. change (2 ^ 24)%Z with 16777216%Z. lra. Qed.

Lemma times_err : forall raw p q b t, (Z.abs raw <= b)%Z -> (b <= 65536)%Z -> fin (f_lit p q) ->
  0 <= FR (f_lit p q) <= 1 -> 1 <= IZR b * FR (f_lit p q) ->
  IZR b * (FR (f_lit p q) * / 8000000 + Rabs (FR (f_lit p q) - IZR p / IZR q)) <= t ->
  Rabs (FR (times raw p q) - IZR raw * (IZR p / IZR q)) <= t.
Proof.
  intros raw p q b t H Hb F B B1 Ht. destruct (times_R raw p q) as [_ ->]; [lia|auto|auto|].
  set (l := FR (f_lit p q)) in *.
  replace (rnd (IZR raw * l) - IZR raw * (IZR p / IZR q))
    with ((rnd (IZR raw * l) - IZR raw * l) + IZR raw * (l - IZR p / IZR q)) by ring.
  eapply Rle_trans; [apply Rabs_triang|]. eapply Rle_trans; [|exact Ht].
  rewrite Rmult_plus_distr_l. apply Rplus_le_compat.
  - eapply Rle_trans; [apply rnd_err_bound with (b := IZR b * l); [|exact B1]|lra].
    rewrite Rabs_mult, (Rabs_pos_eq l) by lra.
    apply Rmult_le_compat_r; [lra|]. apply Rabs_IZR_le. lia.
  - rewrite Rabs_mult. apply Rmult_le_compat_r; [apply Rabs_pos|]. apply Rabs_IZR_le. lia.
Qed.

Lemma times_tenth_err : forall raw, (-32768 <= raw <= 32768)%Z ->
  Rabs (FR (times raw 1 10) - IZR raw / 10) <= / 1900.
Proof.
  intros raw H. replace (IZR raw / 10) with (IZR raw * (1 / 10)) by lra.
  apply times_err with 32768%Z; [lia|lia|split; reflexivity| | |]; rewrite FR_tenth; try lra.
  rewrite Rabs_pos_eq by lra. lra.
Qed.

Lemma times_tenthousandth_err : forall raw, (-32768 <= raw <= 32768)%Z ->
  Rabs (FR (times raw 1 10000) - IZR raw / 10000) <= / 1000000.
Proof.
  intros raw H. replace (IZR raw / 10000) with (IZR raw * (1 / 10000)) by lra.
  apply times_err with 32768%Z; [lia|lia|split; reflexivity| | |]; rewrite FR_tenthousandth; try lra.
  rewrite Rabs_left1 by lra. lra.
Qed.

Lemma times_half_exact : forall raw, (0 <= raw <= 65536)%Z ->
  fin (times raw 1 2) /\ FR (times raw 1 2) = IZR raw / 2.
Proof.
  intros raw H. destruct (times_R raw 1 2) as [F E]; [lia|split; reflexivity|rewrite FR_half; lra|].
  split; [exact F|]. rewrite E, FR_half.
  replace (IZR raw * (1 / 2)) with (F2R (Float radix2 raw (-1))).
  - rewrite rnd_fmt; [unfold F2R; simpl; lra|]. apply fmt_F2R; lia.
  - unfold F2R; simpl. lra.
Qed.

(** Battery record after a queue that ends with a given frame. *)
Lemma bms_last : forall bus s q f, Forall bytes_ok q -> frame_bytes f ->
  BMSProcessing bus s (q ++ [(f, true)])
  = set_battery s (battery_after bus (q ++ [(f, true)]) (vs_battery s)).
Proof.
  intros. apply battery_refine. apply Forall_app. split; [assumption|]. constructor; [assumption|constructor].
Qed.

Lemma latest_last : forall A bus id (dec : list Z -> A) prev q f,
  fr_bus f = bus -> fr_id f = id -> fr_dlc f = 8%Z ->
  latest bus id dec prev (q ++ [(f, true)]) = dec (fr_data f).
Proof.
  intros. rewrite latest_snoc. unfold genuine; simpl. subst. rewrite !Z.eqb_refl, H1. reflexivity.
Qed.

(** A field obtained by [latest] satisfies what every decoding and the previous
    value satisfy. *)
Lemma latest_inv : forall A (P : A -> Prop) bus id dec prev q,
  Forall bytes_ok q -> P prev -> (forall d, Forall is_byte d -> P (dec d)) ->
  P (latest bus id dec prev q).
Proof.
  intros A P bus id dec prev q H P0 PD. unfold latest.
  destruct (find (genuine bus id) (rev q)) as [[f l]|] eqn:E; [|exact P0].
  apply find_some in E. destruct E as [I _]. apply PD. apply in_rev in I.
  rewrite Forall_forall in H. exact (H _ I).
Qed.

Lemma f_of_Z_fits : forall z, (Z.abs z <= 2 ^ 24)%Z -> fin (f_of_Z z). Proof. intros; now apply f_of_Z_R. Qed.

Lemma times_tenth_fin : forall raw, (-32768 <= raw <= 32768)%Z -> fin (times raw 1 10).
Proof. intros. apply times_R; [lia|split; reflexivity|rewrite FR_tenth; lra]. Qed.
Lemma times_tenthousandth_fin : forall raw, (-32768 <= raw <= 32768)%Z -> fin (times raw 1 10000).
Proof. intros. apply times_R; [lia|split; reflexivity|rewrite FR_tenthousandth; lra]. Qed.

Lemma over_fin : forall raw q, (Z.abs raw <= 65536)%Z -> (1 <= q <= 1000)%Z -> fin (over raw q).
Proof. intros. now apply over_R. Qed.

(** Sign of a quotient. *)
Lemma over_neg : forall raw q, (-65536 <= raw < 0)%Z -> (1 <= q <= 1000)%Z -> FR (over raw q) < 0.
Proof.
  intros raw q H Q. destruct (over_R raw q) as [_ ->]; [lia|lia|].
  assert (Qp : 1 <= IZR q <= 1000) by (split; apply IZR_le; lia).
  assert (R1 : IZR raw <= -1) by (apply IZR_le; lia).
  apply Rle_lt_trans with (rnd (- bpow radix2 (-10))).
  - apply rnd_le. rewrite bpow_neg_val. change (2 ^ 10)%Z with 1024%Z.
    unfold Rdiv. assert (/ 1000 <= / IZR q) by (apply Rinv_le; lra).
    assert (IZR raw * / IZR q <= -1 * / 1000).
    { assert (0 < / IZR q) by (apply Rinv_0_lt_compat; lra). nra. }
    lra.
  - rewrite rnd_fmt.
    + assert (0 < bpow radix2 (-10)) by apply bpow_gt_0. lra.
    + replace (- bpow radix2 (-10)) with (F2R (Float radix2 (-1) (-10))) by (unfold F2R; simpl; lra).
      apply fmt_F2R; lia.
Qed.
