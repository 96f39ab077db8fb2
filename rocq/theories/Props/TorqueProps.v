(** C14, C15: the pedal-to-torque map on binary32. *)
From Coq Require Import Reals Psatz.
From Coq Require Import Floats.SpecFloat.
From Flocq Require Import Core.
From Verif.Base Require Import F32Real.
From Verif.Model Require Import Throttle.
From Verif.Spec Require Import TorqueSpec.
From Verif.Proof Require Import F32Facts TorqueProof.
Open Scope R_scope.

(** ** C14 *)
(** [f_ok x] holds for every 32-bit pattern, NaN and infinities included. *)
Theorem C14_forward_map_envelope :
  forall x, f_ok x = true ->
    let r := TorqueMap_Interpolate TorqueMap_Default x in
    fin r /\ 0 <= FR r <= peak TorqueMap_Default.
Proof. rewrite peak_fwd. exact envelope_fwd. Qed.
Print Assumptions C14_forward_map_envelope.

Theorem C14_reverse_map_envelope_partial :
  forall x, f_ok x = true ->
    let r := TorqueMap_Interpolate TorqueMap_DefaultReverse x in
    fin r /\ 0 <= FR r <= peak TorqueMap_DefaultReverse + / 4000.
Proof. rewrite peak_rev. exact envelope_rev. Qed.
Print Assumptions C14_reverse_map_envelope_partial.

(** The reverse map does exceed its largest entry, by one rounding unit. *)
Theorem C14_reverse_map_envelope_refuted :
  exists x, fin x /\ 0 <= FR x <= 1 /\
    peak TorqueMap_DefaultReverse < FR (TorqueMap_Interpolate TorqueMap_DefaultReverse x).
Proof.
  exists (S754_finite false 11744058 (-24)). split; [split; reflexivity|].
  rewrite peak_rev, FR_finite, bpow_neg_val. change (2 ^ 24)%Z with 16777216%Z. split; [lra|].
  replace (TorqueMap_Interpolate _ _) with (S754_finite false 9830401 (-17)) by (vm_compute; reflexivity).
  rewrite FR_finite, bpow_neg_val. change (2 ^ 17)%Z with 131072%Z. lra.
Qed.
Print Assumptions C14_reverse_map_envelope_refuted.

Theorem C14_zero_outside_and_in_dead_zone :
  forall m x, shipped m -> f_ok x = true ->
    f_isfin x = false \/ FR x < FR (f_lit 1 10) \/ 1 < FR x ->
    FR (TorqueMap_Interpolate m x) = 0.
Proof.
  intros m x Hm Hok Hx. destruct (shipped_tmap m Hm) as (t & Ht & _ & ->).
  now apply zero_zone.
Qed.
Print Assumptions C14_zero_outside_and_in_dead_zone.

Theorem C14_table_points_exact :
  forall m i, shipped m -> (i < 5)%nat ->
    FR (TorqueMap_Interpolate m (nth i (tm_accel m) f_zero)) = point_torque m i.
Proof.
  intros m i [->| ->] Hi; unfold point_torque;
  do 5 (destruct i as [|i]; [f_equal; vm_compute; reflexivity|]); lia.
Qed.
Print Assumptions C14_table_points_exact.

Example C14_nan_and_infinity :
  map (TorqueMap_Interpolate TorqueMap_Default)
      [S754_nan; S754_infinity false; S754_infinity true; f_of_Z 2; f_of_Z (-1); S754_zero true]
  = repeat f_zero 6.
Proof. vm_compute. reflexivity. Qed.
Example C14_full_pedal :
  TorqueMap_Interpolate TorqueMap_Default f_one = f_of_Z 500 /\
  TorqueMap_Interpolate TorqueMap_DefaultReverse f_one = f_of_Z 75.
Proof. split; vm_compute; reflexivity. Qed.

(** ** C15 *)
(** 1/4000 Nm, while the command frame resolves 0.1 Nm. *)
Theorem C15_close_to_polygon :
  forall m x y, shipped m -> fin x -> on_polygon m (FR x) y ->
    Rabs (FR (TorqueMap_Interpolate m x) - y) <= / 4000.
Proof. exact polygon_close. Qed.
Print Assumptions C15_close_to_polygon.

(** Which curve: with torque enabled, the forward calibration when the direction is
    forwards (1), the reverse calibration when it is backwards (0), and no torque for
    any other direction or with torque disabled. *)
Theorem C15_direction_selects_curve :
  forall t x y, after_setters t -> fin x ->
    let r := FR (getTorqueMagnitude t (th_enabled t) (th_dir t) x) in
    (th_enabled t = true -> th_dir t = 1%Z -> on_polygon TorqueMap_Default (FR x) y -> Rabs (r - y) <= / 4000) /\
    (th_enabled t = true -> th_dir t = 0%Z -> on_polygon TorqueMap_DefaultReverse (FR x) y -> Rabs (r - y) <= / 4000) /\
    (th_enabled t = false \/ (th_dir t <> 1 /\ th_dir t <> 0)%Z -> r = 0).
Proof.
  intros t x y A Fx r.
  assert (M : th_fwd t = TorqueMap_Default /\ th_rev t = TorqueMap_DefaultReverse).
  { clear -A. induction A as [|t lock en A IH|t lock d A IH]; [split; reflexivity| |]; destruct lock; exact IH. }
  destruct M as (MF & MR). unfold r, getTorqueMagnitude. rewrite MF, MR. split; [|split].
  - intros -> -> P. apply C15_close_to_polygon; auto. now left.
  - intros -> -> P. apply C15_close_to_polygon; auto. now right.
  - intros [->|(N1 & N0)]; [reflexivity|]. destruct (th_enabled t); cbn [negb]; [|reflexivity].
    unfold DIR_FORWARD, DIR_REVERSE. destruct (Z.eqb_spec (th_dir t) 1); [contradiction|]. destruct (Z.eqb_spec (th_dir t) 0); [contradiction|].
    reflexivity.
Qed.
Print Assumptions C15_direction_selects_curve.

(** Both curves are used: at full pedal they differ. *)
Example C15_direction_ex :
  FR (getTorqueMagnitude (fst (SetTorqueEnabled true throttle_init true)) true 1 f_one) =
    FR (TorqueMap_Interpolate TorqueMap_Default f_one) /\
  peak TorqueMap_DefaultReverse < peak TorqueMap_Default.
Proof. split; [reflexivity|]. rewrite peak_fwd, peak_rev. lra. Qed.

(** Every pedal position in [0,1] has a point on the polygon, and only one. *)
Theorem C15_polygon_total :
  forall m x, shipped m -> fin x -> 0 <= FR x <= 1 ->
    exists! y, on_polygon m (FR x) y.
Proof.
  intros m x Hm Fx Hx. destruct (polygon_exists m x Hm Fx Hx) as [y Hy]. exists y. split; auto.
  intros z Hz. apply Rle_antisym.
  - exact (polygon_mono m _ _ y z Hm (Rle_refl _) Hy Hz).
  - exact (polygon_mono m _ _ z y Hm (Rle_refl _) Hz Hy).
Qed.
Print Assumptions C15_polygon_total.

Theorem C15_pressing_never_lowers_by_more :
  forall m x1 x2, shipped m -> fin x1 -> fin x2 -> 0 <= FR x1 -> FR x1 <= FR x2 -> FR x2 <= 1 ->
    FR (TorqueMap_Interpolate m x1) <= FR (TorqueMap_Interpolate m x2) + / 2000.
Proof.
  intros m x1 x2 Hm F1 F2 H1 H2 H3.
  destruct (polygon_exists m x1 Hm F1) as [y1 P1]; [lra|].
  destruct (polygon_exists m x2 Hm F2) as [y2 P2]; [lra|].
  generalize (polygon_close _ _ _ Hm F1 P1) (polygon_close _ _ _ Hm F2 P2)
             (polygon_mono _ _ _ _ _ Hm H2 P1 P2).
  intros C1 C2 M. apply Rabs_le_inv in C1. apply Rabs_le_inv in C2. lra.
Qed.
Print Assumptions C15_pressing_never_lowers_by_more.

(** A tolerance is needed: the reverse map does decrease somewhere. *)
Theorem C15_exactly_monotone_refuted :
  exists x1 x2, fin x1 /\ fin x2 /\ 0 <= FR x1 /\ FR x1 < FR x2 /\ FR x2 <= 1 /\
    FR (TorqueMap_Interpolate TorqueMap_DefaultReverse x2)
    < FR (TorqueMap_Interpolate TorqueMap_DefaultReverse x1).
Proof.
  exists (S754_finite false 11744058 (-24)), f_one.
  split; [split; reflexivity|]. split; [split; reflexivity|].
  destruct one_R as [_ V1]. rewrite V1.
  replace (TorqueMap_Interpolate _ f_one) with (f_of_Z 75) by (vm_compute; reflexivity).
  replace (TorqueMap_Interpolate _ _) with (S754_finite false 9830401 (-17)) by (vm_compute; reflexivity).
  rewrite (proj2 (f_of_Z_R 75 ltac:(lia))).
  rewrite !FR_finite, !bpow_neg_val. change (2 ^ 17)%Z with 131072%Z.
  change (2 ^ 24)%Z with 16777216%Z. lra.
Qed.
Print Assumptions C15_exactly_monotone_refuted.

(** 62.5 % pedal lies on the third segment and gives 162.5 Nm. *)
Example C15_example :
  exists y, on_polygon TorqueMap_Default (FR (f_lit 5 8)) y /\
    TorqueMap_Interpolate TorqueMap_Default (f_lit 5 8) = S754_finite false 10649600 (-16).
Proof.
  eexists. split.
  - exists 2%nat. split; [lia|]. split; [|reflexivity].
    rewrite fwd_tmap, !point_accel_val by lia.
    replace (f_lit 5 8) with (S754_finite false 10485760 (-24)) by (vm_compute; reflexivity).
    rewrite FR_finite, bpow_neg_val. change (2 ^ 24)%Z with 16777216%Z. cbn [Aval]. lra.
  - vm_compute. reflexivity.
Qed.
