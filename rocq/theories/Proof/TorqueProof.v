From Coq Require Import Reals Psatz.
From Coq Require Import Floats.SpecFloat.
From Flocq Require Import Core.
From Verif.Base Require Import F32Real.
From Verif.Model Require Import Throttle.
From Verif.Spec Require Import TorqueSpec.
From Verif.Proof Require Import F32Facts.
Open Scope R_scope.

(** ** Rounding helpers *)
Definition eps : R := / 16777216.            (* 2^-24 *)
Definition tiny : R := / 1152921504606846976. (* 2^-60, far above 2^-150 *)

Lemma rnd_close : forall r B, Rabs r <= B -> Rabs (rnd r - r) <= eps * B + tiny.
Proof.
  intros r B H. destruct (rnd_err r) as (d & e & Hd & He & ->).
  replace (r * (1 + d) + e - r) with (r * d + e) by ring.
  rewrite !bpow_neg_val in *.
  assert (E24 : / IZR (2 ^ 24) = eps) by (unfold eps; do 2 f_equal).
  assert (E150 : / IZR (2 ^ 150) <= tiny).
  { unfold tiny. apply Rinv_le_contravar; [lra|]. apply IZR_le. now vm_compute. }
  rewrite E24 in Hd.
  eapply Rle_trans; [apply Rabs_triang|]. rewrite Rabs_mult.
  assert (P : Rabs r * Rabs d <= B * eps).
  { apply Rmult_le_compat; auto using Rabs_pos. }
  lra.
Qed.

Lemma rnd_bounds : forall r z1 z2, (Z.abs z1 <= 2 ^ 24)%Z -> (Z.abs z2 <= 2 ^ 24)%Z ->
  IZR z1 <= r <= IZR z2 -> IZR z1 <= rnd r <= IZR z2.
Proof.
  intros r z1 z2 H1 H2 [A B].
  rewrite <- (rnd_IZR z1), <- (rnd_IZR z2) by assumption. split; now apply rnd_le.
Qed.

(** Largest binary32 below one. *)
Lemma below_one : forall t, fmt t -> t < 1 -> t <= 1 - eps.
Proof.
  intros t Ft Ht.
  replace (1 - eps) with (pred radix2 fexp32 1).
  - apply pred_ge_gt; auto; try typeclasses eauto. apply (fmt_IZR 1). lia.
  - change 1 with (bpow radix2 0). rewrite pred_bpow. unfold fexp32, FLT_exp.
    change (Z.max (0 - 24) (-149)) with (-24)%Z. rewrite bpow_neg_val. unfold eps.
    change (2 ^ 24)%Z with 16777216%Z. simpl. lra.
Qed.

(** ** One bucket, over the reals *)
Section Bucket.
  Variables (a0 a1 T0 T1 : f32) (A0 A1 D : R) (Z0 Z1 : Z).
  Hypothesis (Fa0 : fin a0) (Fa1 : fin a1).
  Hypothesis (Va0 : FR a0 = A0) (Va1 : FR a1 = A1).
  Hypothesis (VT0 : T0 = f_of_Z Z0) (VT1 : T1 = f_of_Z Z1).
  Hypothesis (HZ0 : (0 <= Z0 <= 1000)%Z) (HZ1 : (0 <= Z1 <= 1000)%Z).
  Hypothesis (HA : 0 <= A0 /\ A0 < A1 /\ A1 <= 1).
  Hypothesis (FD : fin (fsub a1 a0)) (VD : FR (fsub a1 a0) = D) (HD : 0 < D).
  Variable x : f32.
  Hypothesis (Fx : fin x) (Hx : A0 <= FR x <= A1).

  Definition bn := fsub x a0.
  Definition bt := fdiv bn (fsub a1 a0).
  Definition bu := fsub f_one bt.
  Definition bp := fmul bu T0.
  Definition bq := fmul bt T1.
  Definition br := fadd bp bq.

  Lemma D_rnd : D = rnd (A1 - A0).
  Proof.
    rewrite <- VD, <- Va0, <- Va1. apply fsub_R; auto.
    apply fits_IZR with 1%Z; [lia|]. rewrite Va0, Va1. rewrite Rabs_pos_eq; lra.
  Qed.

  Lemma bn_R : fin bn /\ FR bn = rnd (FR x - A0) /\ 0 <= FR bn <= D.
  Proof.
    destruct (fsub_R x a0 Fx Fa0) as [F V].
    - apply fits_IZR with 1%Z; [lia|]. rewrite Va0. rewrite Rabs_pos_eq; lra.
    - rewrite Va0 in V. split; [exact F|]. split; [exact V|]. unfold bn. rewrite V. split.
      + rewrite <- rnd_0. apply rnd_le. lra.
      + rewrite D_rnd. apply rnd_le. lra.
  Qed.

  Lemma quot_range : 0 <= FR bn / D <= 1.
  Proof.
    destruct bn_R as (_ & _ & L & U). split.
    - apply Rmult_le_pos; [lra|]. left. now apply Rinv_0_lt_compat.
    - apply Rmult_le_reg_r with D; auto. unfold Rdiv. rewrite Rmult_assoc, Rinv_l; lra.
  Qed.

  Lemma bt_R : fin bt /\ FR bt = rnd (FR bn / D) /\ 0 <= FR bt <= 1.
  Proof.
    destruct bn_R as (F & _ & _). generalize quot_range. intros Q.
    destruct (fdiv_R bn (fsub a1 a0) F FD) as [G V].
    - rewrite VD. lra.
    - rewrite VD. apply fits_IZR with 1%Z; [lia|]. rewrite Rabs_pos_eq; lra.
    - rewrite VD in V. split; [exact G|]. split; [exact V|]. unfold bt. rewrite V.
      apply (rnd_bounds _ 0 1); [lia|lia|exact Q].
  Qed.

  Lemma one_R : fin f_one /\ FR f_one = 1.
  Proof. apply (f_of_Z_R 1). lia. Qed.

  Lemma bu_R : fin bu /\ FR bu = rnd (1 - FR bt) /\ 0 <= FR bu <= 1.
  Proof.
    destruct bt_R as (F & _ & T). destruct one_R as [F1 V1].
    destruct (fsub_R f_one bt F1 F) as [G V].
    - rewrite V1. apply fits_IZR with 1%Z; [lia|]. rewrite Rabs_pos_eq; lra.
    - rewrite V1 in V. split; [exact G|]. split; [exact V|]. unfold bu. rewrite V.
      apply (rnd_bounds _ 0 1); [lia|lia|lra].
  Qed.

  Lemma prod_bound : forall z u, (0 <= z <= 1000)%Z -> 0 <= u <= 1 -> 0 <= u * IZR z <= IZR z.
  Proof.
    intros z u Hz Hu. assert (0 <= IZR z) by (apply IZR_le; lia). nra.
  Qed.

  Lemma bp_R : fin bp /\ FR bp = rnd (FR bu * IZR Z0) /\ 0 <= FR bp <= IZR Z0.
  Proof.
    destruct bu_R as (F & _ & U). destruct (f_of_Z_R Z0) as [F0 V0]; [lia|].
    generalize (prod_bound Z0 _ HZ0 U). intros P.
    unfold bp. rewrite VT0. destruct (fmul_R bu (f_of_Z Z0) F F0) as [G V].
    - rewrite V0. apply fits_IZR with Z0; [lia|]. rewrite Rabs_pos_eq; lra.
    - rewrite V0 in V. split; [exact G|]. split; [exact V|]. rewrite V.
      apply (rnd_bounds _ 0 Z0); [lia|lia|exact P].
  Qed.

  Lemma bq_R : fin bq /\ FR bq = rnd (FR bt * IZR Z1) /\ 0 <= FR bq <= IZR Z1.
  Proof.
    destruct bt_R as (F & _ & U). destruct (f_of_Z_R Z1) as [F0 V0]; [lia|].
    generalize (prod_bound Z1 _ HZ1 U). intros P.
    unfold bq. rewrite VT1. destruct (fmul_R bt (f_of_Z Z1) F F0) as [G V].
    - rewrite V0. apply fits_IZR with Z1; [lia|]. rewrite Rabs_pos_eq; lra.
    - rewrite V0 in V. split; [exact G|]. split; [exact V|]. rewrite V.
      apply (rnd_bounds _ 0 Z1); [lia|lia|exact P].
  Qed.

  Lemma br_R : fin br /\ FR br = rnd (FR bp + FR bq) /\ 0 <= FR br.
  Proof.
    destruct bp_R as (F & _ & P). destruct bq_R as (G & _ & Q).
    assert (H0 : IZR Z0 <= 1000) by (apply IZR_le; lia).
    assert (H1 : IZR Z1 <= 1000) by (apply IZR_le; lia).
    destruct (fadd_R bp bq F G) as [H V].
    - apply fits_IZR with 2000%Z; [lia|]. rewrite Rabs_pos_eq; lra.
    - split; [exact H|]. split; [exact V|]. unfold br. rewrite V, <- rnd_0. apply rnd_le. lra.
  Qed.

  (** All rounding errors, with the table values kept symbolic. *)
  Lemma bucket_errors :
    Rabs (FR bn - (FR x - A0)) <= eps * (A1 - A0) + tiny /\
    Rabs (FR bt - FR bn / D) <= eps + tiny /\
    Rabs (FR bu - (1 - FR bt)) <= eps + tiny /\
    Rabs (FR bp - FR bu * IZR Z0) <= eps * IZR Z0 + tiny /\
    Rabs (FR bq - FR bt * IZR Z1) <= eps * IZR Z1 + tiny /\
    Rabs (FR br - (FR bp + FR bq)) <= eps * (IZR Z0 + IZR Z1) + tiny.
  Proof.
    destruct bn_R as (_ & En & Bn). destruct bt_R as (_ & Et & Bt). destruct bu_R as (_ & Eu & Bu).
    destruct bp_R as (_ & Ep & Bp). destruct bq_R as (_ & Eq & Bq). destruct br_R as (_ & Er & Br).
    generalize quot_range. intros Q.
    generalize (prod_bound Z0 _ HZ0 Bu) (prod_bound Z1 _ HZ1 Bt). intros P0 P1.
    repeat split.
    - rewrite En. apply rnd_close. rewrite Rabs_pos_eq; lra.
    - rewrite Et. replace (eps + tiny) with (eps * 1 + tiny) by ring. apply rnd_close.
      rewrite Rabs_pos_eq; lra.
    - rewrite Eu. replace (eps + tiny) with (eps * 1 + tiny) by ring. apply rnd_close.
      rewrite Rabs_pos_eq; lra.
    - rewrite Ep. apply rnd_close. rewrite Rabs_pos_eq; lra.
    - rewrite Eq. apply rnd_close. rewrite Rabs_pos_eq; lra.
    - rewrite Er. apply rnd_close. rewrite Rabs_pos_eq; lra.
  Qed.

  Lemma interp_R : forall m i,
    find_bucket m x = Some i ->
    fnth (tm_accel m) i = a0 -> fnth (tm_accel m) (S i) = a1 ->
    fnth (tm_torque m) i = T0 -> fnth (tm_torque m) (S i) = T1 ->
    TorqueMap_Interpolate m x = br.
  Proof.
    intros m i H E0 E1 E2 E3. unfold TorqueMap_Interpolate. rewrite H, E0, E1, E2, E3.
    reflexivity.
  Qed.
End Bucket.

(** ** The shipped tables *)
Definition accels : list f32 := [f_zero; f_lit 1 10; f_lit 1 2; f_lit 7 10; f_one].
Definition tmap (t : list Z) : torque_map := mkTorqueMap accels (map f_of_Z t).

Lemma fwd_tmap : TorqueMap_Default = tmap [0; 0; 100; 200; 500]%Z.
Proof. vm_compute. reflexivity. Qed.
Lemma rev_tmap : TorqueMap_DefaultReverse = tmap [0; 0; 20; 75; 75]%Z.
Proof. vm_compute. reflexivity. Qed.

Definition Aval (i : nat) : R :=
  match i with
  | 0%nat => 0 | 1%nat => 13421773 / 134217728 | 2%nat => / 2
  | 3%nat => 11744051 / 16777216 | _ => 1
  end.
Definition Dval (i : nat) : R :=
  match i with
  | 0%nat => 13421773 / 134217728 | 1%nat => 13421773 / 33554432
  | 2%nat => 3355443 / 16777216 | _ => 5033165 / 16777216
  end.

Ltac fval H := rewrite H, FR_finite, ?bpow_neg_val.

Lemma lt4_cases : forall i, (i < 4)%nat -> i = 0%nat \/ i = 1%nat \/ i = 2%nat \/ i = 3%nat.
Proof. lia. Qed.

Lemma acc_fin : forall i, (i <= 4)%nat -> fin (nth i accels f_zero).
Proof.
  intros i H. do 5 (destruct i as [|i]; [split; vm_compute; reflexivity|]). lia.
Qed.

Lemma acc_val : forall i, (i <= 4)%nat -> FR (nth i accels f_zero) = Aval i.
Proof.
  intros i H.
  destruct i as [|i]; [reflexivity|].
  destruct i as [|i].
  { change (nth 1 accels f_zero) with (f_lit 1 10).
    replace (f_lit 1 10) with (S754_finite false 13421773 (-27)) by (vm_compute; reflexivity).
    rewrite FR_finite, bpow_neg_val. change (2 ^ 27)%Z with 134217728%Z. simpl. lra. }
  destruct i as [|i].
  { change (nth 2 accels f_zero) with (f_lit 1 2).
    replace (f_lit 1 2) with (S754_finite false 8388608 (-24)) by (vm_compute; reflexivity).
    rewrite FR_finite, bpow_neg_val. change (2 ^ 24)%Z with 16777216%Z. simpl. lra. }
  destruct i as [|i].
  { change (nth 3 accels f_zero) with (f_lit 7 10).
    replace (f_lit 7 10) with (S754_finite false 11744051 (-24)) by (vm_compute; reflexivity).
    rewrite FR_finite, bpow_neg_val. change (2 ^ 24)%Z with 16777216%Z. simpl. lra. }
  destruct i as [|i]; [apply one_R|]. lia.
Qed.

Definition dacc (i : nat) : f32 := fsub (nth (S i) accels f_zero) (nth i accels f_zero).

Lemma d_fin : forall i, (i < 4)%nat -> fin (dacc i).
Proof.
  intros i H. do 4 (destruct i as [|i]; [split; vm_compute; reflexivity|]). lia.
Qed.

Lemma d_val : forall i, (i < 4)%nat -> FR (dacc i) = Dval i.
Proof.
  intros i H.
  destruct i as [|i].
  { replace (dacc 0) with (S754_finite false 13421773 (-27)) by (vm_compute; reflexivity).
    rewrite FR_finite, bpow_neg_val. change (2 ^ 27)%Z with 134217728%Z. simpl. lra. }
  destruct i as [|i].
  { replace (dacc 1) with (S754_finite false 13421773 (-25)) by (vm_compute; reflexivity).
    rewrite FR_finite, bpow_neg_val. change (2 ^ 25)%Z with 33554432%Z. simpl. lra. }
  destruct i as [|i].
  { replace (dacc 2) with (S754_finite false 13421772 (-26)) by (vm_compute; reflexivity).
    rewrite FR_finite, bpow_neg_val. change (2 ^ 26)%Z with 67108864%Z. simpl. lra. }
  destruct i as [|i].
  { replace (dacc 3) with (S754_finite false 10066330 (-25)) by (vm_compute; reflexivity).
    rewrite FR_finite, bpow_neg_val. change (2 ^ 25)%Z with 33554432%Z. simpl. lra. }
  lia.
Qed.

(** ** Bucket selection *)
Lemma fold_pick : forall (test : nat -> bool) l acc,
  match fold_left (fun acc i => if test i then Some i else acc) l acc with
  | Some i => (In i l /\ test i = true) \/ acc = Some i
  | None => acc = None /\ forall i, In i l -> test i = false
  end.
Proof.
  intros test l. induction l as [|a l IH]; intros acc; simpl.
  - destruct acc; auto. split; auto. intros ? [].
  - specialize (IH (if test a then Some a else acc)).
    destruct (fold_left _ l _) as [i|].
    + destruct IH as [[I T]|E]; [left; auto|]. destruct (test a) eqn:Ta; auto.
      injection E as <-. auto.
    + destruct IH as [E N]. destruct (test a) eqn:Ta; [discriminate|]. split; auto.
      intros i [<-|I]; auto.
Qed.

Lemma bucket_pick : forall m x,
  match find_bucket m x with
  | Some i => (i < 4)%nat /\ fge x (fnth (tm_accel m) i) = true /\ fle x (fnth (tm_accel m) (S i)) = true
  | None => forall i, (i < 4)%nat -> fge x (fnth (tm_accel m) i) && fle x (fnth (tm_accel m) (S i)) = false
  end.
Proof.
  intros m x. unfold find_bucket.
  generalize (fold_pick (fun i => fge x (fnth (tm_accel m) i) && fle x (fnth (tm_accel m) (S i)))
                        (seq 0 (TORQUEMAP_LENGTH - 1)) None).
  destruct (fold_left _ _ _) as [i|].
  - intros [[I T]|E]; [|discriminate]. apply andb_prop in T. apply in_seq in I.
    unfold TORQUEMAP_LENGTH in I. split; [simpl in I; lia|exact T].
  - intros [_ N] i Hi. apply N, in_seq. unfold TORQUEMAP_LENGTH. simpl. lia.
Qed.

Lemma between_finite : forall x a b, fin a -> fin b -> fge x a = true -> fle x b = true ->
  f_isfin x = true.
Proof.
  intros x a b [_ Fa] [_ Fb] H1 H2. unfold fge, fle, SFleb in *.
  destruct x as [s|s| |s m e]; auto.
  - destruct s.
    + destruct a as [?|?| |s' ? ?]; try discriminate; simpl in H1; try discriminate.
    + destruct b as [?|?| |s' ? ?]; try discriminate; simpl in H2; try discriminate.
Qed.

Definition pick_spec (t : list Z) (x : f32) : Prop :=
  (exists i, (i < 4)%nat /\ find_bucket (tmap t) x = Some i /\ fin x /\ Aval i <= FR x <= Aval (S i)) \/
  (find_bucket (tmap t) x = None /\ (fin x -> FR x < 0 \/ 1 < FR x)).

Lemma pick : forall t x, f_ok x = true -> pick_spec t x.
Proof.
  intros t x Hok. generalize (bucket_pick (tmap t) x). unfold pick_spec.
  change (tm_accel (tmap t)) with accels. unfold fnth.
  destruct (find_bucket (tmap t) x) as [i|].
  - intros (Hi & H1 & H2). left. exists i.
    assert (F : fin x).
    { split; auto. eapply between_finite; [| |exact H1|exact H2]; apply acc_fin; lia. }
    unfold fge, fle in H1, H2.
    change (flt (nth i accels f_zero) x) with (flt (nth i accels f_zero) x) in H1.
    change (SFleb (nth i accels f_zero) x) with (fle (nth i accels f_zero) x) in H1.
    change (SFleb x (nth (S i) accels f_zero)) with (fle x (nth (S i) accels f_zero)) in H2.
    rewrite fle_R in H1 by (auto; apply acc_fin; lia).
    rewrite fle_R in H2 by (auto; apply acc_fin; lia).
    rewrite acc_val in H1 by lia. rewrite acc_val in H2 by lia.
    split; [exact Hi|]. split; [reflexivity|]. split; [exact F|]. split.
    + revert H1. case Rle_bool_spec; [auto|discriminate].
    + revert H2. case Rle_bool_spec; [auto|discriminate].
  - intros N. right. split; auto. intros F.
    assert (M : forall i, (i < 4)%nat -> ~ (Aval i <= FR x <= Aval (S i))).
    { intros i Hi [H1 H2]. specialize (N i Hi). unfold fge in N.
      change (SFleb (nth i accels f_zero) x) with (fle (nth i accels f_zero) x) in N.
      rewrite fle_R in N by (auto; apply acc_fin; lia).
      rewrite fle_R in N by (auto; apply acc_fin; lia).
      rewrite !acc_val in N by lia. rewrite !Rle_bool_true in N by assumption. discriminate. }
    generalize (M 0%nat) (M 1%nat) (M 2%nat) (M 3%nat). simpl. intros M0 M1 M2 M3.
    destruct (Rlt_or_le (FR x) 0) as [|L0]; auto.
    destruct (Rlt_or_le 1 (FR x)) as [|L4]; auto. exfalso.
    destruct (Rle_or_lt (FR x) (13421773 / 134217728)); [apply M0; auto; lia|].
    destruct (Rle_or_lt (FR x) (/ 2)); [apply M1; [lia|lra]|].
    destruct (Rle_or_lt (FR x) (11744051 / 16777216)); [apply M2; [lia|lra]|].
    apply M3; [lia|lra].
Qed.

(** ** Every bucket with its rounding errors, for any table of torques *)
Definition tz (t : list Z) (i : nat) : Z := nth i t 0%Z.
Definition table_ok (t : list Z) : Prop := forall i, (0 <= tz t i <= 1000)%Z.

Lemma torque_entry : forall t i, fnth (tm_torque (tmap t)) i = f_of_Z (tz t i).
Proof.
  intros t i. unfold fnth, tmap, tz. simpl.
  change f_zero with (f_of_Z 0). apply map_nth.
Qed.

(** The intermediate results of bucket [i] as reals. *)
Definition steps (t : list Z) (i : nat) (x r : R) : Prop :=
  exists n q u p w,
    fmt q /\ fmt n /\
    0 <= n <= Dval i /\ 0 <= q <= 1 /\ 0 <= u <= 1 /\
    0 <= p <= IZR (tz t i) /\ 0 <= w <= IZR (tz t (S i)) /\ 0 <= r /\
    Rabs (n - (x - Aval i)) <= eps * (Aval (S i) - Aval i) + tiny /\
    Rabs (q - n / Dval i) <= eps + tiny /\
    Rabs (u - (1 - q)) <= eps + tiny /\
    Rabs (p - u * IZR (tz t i)) <= eps * IZR (tz t i) + tiny /\
    Rabs (w - q * IZR (tz t (S i))) <= eps * IZR (tz t (S i)) + tiny /\
    Rabs (r - (p + w)) <= eps * (IZR (tz t i) + IZR (tz t (S i))) + tiny /\
    r = rnd (p + w) /\ w = rnd (q * IZR (tz t (S i))) /\ p = rnd (u * IZR (tz t i)) /\
    u = rnd (1 - q) /\ q = rnd (n / Dval i) /\ n = rnd (x - Aval i).

Lemma bucket_steps : forall t i x, table_ok t -> (i < 4)%nat ->
  find_bucket (tmap t) x = Some i -> fin x -> Aval i <= FR x <= Aval (S i) ->
  fin (TorqueMap_Interpolate (tmap t) x) /\
  steps t i (FR x) (FR (TorqueMap_Interpolate (tmap t) x)).
Proof.
  intros t i x Ht Hi Hf Fx Hx.
  set (a0 := nth i accels f_zero). set (a1 := nth (S i) accels f_zero).
  assert (Fa0 : fin a0) by (apply acc_fin; lia).
  assert (Fa1 : fin a1) by (apply acc_fin; lia).
  assert (Va0 : FR a0 = Aval i) by (apply acc_val; lia).
  assert (Va1 : FR a1 = Aval (S i)) by (apply acc_val; lia).
  assert (FD : fin (fsub a1 a0)) by (apply (d_fin i Hi)).
  assert (VD : FR (fsub a1 a0) = Dval i) by (apply (d_val i Hi)).
  assert (HA : 0 <= Aval i /\ Aval i < Aval (S i) /\ Aval (S i) <= 1).
  { destruct (lt4_cases i Hi) as [->|[->|[->| ->]]]; simpl; lra. }
  assert (HD : 0 < Dval i).
  { destruct (lt4_cases i Hi) as [->|[->|[->| ->]]]; simpl; lra. }
  set (T0 := f_of_Z (tz t i)). set (T1 := f_of_Z (tz t (S i))).
  assert (E : TorqueMap_Interpolate (tmap t) x = br a0 a1 T0 T1 x).
  { apply interp_R with i; auto; apply torque_entry. }
  rewrite E.
  destruct (bn_R a0 a1 (Aval i) (Aval (S i)) (Dval i) Fa0 Fa1 Va0 Va1 HA VD x Fx Hx) as (Fn & En & Bn).
  destruct (bt_R a0 a1 (Aval i) (Aval (S i)) (Dval i) Fa0 Fa1 Va0 Va1 HA FD VD HD x Fx Hx) as (Ft & Et & Bt).
  destruct (bu_R a0 a1 (Aval i) (Aval (S i)) (Dval i) Fa0 Fa1 Va0 Va1 HA FD VD HD x Fx Hx) as (Fu & Eu & Bu).
  destruct (bp_R a0 a1 T0 (Aval i) (Aval (S i)) (Dval i) (tz t i) Fa0 Fa1 Va0 Va1 eq_refl (Ht i) HA FD VD HD x Fx Hx) as (Fp & Ep & Bp).
  destruct (bq_R a0 a1 T1 (Aval i) (Aval (S i)) (Dval i) (tz t (S i)) Fa0 Fa1 Va0 Va1 eq_refl (Ht (S i)) HA FD VD HD x Fx Hx) as (Fq & Eq & Bq).
  destruct (br_R a0 a1 T0 T1 (Aval i) (Aval (S i)) (Dval i) (tz t i) (tz t (S i)) Fa0 Fa1 Va0 Va1 eq_refl eq_refl (Ht i) (Ht (S i)) HA FD VD HD x Fx Hx) as (Fr & Er & Br).
  destruct (bucket_errors a0 a1 T0 T1 (Aval i) (Aval (S i)) (Dval i) (tz t i) (tz t (S i)) Fa0 Fa1 Va0 Va1 eq_refl eq_refl (Ht i) (Ht (S i)) HA FD VD HD x Fx Hx) as (X1 & X2 & X3 & X4 & X5 & X6).
  split; [exact Fr|].
  exists (FR (bn a0 x)), (FR (bt a0 a1 x)), (FR (bu a0 a1 x)), (FR (bp a0 a1 T0 x)), (FR (bq a0 a1 T1 x)).
  pose proof (fmt_FR _ Ft). pose proof (fmt_FR _ Fn).
  repeat split; tauto.
Qed.

(** ** Closeness to the polygon *)
Definition lineR (t : list Z) (i : nat) (x : R) : R :=
  IZR (tz t i) + (IZR (tz t (S i)) - IZR (tz t i)) * ((x - Aval i) / (Aval (S i) - Aval i)).

Ltac abs_split := repeat match goal with
  | H : Rabs _ <= _ |- _ => apply Rabs_le_inv in H
  end.

Lemma bucket_close : forall t i x r, (i < 4)%nat -> Aval i <= x <= Aval (S i) ->
  steps t i x r -> In t [[0; 0; 100; 200; 500]; [0; 0; 20; 75; 75]]%Z ->
  Rabs (r - lineR t i x) <= / 4000.
Proof.
  intros t i x r Hi Hx (n & q & u & p & w & _ & _ & Bn & Bq & Bu & Bp & Bw & Br & X1 & X2 & X3 & X4 & X5 & X6 & _) Ht.
  apply Rabs_le. unfold lineR, eps, tiny in *.
  destruct Ht as [<-|[<-|[]]];
  destruct (lt4_cases i Hi) as [->|[->|[->| ->]]]; cbn [tz nth Aval Dval] in *; unfold tz in *; cbn [nth] in *;
  abs_split; lra.
Qed.

Lemma fwd_ok : table_ok [0; 0; 100; 200; 500]%Z.
Proof. intros i. unfold tz. do 5 (destruct i; [simpl; lia|]). destruct i; simpl; lia. Qed.
Lemma rev_ok : table_ok [0; 0; 20; 75; 75]%Z.
Proof. intros i. unfold tz. do 5 (destruct i; [simpl; lia|]). destruct i; simpl; lia. Qed.

(** ** Envelope *)
Lemma half_ulp_512 : forall r, 0 <= r <= 500 -> Rabs (rnd r - r) <= / 65536.
Proof.
  intros r Hr.
  eapply Rle_trans; [apply error_le_half_ulp; typeclasses eauto|].
  destruct (Req_dec r 0) as [->|N].
  { unfold fexp32. rewrite ulp_FLT_0; [|exact hprec]. rewrite bpow_neg_val.
    assert (/ IZR (2 ^ 149) <= / 65536); [|lra].
    apply Rinv_le_contravar; [lra|]. apply IZR_le. now vm_compute. }
  assert (U : ulp radix2 fexp32 r <= bpow radix2 (-15)).
  { rewrite ulp_neq_0 by assumption. apply bpow_le. unfold cexp, fexp32, FLT_exp.
    assert (M : (mag radix2 r <= 9)%Z).
    { apply mag_le_bpow; auto. rewrite Rabs_pos_eq by lra. simpl. lra. }
    lia. }
  rewrite bpow_neg_val in U. change (2 ^ 15)%Z with 32768%Z in U. lra.
Qed.

Lemma fwd_bucket3_peak : forall x r, Aval 3 <= x <= Aval 4 ->
  steps [0; 0; 100; 200; 500]%Z 3 x r -> r <= 500.
Proof.
  intros x r Hx (n & q & u & p & w & Fq & _ & Bn & Bq & Bu & Bp & Bw & Br & _ & _ & _ & _ & _ & _ &
     Er & Ew & Ep & Eu & _).
  unfold tz in *. cbn [nth] in *.
  assert (S : p + w <= 500).
  { destruct (Req_dec q 1) as [->|N].
    - replace (1 - 1) with 0 in Eu by ring. rewrite rnd_0 in Eu. subst u.
      rewrite Rmult_0_l, rnd_0 in Ep. lra.
    - assert (Q : q <= 1 - eps) by (apply below_one; [exact Fq|lra]).
      generalize (half_ulp_512 (q * 500)). rewrite <- Ew. intros W.
      assert (W' : Rabs (w - q * 500) <= / 65536) by (apply W; lra).
      destruct (rnd_err (1 - q)) as (d & e & Hd & He & E1). rewrite <- Eu in E1.
      destruct (rnd_err (u * 200)) as (d2 & e2 & Hd2 & He2 & E2). rewrite <- Ep in E2.
      assert (E24 : bpow radix2 (-24) = eps) by (rewrite bpow_neg_val; unfold eps; do 2 f_equal).
      assert (E150 : bpow radix2 (-150) <= tiny).
      { rewrite bpow_neg_val. unfold tiny. apply Rinv_le_contravar; [lra|]. apply IZR_le. now vm_compute. }
      rewrite E24 in Hd, Hd2.
      assert (Hu : u <= (1 - q) * (1 + eps) + tiny).
      { rewrite E1. apply Rabs_le_inv in Hd. apply Rabs_le_inv in He.
        assert ((1 - q) * (1 + d) <= (1 - q) * (1 + eps)) by (apply Rmult_le_compat_l; lra). lra. }
      assert (Hp : p <= u * 200 * (1 + eps) + tiny).
      { rewrite E2. apply Rabs_le_inv in Hd2. apply Rabs_le_inv in He2.
        assert (u * 200 * (1 + d2) <= u * 200 * (1 + eps)) by (apply Rmult_le_compat_l; lra). lra. }
      apply Rabs_le_inv in W'. unfold eps, tiny in *. lra. }
  rewrite Er. change 500 with (IZR 500). rewrite <- (rnd_IZR 500) by lia. now apply rnd_le.
Qed.

Lemma peak_fwd : peak TorqueMap_Default = 500.
Proof.
  unfold peak. rewrite fwd_tmap. cbn [tm_torque tmap map fold_right].
  rewrite (proj2 (f_of_Z_R 0 ltac:(lia))), (proj2 (f_of_Z_R 100 ltac:(lia))),
    (proj2 (f_of_Z_R 200 ltac:(lia))), (proj2 (f_of_Z_R 500 ltac:(lia))).
  unfold Rmax. repeat destruct Rle_dec; lra.
Qed.
Lemma peak_rev : peak TorqueMap_DefaultReverse = 75.
Proof.
  unfold peak. rewrite rev_tmap. cbn [tm_torque tmap map fold_right].
  rewrite (proj2 (f_of_Z_R 0 ltac:(lia))), (proj2 (f_of_Z_R 20 ltac:(lia))),
    (proj2 (f_of_Z_R 75 ltac:(lia))).
  unfold Rmax. repeat destruct Rle_dec; lra.
Qed.

Lemma none_zero : forall m x, find_bucket m x = None -> TorqueMap_Interpolate m x = f_zero.
Proof. intros m x H. unfold TorqueMap_Interpolate. now rewrite H. Qed.

Lemma line_range : forall t i x, (i < 4)%nat -> Aval i <= x <= Aval (S i) ->
  In t [[0; 0; 100; 200; 500]; [0; 0; 20; 75; 75]]%Z ->
  0 <= lineR t i x <= IZR (tz t (S i)).
Proof.
  intros t i x Hi Hx Ht. unfold lineR, tz.
  destruct Ht as [<-|[<-|[]]];
  destruct (lt4_cases i Hi) as [->|[->|[->| ->]]]; cbn [nth Aval Dval] in *; lra.
Qed.

Lemma envelope_fwd : forall x, f_ok x = true ->
  let r := TorqueMap_Interpolate TorqueMap_Default x in
  fin r /\ 0 <= FR r <= 500.
Proof.
  intros x Hok. rewrite fwd_tmap. cbv zeta.
  destruct (pick [0; 0; 100; 200; 500]%Z x Hok) as [(i & Hi & Hf & Fx & Hx)|[Hf _]].
  - destruct (bucket_steps _ i x fwd_ok Hi Hf Fx Hx) as [F St]. split; [exact F|].
    assert (C := bucket_close _ _ _ _ Hi Hx St (or_introl eq_refl)).
    assert (L := line_range _ _ _ Hi Hx (or_introl eq_refl)).
    split; [destruct St as (? & ? & ? & ? & ? & St); tauto|].
    destruct (Nat.eq_dec i 3) as [->|N]; [now apply fwd_bucket3_peak in St|].
    apply Rabs_le_inv in C.
    assert (tz [0; 0; 100; 200; 500] (S i) <= 200)%Z.
    { destruct (lt4_cases i Hi) as [->|[->|[->| ->]]]; unfold tz; simpl; lia. }
    apply IZR_le in H. lra.
  - rewrite (none_zero _ _ Hf), FR_zero. split; [apply fin_zero|lra].
Qed.

Lemma envelope_rev : forall x, f_ok x = true ->
  let r := TorqueMap_Interpolate TorqueMap_DefaultReverse x in
  fin r /\ 0 <= FR r <= 75 + / 4000.
Proof.
  intros x Hok. rewrite rev_tmap. cbv zeta.
  destruct (pick [0; 0; 20; 75; 75]%Z x Hok) as [(i & Hi & Hf & Fx & Hx)|[Hf _]].
  - destruct (bucket_steps _ i x rev_ok Hi Hf Fx Hx) as [F St]. split; [exact F|].
    assert (C := bucket_close _ _ _ _ Hi Hx St (or_intror (or_introl eq_refl))).
    assert (L := line_range _ _ _ Hi Hx (or_intror (or_introl eq_refl))).
    split; [destruct St as (? & ? & ? & ? & ? & St); tauto|].
    apply Rabs_le_inv in C.
    assert (tz [0; 0; 20; 75; 75] (S i) <= 75)%Z.
    { destruct (lt4_cases i Hi) as [->|[->|[->| ->]]]; unfold tz; simpl; lia. }
    apply IZR_le in H. lra.
  - rewrite (none_zero _ _ Hf), FR_zero. split; [apply fin_zero|lra].
Qed.

(** Dead zone and outside. *)
Lemma zero_zone : forall t x, In t [[0; 0; 100; 200; 500]; [0; 0; 20; 75; 75]]%Z ->
  f_ok x = true -> f_isfin x = false \/ FR x < FR (f_lit 1 10) \/ 1 < FR x ->
  FR (TorqueMap_Interpolate (tmap t) x) = 0.
Proof.
  intros t x Ht Hok Hx.
  assert (V : FR (f_lit 1 10) = Aval 1) by (apply (acc_val 1); lia). rewrite V in Hx.
  destruct (pick t x Hok) as [(i & Hi & Hf & Fx & Hx2)|[Hf _]].
  - assert (i = 0%nat).
    { destruct Fx as [_ F]. rewrite F in Hx. destruct Hx as [?|Hx]; [discriminate|].
      destruct (lt4_cases i Hi) as [->|[->|[->| ->]]]; auto; cbn [Aval] in *; lra. }
    subst i.
    assert (Ok : table_ok t) by (destruct Ht as [<-|[<-|[]]]; [apply fwd_ok|apply rev_ok]).
    destruct (bucket_steps _ _ x Ok Hi Hf Fx Hx2) as [F St].
    destruct St as (n & q & u & p & w & _ & _ & Bn & Bq & Bu & Bp & Bw & Br & _ & _ & _ & _ & _ & _ & Er & _).
    destruct Ht as [<-|[<-|[]]]; unfold tz in *; cbn [nth] in *;
    assert (p = 0) by lra; assert (w = 0) by lra; subst p w; rewrite Er, Rplus_0_r; apply rnd_0.
  - now rewrite (none_zero _ _ Hf).
Qed.

(** ** The polygon of the specification *)
Lemma point_accel_val : forall t i, (i <= 4)%nat -> point_accel (tmap t) i = Aval i.
Proof. intros. unfold point_accel. apply acc_val. lia. Qed.
Lemma point_torque_val : forall t i, table_ok t -> point_torque (tmap t) i = IZR (tz t i).
Proof.
  intros t i H. unfold point_torque. generalize (torque_entry t i). unfold fnth. intros ->.
  apply f_of_Z_R. specialize (H i). lia.
Qed.

Lemma polygon_line : forall t x y, table_ok t -> on_polygon (tmap t) x y ->
  exists i, (i < 4)%nat /\ Aval i <= x <= Aval (S i) /\ y = lineR t i x.
Proof.
  intros t x y Ht (i & Hi & Hx & Hy). exists i.
  rewrite !point_accel_val in * by lia. rewrite !point_torque_val in Hy by assumption. auto.
Qed.

Lemma line_unique : forall t i j x, (i < 4)%nat -> (j < 4)%nat ->
  Aval i <= x <= Aval (S i) -> Aval j <= x <= Aval (S j) ->
  In t [[0; 0; 100; 200; 500]; [0; 0; 20; 75; 75]]%Z -> lineR t i x = lineR t j x.
Proof.
  intros t i j x Hi Hj Hx Hy Ht. unfold lineR, tz.
  destruct Ht as [<-|[<-|[]]];
  destruct (lt4_cases i Hi) as [->|[->|[->| ->]]];
  destruct (lt4_cases j Hj) as [->|[->|[->| ->]]]; cbn [nth Aval] in *; lra.
Qed.

Lemma line_mono : forall t i j x y, (i < 4)%nat -> (j < 4)%nat -> x <= y ->
  Aval i <= x <= Aval (S i) -> Aval j <= y <= Aval (S j) ->
  In t [[0; 0; 100; 200; 500]; [0; 0; 20; 75; 75]]%Z -> lineR t i x <= lineR t j y.
Proof.
  intros t i j x y Hi Hj L Hx Hy Ht. unfold lineR, tz.
  destruct Ht as [<-|[<-|[]]];
  destruct (lt4_cases i Hi) as [->|[->|[->| ->]]];
  destruct (lt4_cases j Hj) as [->|[->|[->| ->]]]; cbn [nth Aval] in *; lra.
Qed.


Lemma shipped_tmap : forall m, shipped m ->
  exists t, In t [[0; 0; 100; 200; 500]; [0; 0; 20; 75; 75]]%Z /\ table_ok t /\ m = tmap t.
Proof.
  intros m [->| ->].
  - exists [0; 0; 100; 200; 500]%Z. rewrite fwd_tmap. repeat split; [left; auto|apply fwd_ok..].
  - exists [0; 0; 20; 75; 75]%Z. rewrite rev_tmap. repeat split; [right; left; auto|apply rev_ok..].
Qed.

Lemma polygon_close : forall m x y, shipped m -> fin x -> on_polygon m (FR x) y ->
  Rabs (FR (TorqueMap_Interpolate m x) - y) <= / 4000.
Proof.
  intros m x y Hm Fx Hp. destruct (shipped_tmap m Hm) as (t & Ht & Hok & ->).
  destruct (polygon_line _ _ _ Hok Hp) as (i & Hi & Hx & ->).
  destruct (pick t x (proj1 Fx)) as [(j & Hj & Hf & _ & Hy)|[_ N]].
  - rewrite (line_unique t i j) by assumption.
    destruct (bucket_steps _ j x Hok Hj Hf Fx Hy) as [F St].
    now apply bucket_close.
  - exfalso. specialize (N Fx).
    destruct (lt4_cases i Hi) as [->|[->|[->| ->]]]; cbn [Aval] in *; lra.
Qed.

Lemma polygon_exists : forall m x, shipped m -> fin x -> 0 <= FR x <= 1 ->
  exists y, on_polygon m (FR x) y.
Proof.
  intros m x Hm Fx Hx. destruct (shipped_tmap m Hm) as (t & Ht & Hok & ->).
  destruct (pick t x (proj1 Fx)) as [(j & Hj & Hf & _ & Hy)|[_ N]].
  - eexists. exists j. rewrite !point_accel_val by lia. split; [exact Hj|]. split; [exact Hy|reflexivity].
  - exfalso. specialize (N Fx). lra.
Qed.

Lemma polygon_mono : forall m x1 x2 y1 y2, shipped m -> x1 <= x2 ->
  on_polygon m x1 y1 -> on_polygon m x2 y2 -> y1 <= y2.
Proof.
  intros m x1 x2 y1 y2 Hm L P1 P2. destruct (shipped_tmap m Hm) as (t & Ht & Hok & ->).
  destruct (polygon_line _ _ _ Hok P1) as (i & Hi & Hx1 & ->).
  destruct (polygon_line _ _ _ Hok P2) as (j & Hj & Hx2 & ->).
  now apply line_mono.
Qed.
