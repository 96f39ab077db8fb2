(** Invariants of the inverter command path. *)
From Coq Require Import Reals Psatz.
From Flocq Require Import Core.
From Coq Require Import ZifyBool.
From Verif.Base Require Import F32Real.
From Verif.Model Require Import InverterCmd.
From Verif.Spec Require Import InverterSpec.
From Verif.Proof Require Import F32Facts.
Open Scope Z_scope.
Ltac Zify.zify_post_hook ::= Z.div_mod_to_equations.

Lemma s16_bytes : forall z, -32768 <= z <= 32767 -> s16 (le16 (byte 0 z) (byte 1 z)) = z.
Proof.
  intros z H. unfold s16, le16, byte.
  change (2 ^ (8 * 0)) with 1. change (2 ^ (8 * 1)) with 256.
  change (2 ^ 16) with 65536. change (2 ^ 15) with 32768.
  assert (E : ((z / 1) mod 256 + 256 * ((z / 256) mod 256)) mod 65536 = z mod 65536)
    by (rewrite Z.div_1_r; lia).
  cbv zeta. rewrite E. destruct (Z.ltb_spec (z mod 65536) 32768); lia.
Qed.

Lemma enc_torque : forall t d en dis, -32768 <= t <= 32767 ->
  frame_torque (command_bytes t d en dis) = t.
Proof. intros. unfold frame_torque, command_bytes. cbn [nth]. now apply s16_bytes. Qed.
Lemma enc_dir : forall t d en dis, frame_direction (command_bytes t d en dis) = Z.land d 1.
Proof. reflexivity. Qed.
Lemma enc_enable : forall t d en dis, frame_enable (command_bytes t d en dis) = en.
Proof. intros. unfold frame_enable, command_bytes. cbn [nth]. now destruct en, dis. Qed.
Lemma enc_discharge : forall t d en dis, frame_discharge (command_bytes t d en dis) = dis.
Proof. intros. unfold frame_discharge, command_bytes. cbn [nth]. now destruct en, dis. Qed.
Lemma enc_mode : forall t d en dis, frame_speed_mode (command_bytes t d en dis) = false.
Proof. intros. unfold frame_speed_mode, command_bytes. cbn [nth]. now destruct en, dis. Qed.
Lemma enc_rest : forall t d en dis, frame_speed (command_bytes t d en dis) = 0 /\
  frame_torque_limit (command_bytes t d en dis) = 0.
Proof. now split. Qed.

(** ** Call results *)
Lemma torque_result : forall l k c t d r,
  SendTorqueCommand l k c t d = Some r ->
  ir_cmd r = c /\
  ((ir_tx r = [] /\ granted (ir_status r) = false) \/
   (exists m, -32768 <= m <= 32767 /\ ic_enabled c = true /\ l = true /\
      ir_tx r = [mkTx 0x0C0 (command_bytes m d true false) k] /\
      ir_status r = if k then INV_OK else INV_ERROR_CAN)).
Proof.
  intros l k c t d r. unfold SendTorqueCommand.
  destruct (flt t f_zero || fgt t INVERTER_MAX_TORQUE); [intros [= <-]; simpl; auto|].
  destruct l; simpl; [|intros [= <-]; simpl; auto].
  destruct (ic_enabled c) eqn:E; simpl; [|intros [= <-]; simpl; auto].
  unfold SendCANCommand. destruct (torqueToMsg t) as [m|] eqn:M; [|discriminate].
  intros [= <-]. simpl. split; auto. right. exists m.
  split; [|auto 6].
  - unfold torqueToMsg, f_to_s16 in M. destruct (f_trunc _); [|discriminate].
    destruct (_ && _) eqn:B; [|discriminate]. injection M as <-. lia.
Qed.

Definition both (c : inv_cmd) : bool := ic_enabled c && ic_discharge c.
Definition frame_both (d : list Z) : bool := frame_enable d && frame_discharge d.

Lemma exec_both : forall c k e r, inv_exec c k e = Some r -> both c = false ->
  both (ir_cmd r) = false /\ forallb (fun d => negb (frame_both d)) (map tx_data (ir_tx r)) = true.
Proof.
  intros [en dis] k [l k1 k2] r H Hb. unfold both in *. simpl in Hb.
  destruct k as [t d|on|on]; simpl in H.
  - apply torque_result in H. destruct H as (-> & [[-> _]|(m & _ & _ & _ & -> & _)]); simpl; auto.
  - injection H as <-. unfold SendInverterEnabled. destruct l, en, dis, on; try discriminate; now simpl.
  - injection H as <-. unfold SendInverterDischarge. destruct l, en, dis, on; try discriminate; now simpl.
Qed.

Lemma run_both : forall h c c' tr, inv_run c h = Some (c', tr) -> both c = false ->
  both c' = false /\ forallb (fun d => negb (frame_both d)) (frames tr) = true.
Proof.
  induction h as [|[k e] h IH]; intros c c' tr H Hb; simpl in H.
  - injection H as <- <-. auto.
  - destruct (inv_exec c k e) as [r|] eqn:E; [|discriminate].
    destruct (inv_run (ir_cmd r) h) as [[c2 tr2]|] eqn:R; [|discriminate].
    injection H as <- <-. destruct (exec_both _ _ _ _ E Hb) as [B1 F1].
    destruct (IH _ _ _ R B1) as [B2 F2]. split; auto.
    simpl. rewrite forallb_app. now rewrite F1, F2.
Qed.

(** ** The driver's flags are the granted modes *)
Lemma exec_mode : forall c k e r, inv_exec c k e = Some r -> both c = false ->
  (ic_enabled (ir_cmd r), ic_discharge (ir_cmd r))
  = mode_step (ic_enabled c, ic_discharge c) (k, r).
Proof.
  intros [en dis] k [l k1 k2] r H Hb. unfold both in Hb. simpl in Hb.
  destruct k as [t d|on|on]; simpl in H.
  - apply torque_result in H. destruct H as (-> & _). unfold mode_step. simpl.
    now destruct (granted _).
  - injection H as <-. unfold SendInverterEnabled.
    destruct l, en, dis, on, k1, k2; try discriminate; reflexivity.
  - injection H as <-. unfold SendInverterDischarge.
    destruct l, en, dis, on, k1; try discriminate; reflexivity.
Qed.

Lemma run_mode : forall h c c' tr, inv_run c h = Some (c', tr) -> both c = false ->
  (ic_enabled c', ic_discharge c') = fold_left mode_step tr (ic_enabled c, ic_discharge c).
Proof.
  induction h as [|[k e] h IH]; intros c c' tr H Hb; simpl in H.
  - injection H as <- <-. reflexivity.
  - destruct (inv_exec c k e) as [r|] eqn:E; [|discriminate].
    destruct (inv_run (ir_cmd r) h) as [[c2 tr2]|] eqn:R; [|discriminate].
    injection H as <- <-. cbn [fold_left]. rewrite <- (exec_mode _ _ _ _ E Hb).
    apply IH; auto. now apply (exec_both _ _ _ _ E).
Qed.

Lemma run_snoc_call : forall h c c1 tr k e r,
  inv_run c h = Some (c1, tr) -> inv_exec c1 k e = Some r ->
  inv_run c (h ++ [(k, e)]) = Some (ir_cmd r, tr ++ [(k, r)]).
Proof.
  induction h as [|[k0 e0] h IH]; intros c c1 tr k e r H E; simpl in *.
  - injection H as <- <-. rewrite E. reflexivity.
  - destruct (inv_exec c k0 e0) as [r0|]; [|discriminate].
    destruct (inv_run (ir_cmd r0) h) as [[c2 tr2]|] eqn:R; [|discriminate].
    injection H as <- <-. erewrite IH by eauto. reflexivity.
Qed.

Lemma run_split_last : forall h c c' tr k e,
  inv_run c (h ++ [(k, e)]) = Some (c', tr) ->
  exists c1 tr1 r, inv_run c h = Some (c1, tr1) /\ inv_exec c1 k e = Some r /\
    c' = ir_cmd r /\ tr = tr1 ++ [(k, r)].
Proof.
  induction h as [|[k0 e0] h IH]; intros c c' tr k e H; simpl in *.
  - destruct (inv_exec c k e) as [r|] eqn:E; [|discriminate]. injection H as <- <-.
    exists c, [], r. auto.
  - destruct (inv_exec c k0 e0) as [r0|] eqn:E0; [|discriminate].
    destruct (inv_run (ir_cmd r0) (h ++ [(k, e)])) as [[c2 tr2]|] eqn:R; [|discriminate].
    injection H as <- <-. destruct (IH _ _ _ _ _ R) as (c1 & tr1 & r & H1 & H2 & H3 & H4).
    exists c1, ((k0, r0) :: tr1), r. rewrite H1. subst. auto.
Qed.

Lemma frames_app : forall a b, frames (a ++ b) = frames a ++ frames b.
Proof. intros. apply flat_map_app. Qed.

Lemma init_both : both inv_cmd_init = false. Proof. reflexivity. Qed.

(** ** Frame order *)
Definition zeroF (en dis : bool) : list Z := command_bytes 0 DIR_FORWARD en dis.

(** What [k] with result [r] appends, given the flags before. *)
Lemma exec_frames : forall c k e r, inv_exec c k e = Some r -> both c = false ->
  let fs := map tx_data (ir_tx r) in
  let c' := ir_cmd r in
  (fs = [] /\ c' = c) \/
  (exists m d, fs = [command_bytes m d true false] /\ -32768 <= m <= 32767 /\ ic_enabled c = true /\ c' = c) \/
  (fs = [zeroF false false; zeroF true false] /\ ic_enabled c = false /\ c' = mkInvCmd true false) \/
  (fs = [zeroF true false] /\ ic_enabled c = true /\ c' = c) \/
  (fs = [zeroF false false] /\ ic_enabled c' = false) \/
  (fs = [zeroF false true] /\ ic_enabled c' = false) \/
  (fs = [zeroF false false] /\ k = CDischarge false /\ ic_enabled c = true /\ c' = mkInvCmd true false).
Proof.
  intros [en dis] k [l k1 k2] r H Hb. unfold both in Hb. simpl in Hb.
  destruct k as [t d|on|on]; simpl in H.
  - apply torque_result in H. destruct H as (-> & [[-> _]|(m & Hm & He & _ & -> & _)]); simpl.
    + auto.
    + right; left. exists m, d. auto.
  - injection H as <-. unfold SendInverterEnabled, zero_tx.
    destruct l, en, dis, on; try discriminate; simpl; unfold zeroF; auto 10.
  - injection H as <-. unfold SendInverterDischarge, zero_tx.
    destruct l, en, dis, on; try discriminate; simpl; unfold zeroF; auto 10.
Qed.

(** Every enabling frame directly follows an enabling frame or a release. *)
Definition well_preceded (fs : list (list Z)) : Prop :=
  forall pre f post, fs = pre ++ f :: post -> frame_enable f = true ->
    exists p g, pre = p ++ [g] /\ (frame_enable g = true \/ lockout_release g).

(** The last frame, if any, allows an enabling frame to follow. *)
Definition open_end (fs : list (list Z)) : Prop :=
  exists p g, fs = p ++ [g] /\ (frame_enable g = true \/ lockout_release g).

Lemma wp_snoc : forall fs f, well_preceded fs ->
  (frame_enable f = true -> open_end fs) -> well_preceded (fs ++ [f]).
Proof.
  intros fs f W O pre g post E G.
  destruct post as [|x post].
  - assert (fs = pre /\ f = g) as [-> ->] by now apply app_inj_tail. exact (O G).
  - destruct (@exists_last _ (x :: post)) as (a' & b' & Hab'); [discriminate|].
    rewrite Hab' in E. change (g :: a' ++ [b']) with ((g :: a') ++ [b']) in E.
    rewrite app_assoc in E. apply app_inj_tail in E. destruct E as [-> ->].
    now apply (W pre g a').
Qed.

Lemma zero_release : lockout_release (zeroF false false).
Proof. now repeat split. Qed.

Lemma run_order : forall h c tr, inv_run inv_cmd_init h = Some (c, tr) ->
  well_preceded (frames tr) /\ (ic_enabled c = true -> open_end (frames tr)).
Proof.
  intros h. induction h as [|[k e] h IH] using rev_ind; intros c tr H.
  - injection H as <- <-. split; [|discriminate]. intros [|? ?] ? ? E; discriminate.
  - apply run_split_last in H. destruct H as (c1 & tr1 & r & R & E & -> & ->).
    destruct (IH _ _ R) as [W O]. destruct (run_both _ _ _ _ R init_both) as [B _].
    rewrite frames_app. unfold frames at 2 4. simpl. rewrite !app_nil_r.
    destruct (exec_frames _ _ _ _ E B) as
      [(-> & ->)|[(m & d & -> & Hm & He & ->)|[(-> & He & ->)|[(-> & He & ->)|
       [(-> & He)|[(-> & He)|(-> & _ & _ & ->)]]]]]].
    + rewrite app_nil_r. auto.
    + split; [apply wp_snoc; auto|]. intros _. exists (frames tr1), (command_bytes m d true false).
      split; [reflexivity|left; apply enc_enable].
    + split.
      * change [zeroF false false; zeroF true false] with ([zeroF false false] ++ [zeroF true false]).
        rewrite app_assoc. apply wp_snoc; [apply wp_snoc; auto; discriminate|].
        intros _. exists (frames tr1), (zeroF false false). split; [reflexivity|right; apply zero_release].
      * intros _. exists (frames tr1 ++ [zeroF false false]), (zeroF true false).
        rewrite <- app_assoc. split; auto.
    + split; [apply wp_snoc; auto|]. intros _. exists (frames tr1), (zeroF true false). auto.
    + split; [apply wp_snoc; auto; discriminate|]. rewrite He. discriminate.
    + split; [apply wp_snoc; auto; discriminate|]. rewrite He. discriminate.
    + split; [apply wp_snoc; auto; discriminate|]. intros _.
      exists (frames tr1), (zeroF false false). split; [reflexivity|right; apply zero_release].
Qed.

(** The part of [fs] since the last enabling sequence: release, zero-torque
    enable, then only enabling frames. *)
Definition enabled_run (fs : list (list Z)) : Prop :=
  exists p r e mid, fs = p ++ [r; e] ++ mid /\ lockout_release r /\
    frame_enable e = true /\ frame_torque e = 0 /\ Forall (fun g => frame_enable g = true) mid.
Definition ever_enabled (fs : list (list Z)) : Prop :=
  exists p r e mid, fs = p ++ [r; e] ++ mid /\ lockout_release r /\
    frame_enable e = true /\ frame_torque e = 0.

Definition torque_after (Q : list (list Z) -> Prop) (fs : list (list Z)) : Prop :=
  forall pre f post, fs = pre ++ f :: post -> frame_torque f <> 0 ->
    frame_enable f = true /\ Q pre.

Lemma ta_snoc : forall Q fs f, torque_after Q fs ->
  (frame_torque f <> 0 -> frame_enable f = true /\ Q fs) -> torque_after Q (fs ++ [f]).
Proof.
  intros Q fs f W O pre g post E G.
  destruct post as [|x post].
  - assert (fs = pre /\ f = g) as [-> ->] by now apply app_inj_tail. auto.
  - destruct (@exists_last _ (x :: post)) as (a' & b' & Hab'); [discriminate|].
    rewrite Hab' in E. change (g :: a' ++ [b']) with ((g :: a') ++ [b']) in E.
    rewrite app_assoc in E. apply app_inj_tail in E. destruct E as [-> ->].
    now apply (W pre g a').
Qed.

Lemma er_snoc : forall fs f, enabled_run fs -> frame_enable f = true -> enabled_run (fs ++ [f]).
Proof.
  intros fs f (p & r & e & mid & -> & H1 & H2 & H3 & H4) Hf.
  exists p, r, e, (mid ++ [f]). rewrite <- !app_assoc. repeat split; try apply H1; auto.
  apply Forall_app; auto.
Qed.
Lemma ee_snoc : forall fs f, ever_enabled fs -> ever_enabled (fs ++ [f]).
Proof.
  intros fs f (p & r & e & mid & -> & H1 & H2 & H3).
  exists p, r, e, (mid ++ [f]). rewrite <- !app_assoc. repeat split; try apply H1; auto.
Qed.
Lemma er_new : forall fs, enabled_run (fs ++ [zeroF false false; zeroF true false]).
Proof.
  intros. exists fs, (zeroF false false), (zeroF true false), []. rewrite app_nil_r.
  repeat split; auto.
Qed.


Lemma run_torque : forall Q : list (list Z) -> Prop,
  (forall fs, Q (fs ++ [zeroF false false; zeroF true false])) ->
  (forall fs f, Q fs -> frame_enable f = true -> Q (fs ++ [f])) ->
  forall h,
  ((forall fs f, Q fs -> Q (fs ++ [f])) \/ Forall (fun x => fst x <> CDischarge false) h) ->
  forall c tr, inv_run inv_cmd_init h = Some (c, tr) ->
  torque_after Q (frames tr) /\ (ic_enabled c = true -> Q (frames tr)).
Proof.
  intros Q Qn Qe h. induction h as [|[k e] h IH] using rev_ind; intros D c tr H.
  - injection H as <- <-. split; [|discriminate]. intros [|? ?] ? ? E; discriminate.
  - apply run_split_last in H. destruct H as (c1 & tr1 & r & R & E & -> & ->).
    assert (D' : (forall fs f, Q fs -> Q (fs ++ [f])) \/ Forall (fun x => fst x <> CDischarge false) h).
    { destruct D as [D|D]; auto. apply Forall_app in D. tauto. }
    destruct (IH D' _ _ R) as [W O]. destruct (run_both _ _ _ _ R init_both) as [B _].
    rewrite frames_app. unfold frames at 2 4. simpl. rewrite !app_nil_r.
    assert (Z0 : forall en dis, torque_after Q (frames tr1 ++ [zeroF en dis])).
    { intros en dis. apply ta_snoc; [assumption|]. intros N. exfalso. apply N. reflexivity. }
    destruct (exec_frames _ _ _ _ E B) as
      [(-> & ->)|[(m & d & -> & Hm & He & ->)|[(-> & He & ->)|[(-> & He & ->)|
       [(-> & He)|[(-> & He)|(-> & K & He & ->)]]]]]].
    + rewrite app_nil_r. auto.
    + split; [apply ta_snoc; [assumption|intros _; split; [apply enc_enable|auto]]|].
      intros _. apply Qe; auto.
    + split; auto.
      change [zeroF false false; zeroF true false] with ([zeroF false false] ++ [zeroF true false]).
      rewrite app_assoc. apply ta_snoc; [apply Z0|].
      intros N. exfalso. apply N. reflexivity.
    + split; auto.
    + split; auto. rewrite He. discriminate.
    + split; auto. rewrite He. discriminate.
    + split; auto. intros _. destruct D as [D|D]; auto.
      apply Forall_app in D. destruct D as [_ D]. inversion D. simpl in *. contradiction.
Qed.

Lemma run_torque_ever : forall h c tr, inv_run inv_cmd_init h = Some (c, tr) ->
  torque_after ever_enabled (frames tr).
Proof.
  intros h c tr H. refine (proj1 (run_torque ever_enabled _ _ h (or_introl _) c tr H)).
  - intros. exists fs, (zeroF false false), (zeroF true false), [].
    rewrite app_nil_r. now repeat split.
  - intros. now apply ee_snoc.
  - intros. now apply ee_snoc.
Qed.

Lemma run_torque_strict : forall h c tr, inv_run inv_cmd_init h = Some (c, tr) ->
  Forall (fun x => fst x <> CDischarge false) h ->
  torque_after enabled_run (frames tr).
Proof.
  intros h c tr H F. refine (proj1 (run_torque enabled_run _ _ h (or_intror F) c tr H)).
  - apply er_new.
  - apply er_snoc.
Qed.

(** ** Real value of the torque field *)
Open Scope R_scope.
Lemma max_val : FR INVERTER_MAX_TORQUE = 13421363 / 4096.
Proof.
  change INVERTER_MAX_TORQUE with (SpecFloat.S754_finite false 13421363 (-12)).
  rewrite FR_finite, bpow_neg_val. change (2 ^ 12)%Z with 4096%Z. lra.
Qed.
Lemma max_fin : fin INVERTER_MAX_TORQUE. Proof. split; reflexivity. Qed.


Lemma range_test : forall t, fin t ->
  (flt t f_zero || fgt t INVERTER_MAX_TORQUE = false)%bool <-> in_range t.
Proof.
  intros t H. unfold fgt, in_range.
  change (SpecFloat.SFltb INVERTER_MAX_TORQUE t) with (flt INVERTER_MAX_TORQUE t).
  rewrite flt_R by (auto; apply fin_zero). rewrite flt_R by (auto; apply max_fin).
  rewrite orb_false_iff, FR_zero. split.
  - intros [A B]. split; apply Rnot_lt_le; intros C.
    + rewrite Rlt_bool_true in A; auto; discriminate.
    + rewrite Rlt_bool_true in B; auto; discriminate.
  - intros [A B]. now rewrite !Rlt_bool_false.
Qed.

Lemma ten_times : forall t, fin t -> in_range t ->
  fin (fmul (f_of_Z 10) t) /\ FR (fmul (f_of_Z 10) t) = rnd (10 * FR t) /\
  0 <= rnd (10 * FR t) <= 32767.
Proof.
  intros t H [R1 R2]. destruct (f_of_Z_R 10) as [F10 V10]; [lia|].
  assert (M : FR INVERTER_MAX_TORQUE * 10 <= 32767 + 1 / 1024).
  { rewrite max_val. lra. }
  assert (U : rnd (10 * FR t) <= 32767).
  { apply Rle_trans with (rnd (10 * FR INVERTER_MAX_TORQUE)).
    - apply rnd_le. lra.
    - destruct (f_of_Z_R 10) as [F V]; [lia|]. rewrite <- V.
      destruct (fmul_R (f_of_Z 10) INVERTER_MAX_TORQUE F max_fin) as [_ E].
      + apply fits_IZR with 40000%Z; [lia|]. rewrite V, Rabs_pos_eq; [lra|rewrite max_val; lra].
      + rewrite <- E.
        replace (fmul (f_of_Z 10) INVERTER_MAX_TORQUE) with (f_of_Z 32767) by (vm_compute; reflexivity).
        destruct (f_of_Z_R 32767) as [_ ->]; [lia|]. apply Rle_refl. }
  assert (L : 0 <= rnd (10 * FR t)).
  { rewrite <- rnd_0. apply rnd_le. lra. }
  destruct (fmul_R (f_of_Z 10) t F10 H) as [F E].
  - rewrite V10. apply fits_IZR with 40000%Z; [lia|]. rewrite Rabs_pos_eq; lra.
  - rewrite V10 in E. auto.
Qed.

Lemma torque_field : forall t, fin t -> in_range t ->
  exists m, torqueToMsg t = Some m /\ (0 <= m <= 32767)%Z /\ m = Zfloor (rnd (10 * FR t)).
Proof.
  intros t H R. destruct (ten_times t H R) as (F & E & L & U).
  exists (Zfloor (rnd (10 * FR t))). unfold torqueToMsg, f_to_s16.
  rewrite f_trunc_R by apply F. rewrite E. rewrite Ztrunc_floor by assumption.
  assert (B : (0 <= Zfloor (rnd (10 * FR t)) <= 32767)%Z).
  { split.
    - apply Zfloor_lub. exact L.
    - apply le_IZR. eapply Rle_trans; [apply Zfloor_lb|exact U]. }
  destruct (_ && _) eqn:C; [auto|].
  apply andb_false_iff in C. lia.
Qed.


(** The rounding of the product moves it by at most 1/512 (of 0.1 Nm). *)
Lemma ten_err : forall r, 0 <= r <= FR INVERTER_MAX_TORQUE -> Rabs (rnd (10 * r) - 10 * r) <= 1 / 512.
Proof.
  intros r [H1 H2]. rewrite max_val in H2.
  destruct (rnd_err (10 * r)) as (d & e & Hd & He & ->).
  replace (10 * r * (1 + d) + e - 10 * r) with (10 * r * d + e) by ring.
  rewrite !bpow_neg_val in *.
  assert (E24 : / IZR (2 ^ 24) = / 16777216) by (do 2 f_equal).
  assert (E150 : / IZR (2 ^ 150) <= / 16777216).
  { apply Rinv_le_contravar; [lra|]. apply IZR_le. now vm_compute. }
  rewrite E24 in Hd.
  eapply Rle_trans; [apply Rabs_triang|]. rewrite Rabs_mult.
  assert (P : Rabs (10 * r) * Rabs d <= 32768 * / 16777216 - / 16777216).
  { rewrite (Rabs_pos_eq (10 * r)) by lra.
    apply Rle_trans with (10 * (13421363 / 4096) * / 16777216); [|lra].
    apply Rmult_le_compat; [lra|apply Rabs_pos|lra|exact Hd]. }
  lra.
Qed.

Lemma torque_field_err : forall t m, fin t -> in_range t -> torqueToMsg t = Some m ->
  10 * FR t - 1 - 1 / 512 < IZR m <= 10 * FR t + 1 / 512.
Proof.
  intros t m H R M. destruct (torque_field t H R) as (m' & M' & _ & E).
  rewrite M in M'. injection M' as <-.
  generalize (ten_err (FR t) R). intros A. apply Rabs_le_inv in A.
  generalize (Zfloor_lb (rnd (10 * FR t))) (Zfloor_ub (rnd (10 * FR t))). rewrite <- E. lra.
Qed.

(** Every whole number of Nm is encoded exactly. *)
Lemma whole_nm : forall k, (0 <= k <= 3276)%Z -> torqueToMsg (f_of_Z k) = Some (10 * k)%Z.
Proof.
  intros k H. destruct (f_of_Z_R k) as [F V]; [lia|].
  assert (Hk : 0 <= IZR k <= 3276) by (split; apply IZR_le; lia).
  assert (R : in_range (f_of_Z k)) by (unfold in_range; rewrite V, max_val; lra).
  destruct (torque_field _ F R) as (m & M & _ & E). rewrite M. f_equal. rewrite E, V.
  replace (10 * IZR k) with (IZR (10 * k)) by (rewrite mult_IZR; reflexivity).
  rewrite rnd_IZR by lia. apply Zfloor_IZR.
Qed.
