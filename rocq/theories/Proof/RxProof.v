From Coq Require Import ZifyBool.
From Verif.Model Require Import Bms InverterRx.
From Verif.Spec Require Import RxSpec.
From Verif.Proof Require Import BitFacts.
Ltac Zify.zify_post_hook ::= Z.div_mod_to_equations.

Lemma latest_snoc : forall A bus id (dec : list Z -> A) prev q x,
  latest bus id dec prev (q ++ [x]) =
  if genuine bus id x then dec (fr_data (fst x)) else latest bus id dec prev q.
Proof.
  intros. unfold latest. rewrite rev_unit. simpl. destruct (genuine bus id x); auto.
  now destruct x.
Qed.

Lemma s16_small : forall z, 0 <= z < 256 -> s16 z = z.
Proof. intros. unfold s16. change (2 ^ 16) with 65536. change (2 ^ 15) with 32768. cbv zeta.
  rewrite Z.mod_small by lia. destruct (Z.ltb_spec z 32768); lia. Qed.

Lemma or_s16_spec : forall lo hi, is_byte lo -> is_byte hi ->
  or_s16 lo hi = if lo + 256 * hi <? 32768 then lo + 256 * hi else lo + 256 * hi - 65536.
Proof.
  intros lo hi L H. unfold is_byte in *. unfold or_s16. rewrite Z.lor_0_l.
  rewrite (s16_small lo) by lia. rewrite (s16_small lo) by lia.
  rewrite Z.shiftl_mul_pow2 by lia. change (2 ^ 8) with 256.
  assert (S : s16 (hi * 256) = (if hi <? 128 then hi else hi - 256) * 2 ^ 8).
  { unfold s16. change (2 ^ 16) with 65536. change (2 ^ 15) with 32768. change (2 ^ 8) with 256.
    cbv zeta. rewrite Z.mod_small by lia.
    destruct (Z.ltb_spec (hi * 256) 32768); destruct (Z.ltb_spec hi 128); lia. }
  rewrite S. rewrite lor_disjoint by (change (2 ^ 8) with 256; lia).
  change (2 ^ 8) with 256. unfold s16. change (2 ^ 16) with 65536. change (2 ^ 15) with 32768.
  cbv zeta. destruct (Z.ltb_spec hi 128).
  - rewrite Z.mod_small by lia. destruct (Z.ltb_spec (lo + 256 * hi) 32768);
    destruct (Z.ltb_spec (lo + hi * 256) 32768); lia.
  - assert (E : (lo + (hi - 256) * 256) mod 65536 = lo + 256 * hi) by lia. rewrite E. reflexivity.
Qed.

Lemma or_u16_spec : forall lo hi, is_byte lo -> is_byte hi -> or_u16 lo hi = lo + 256 * hi.
Proof.
  intros lo hi L H. unfold is_byte in *. unfold or_u16, u16. rewrite Z.lor_0_l.
  change (2 ^ 16) with 65536. rewrite Z.shiftl_mul_pow2 by lia.
  rewrite !(Z.mod_small lo) by lia. change (2 ^ 8) with 256.
  rewrite (Z.mod_small (hi * 256)) by lia.
  change 256 with (2 ^ 8) at 1. rewrite lor_disjoint by (change (2 ^ 8) with 256; lia).
  change (2 ^ 8) with 256. rewrite Z.mod_small by lia. lia.
Qed.

Definition bytes_ok (x : can_frame * bool) : Prop := frame_bytes (fst x).

Lemma dat_byte : forall f i, frame_bytes f -> is_byte (dat f i).
Proof. intros. unfold dat. now apply nth_byte. Qed.

Lemma or_s16_raw : forall f o, frame_bytes f -> or_s16 (dat f o) (dat f (S o)) = raw_s16 o (fr_data f).
Proof. intros. apply or_s16_spec; now apply dat_byte. Qed.
Lemma or_u16_raw : forall f o, frame_bytes f -> or_u16 (dat f o) (dat f (S o)) = raw_u16 o (fr_data f).
Proof. intros. apply or_u16_spec; now apply dat_byte. Qed.

Ltac by_id id c := destruct (Z.eqb_spec id c) as [->|?]; [cbn|].

Lemma battery_step : forall bus q b x s, bytes_ok x ->
  bms_handle bus (set_battery s (battery_after bus q b)) x
  = set_battery s (battery_after bus (q ++ [x]) b).
Proof.
  intros bus q b [f lock] s HB. unfold bytes_ok in HB. simpl in HB.
  unfold battery_after. rewrite !latest_snoc. unfold genuine, fst, snd.
  unfold bms_handle.
  destruct (fr_bus f =? bus); [|reflexivity].
  unfold BMS_CAN_ID_MAXCELLSTATE, BMS_CAN_ID_MINCELLSTATE, BMS_CAN_ID_PACKSTATE, BMS_CAN_ID_STATUS.
  unfold HandleMsg_MaxCellState, HandleMsg_MinCellState, HandleMsg_PackState, HandleMsg_Status.
  rewrite ?or_s16_raw, ?or_u16_raw by assumption.
  destruct (fr_dlc f =? 8);
    [|rewrite !andb_false_r; simpl; repeat (destruct (Z.eqb _ _)); reflexivity].
  destruct lock;
    [|rewrite !andb_false_r; simpl; repeat (destruct (Z.eqb _ _)); reflexivity].
  simpl negb. cbv iota. rewrite !andb_true_r. simpl andb.
  destruct (Z.eqb_spec (fr_id f) 769) as [->|?]; [reflexivity|].
  destruct (Z.eqb_spec (fr_id f) 770) as [->|?]; [reflexivity|].
  destruct (Z.eqb_spec (fr_id f) 771) as [->|?]; [reflexivity|].
  destruct (Z.eqb_spec (fr_id f) 772); reflexivity.
Qed.

Lemma set_battery_same : forall s, set_battery s (vs_battery s) = s.
Proof. now intros []. Qed.

Lemma battery_refine : forall bus s q, Forall bytes_ok q ->
  BMSProcessing bus s q = set_battery s (battery_after bus q (vs_battery s)).
Proof.
  intros bus s q. induction q as [|x q IH] using rev_ind; intros H.
  - destruct s as [? ? ? ? ? ? [] ? ?]. reflexivity.
  - apply Forall_app in H. destruct H as [H1 H2]. inversion H2; subst.
    unfold BMSProcessing in *. rewrite fold_left_app. simpl. rewrite IH by assumption.
    now apply battery_step.
Qed.

(** ** Inverter *)
Lemma fu16_raw : forall f o, fu16 f o = raw_u16 o (fr_data f).
Proof. reflexivity. Qed.
Lemma fs16_raw : forall f o, frame_bytes f -> fs16 f o = raw_s16 o (fr_data f).
Proof.
  intros f o H. unfold fs16. rewrite fu16_raw. unfold s16, raw_s16.
  assert (0 <= raw_u16 o (fr_data f) < 65536).
  { unfold raw_u16. generalize (nth_byte _ o H) (nth_byte _ (S o) H). unfold is_byte. lia. }
  change (2 ^ 16) with 65536. change (2 ^ 15) with 32768. cbv zeta. now rewrite Z.mod_small by lia.
Qed.
Lemma fu32_raw : forall f o, fu32 f o = raw_u32 o (fr_data f).
Proof.
  intros. unfold fu32, raw_u32, raw_u16, le32, dat.
  rewrite (Nat.add_comm o 1), (Nat.add_comm o 2), (Nat.add_comm o 3). simpl. lia.
Qed.
Lemma shiftr5 : forall z, Z.shiftr z 5 = z / 32.
Proof. intros. now rewrite Z.shiftr_div_pow2 by lia. Qed.
Lemma land1 : forall z, Z.land z 1 = z mod 2.
Proof. intros. change 1 with (Z.ones 1). now rewrite Z.land_ones by lia. Qed.

Lemma inv_step : forall bus q m v x s, bytes_ok x ->
  inv_handle bus (set_inverter (set_motor s (motor_after bus q m)) (inverter_after bus q v)) x
  = set_inverter (set_motor s (motor_after bus (q ++ [x]) m)) (inverter_after bus (q ++ [x]) v).
Proof.
  intros bus q m v [f lock] s HB. unfold bytes_ok in HB. simpl in HB.
  unfold motor_after at 2, inverter_after at 2. rewrite !latest_snoc. unfold genuine, fst, snd.
  unfold inv_handle, publish.
  destruct (fr_bus f =? bus); [|reflexivity].
  destruct (fr_dlc f =? 8);
    [|rewrite !andb_false_r; simpl; repeat (destruct (Z.eqb _ _)); reflexivity].
  destruct lock;
    [|rewrite !andb_false_r; simpl; repeat (destruct (Z.eqb _ _)); reflexivity].
  simpl negb. cbv iota zeta. rewrite !andb_true_r. simpl andb.
  unfold CINVERTER_CAN_ID_TEMPERATURES1, CINVERTER_CAN_ID_TEMPERATURES2,
    CINVERTER_CAN_ID_TEMPERATURES3, CINVERTER_CAN_ID_MOTOR_POS_INFO, CINVERTER_CAN_ID_CURRENT_INFO,
    CINVERTER_CAN_ID_VOLTAGE_INFO, CINVERTER_CAN_ID_FLUX_INFO, CINVERTER_CAN_ID_INTERNAL_STATES,
    CINVERTER_CAN_ID_FAULT_CODES, CINVERTER_CAN_ID_TORQUE_TIMER, CINVERTER_CAN_ID_FLUX_WEAKENING.
  unfold upd_Temperatures1, upd_Temperatures2, upd_Temperatures3, upd_MotorPosInfo, upd_CurrentInfo,
    upd_VoltageInfo, upd_FluxInfo, upd_InternalStates, upd_FaultCodes, upd_TorqueTimer, upd_FluxWeakening.
  rewrite !fu16_raw, !fu32_raw, !fs16_raw, shiftr5, !land1 by assumption.
  unfold inv_msgToAngularVelocity.
  change (s16 (raw_u16 2 (fr_data f))) with (fs16 f 2). rewrite fs16_raw by assumption.
  destruct (Z.eqb_spec (fr_id f) 160) as [->|?]; [reflexivity|].
  destruct (Z.eqb_spec (fr_id f) 161) as [->|?]; [reflexivity|].
  destruct (Z.eqb_spec (fr_id f) 162) as [->|?]; [reflexivity|].
  destruct (Z.eqb_spec (fr_id f) 165) as [->|?]; [reflexivity|].
  destruct (Z.eqb_spec (fr_id f) 166) as [->|?]; [reflexivity|].
  destruct (Z.eqb_spec (fr_id f) 167) as [->|?]; [reflexivity|].
  destruct (Z.eqb_spec (fr_id f) 168) as [->|?]; [reflexivity|].
  destruct (Z.eqb_spec (fr_id f) 170) as [->|?]; [reflexivity|].
  destruct (Z.eqb_spec (fr_id f) 171) as [->|?]; [reflexivity|].
  destruct (Z.eqb_spec (fr_id f) 172) as [->|?]; [reflexivity|].
  destruct (Z.eqb_spec (fr_id f) 173); reflexivity.
Qed.

Lemma inv_refine : forall bus s q, Forall bytes_ok q ->
  InverterProcessing bus s q =
  set_inverter (set_motor s (motor_after bus q (vs_motor s))) (inverter_after bus q (vs_inverter s)).
Proof.
  intros bus s q. induction q as [|x q IH] using rev_ind; intros H.
  - destruct s as [? ? ? ? ? ? ? [] []]. reflexivity.
  - apply Forall_app in H. destruct H as [H1 H2]. inversion H2; subst.
    unfold InverterProcessing in *. rewrite fold_left_app. simpl. rewrite IH by assumption.
    now apply inv_step.
Qed.
