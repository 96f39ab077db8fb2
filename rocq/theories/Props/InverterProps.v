(** C16-C19: commands to the traction inverter. A history [h] is any list of
    driver calls, each with its own lock and CAN outcome; [inv_run inv_cmd_init h]
    executes it from power-up. *)
From Coq Require Import Reals Psatz.
From Verif.Base Require Import F32Real.
From Verif.Model Require Import InverterCmd.
From Verif.Spec Require Import InverterSpec.
From Verif.Proof Require Import F32Facts InverterCmdProof.
Open Scope Z_scope.

Definition good : inv_env := mkEnv true true true.

(** ** C16 *)
Theorem C16_never_drive_and_discharge :
  forall h c tr,
    inv_run inv_cmd_init h = Some (c, tr) ->
    (forall f, In f (frames tr) -> ~ (frame_enable f = true /\ frame_discharge f = true)) /\
    ~ (ic_enabled c = true /\ ic_discharge c = true) /\
    ~ (driving tr = true /\ discharging tr = true).
Proof.
  intros h c tr H. destruct (run_both _ _ _ _ H init_both) as [B F].
  generalize (run_mode _ _ _ _ H init_both). intros M.
  assert (N : ~ (ic_enabled c = true /\ ic_discharge c = true)).
  { intros [X Y]. unfold both in B. rewrite X, Y in B. discriminate. }
  split; [|split; auto].
  - intros f I [X Y]. rewrite forallb_forall in F. specialize (F f I).
    unfold frame_both in F. rewrite X, Y in F. discriminate.
  - unfold driving, discharging, mode_of.
    change (false, false) with (ic_enabled inv_cmd_init, ic_discharge inv_cmd_init).
    rewrite <- M. exact N.
Qed.
Print Assumptions C16_never_drive_and_discharge.

(** The mode is read off the calls and their return codes ([driving],
    [discharging]); a conflicting request is refused without any frame. *)
Theorem C16_conflicting_requests_refused :
  forall h c tr e,
    inv_run inv_cmd_init h = Some (c, tr) ->
    e_lock e = true ->
    (discharging tr = true ->
       inv_exec c (CEnable true) e = Some (mkInvRes c [] INV_ERROR_DISCHARGE)) /\
    (driving tr = true ->
       inv_exec c (CDischarge true) e = Some (mkInvRes c [] INV_ERROR_NOT_DISABLED)).
Proof.
  intros h c tr e H L. generalize (run_mode _ _ _ _ H init_both). intros M.
  unfold driving, discharging, mode_of.
  change (false, false) with (ic_enabled inv_cmd_init, ic_discharge inv_cmd_init).
  rewrite <- M. simpl. unfold SendInverterEnabled, SendInverterDischarge. rewrite L. simpl.
  split; intros ->; reflexivity.
Qed.
Print Assumptions C16_conflicting_requests_refused.

(** The granted mode follows requests: without a conflict they are granted. *)
Theorem C16_other_requests_granted :
  forall h c tr e,
    inv_run inv_cmd_init h = Some (c, tr) ->
    e_lock e = true ->
    (forall on, on = false \/ discharging tr = false ->
       exists r, inv_exec c (CEnable on) e = Some r /\ granted (ir_status r) = true) /\
    (forall on, on = false \/ driving tr = false ->
       exists r, inv_exec c (CDischarge on) e = Some r /\ granted (ir_status r) = true).
Proof.
  intros h c tr e H L. generalize (run_mode _ _ _ _ H init_both). intros M.
  unfold driving, discharging, mode_of.
  change (false, false) with (ic_enabled inv_cmd_init, ic_discharge inv_cmd_init).
  rewrite <- M. simpl. unfold SendInverterEnabled, SendInverterDischarge. rewrite L. simpl.
  split; intros on Hon; eexists; (split; [reflexivity|]).
  - destruct (ic_discharge c), on, (negb (ic_enabled c)); destruct Hon; try discriminate; reflexivity.
  - destruct (ic_enabled c), on, (e_can1 e); destruct Hon; try discriminate; reflexivity.
Qed.
Print Assumptions C16_other_requests_granted.

(** Drive, stop, discharge, then try to drive again. *)
Example C16_example :
  exists c tr,
    inv_run inv_cmd_init
      [(CEnable true, good); (CTorque (f_of_Z 50) 1, good); (CDischarge true, good);
       (CEnable false, good); (CDischarge true, good); (CEnable true, good)] = Some (c, tr) /\
    map (fun x => ir_status (snd x)) tr =
      [INV_OK; INV_OK; INV_ERROR_NOT_DISABLED; INV_OK; INV_OK; INV_ERROR_DISCHARGE] /\
    map (fun f => (frame_torque f, frame_enable f, frame_discharge f)) (frames tr) =
      [(0, false, false); (0, true, false); (500, true, false); (0, false, false); (0, false, true)] /\
    discharging tr = true.
Proof. do 2 eexists. split; [vm_compute; reflexivity|]. now vm_compute. Qed.

(** ** C17 *)
(** [in_range t]: the request is between 0 and 3276.7f. *)
Theorem C17_accepted_torque_encoding :
  forall c t dir canOk,
    fin t -> in_range t -> ic_enabled c = true ->
    exists f m,
      SendTorqueCommand true canOk c t dir =
        Some (mkInvRes c [mkTx 0x0C0 f canOk] (if canOk then INV_OK else INV_ERROR_CAN)) /\
      length f = 8%nat /\ Forall is_byte f /\
      frame_torque f = m /\ 0 <= m <= 32767 /\
      (10 * FR t - 1 - 1 / 512 < IZR m <= 10 * FR t + 1 / 512)%R /\
      frame_direction f = dir mod 2 /\ frame_enable f = true /\ frame_discharge f = false /\
      frame_speed f = 0 /\ frame_speed_mode f = false /\ frame_torque_limit f = 0.
Proof.
  intros c t dir canOk F R E. destruct (torque_field t F R) as (m & M & B & _).
  exists (command_bytes m dir true false), m. split.
  - unfold SendTorqueCommand. rewrite (proj2 (range_test t F) R). simpl. rewrite E. simpl.
    unfold SendCANCommand. rewrite M. reflexivity.
  - split; [reflexivity|]. split.
    { assert (D : 0 <= Z.land dir 1 < 256).
      { change 1 with (Z.ones 1). rewrite Z.land_ones by lia.
        generalize (Z.mod_pos_bound dir (2 ^ 1)). lia. }
      unfold command_bytes, is_byte.
      repeat (apply Forall_cons; [first [exact D|apply Z.mod_pos_bound; lia|simpl; lia]|]).
      constructor. }
    rewrite enc_torque by lia. rewrite enc_dir, enc_enable, enc_discharge, enc_mode.
    replace (Z.land dir 1) with (dir mod 2)
      by (change 1 with (Z.ones 1); now rewrite Z.land_ones by lia).
    destruct (torque_field_err t m F R M) as [E1 E2].
    repeat split; auto; try lia; apply enc_rest.
Qed.
Print Assumptions C17_accepted_torque_encoding.

(** Whole Nm requests are encoded exactly. *)
Theorem C17_whole_nm_exact :
  forall k canOk c dir, 0 <= k <= 3276 -> ic_enabled c = true ->
    exists r f, SendTorqueCommand true canOk c (f_of_Z k) dir = Some r /\
      map tx_data (ir_tx r) = [f] /\ frame_torque f = 10 * k.
Proof.
  intros k canOk c dir Hk E. destruct (f_of_Z_R k) as [F V]; [lia|].
  assert (R : in_range (f_of_Z k)).
  { assert (0 <= IZR k <= 3276)%R by (split; apply IZR_le; lia).
    unfold in_range. rewrite V, max_val. lra. }
  unfold SendTorqueCommand. rewrite (proj2 (range_test _ F) R). simpl. rewrite E. simpl.
  unfold SendCANCommand. rewrite whole_nm by assumption.
  eexists. eexists. split; [reflexivity|]. split; [reflexivity|]. apply enc_torque. lia.
Qed.
Print Assumptions C17_whole_nm_exact.

(** The truncation is that of the rounded product: just below a multiple of
    0.1 Nm the field may be the next step. 0.7f is below 0.7. *)
Theorem C17_exact_truncation_refuted :
  exists t m, fin t /\ in_range t /\ torqueToMsg t = Some m /\ (10 * FR t < IZR m)%R.
Proof.
  exists (f_lit 7 10), 7. split; [split; reflexivity|].
  assert (V : FR (f_lit 7 10) = (11744051 / 16777216)%R).
  { change (f_lit 7 10) with (SpecFloat.S754_finite false 11744051 (-24)).
    rewrite FR_finite, bpow_neg_val. change (2 ^ 24) with 16777216. lra. }
  unfold in_range. rewrite V, max_val. repeat split; try lra.
Qed.
Print Assumptions C17_exact_truncation_refuted.

Theorem C17_bad_torque_rejected :
  forall lock canOk c t dir,
    (fin t /\ ~ in_range t) \/ t = SpecFloat.S754_infinity false \/ t = SpecFloat.S754_infinity true ->
    SendTorqueCommand lock canOk c t dir = Some (mkInvRes c [] INV_ERROR_VALUE).
Proof.
  intros lock canOk c t dir [[F N]|[->| ->]]; try reflexivity.
  unfold SendTorqueCommand.
  destruct (flt t f_zero || fgt t INVERTER_MAX_TORQUE) eqn:E; [reflexivity|].
  exfalso. apply N. now apply range_test.
Qed.
Print Assumptions C17_bad_torque_rejected.

Theorem C17_not_enabled_rejected :
  forall canOk c t dir,
    fin t -> in_range t -> ic_enabled c = false ->
    SendTorqueCommand true canOk c t dir = Some (mkInvRes c [] INV_ERROR_NOT_ENABLED).
Proof.
  intros canOk c t dir F R E. unfold SendTorqueCommand.
  rewrite (proj2 (range_test t F) R). simpl. now rewrite E.
Qed.
Print Assumptions C17_not_enabled_rejected.

(** NaN passes the range check; the conversion to int16 is then undefined. *)
Theorem C17_nan_accepted_refuted :
  forall canOk c dir, ic_enabled c = true ->
    SendTorqueCommand true canOk c SpecFloat.S754_nan dir = None.
Proof. intros canOk c dir E. unfold SendTorqueCommand. simpl. now rewrite E. Qed.
Print Assumptions C17_nan_accepted_refuted.

Example C17_example :
  option_map (fun r => map tx_data (ir_tx r))
    (SendTorqueCommand true true (mkInvCmd true false) (f_lit 2505 10) 0)
  = Some [[201; 9; 0; 0; 0; 1; 0; 0]].
Proof. vm_compute. reflexivity. Qed.
Example C17_largest :
  option_map (fun r => map (fun x => frame_torque (tx_data x)) (ir_tx r))
    (SendTorqueCommand true true (mkInvCmd true false) INVERTER_MAX_TORQUE 1) = Some [32767].
Proof. vm_compute. reflexivity. Qed.

(** ** C18 *)
Theorem C18_enable_follows_release :
  forall h c tr pre f post,
    inv_run inv_cmd_init h = Some (c, tr) ->
    frames tr = pre ++ f :: post ->
    frame_enable f = true ->
    exists p g, pre = p ++ [g] /\ (frame_enable g = true \/ lockout_release g).
Proof. intros h c tr pre f post H. exact (proj1 (run_order _ _ _ H) pre f post). Qed.
Print Assumptions C18_enable_follows_release.

(** A frame that carries torque is an enabling frame, and an enabling sequence
    (release, then zero-torque enable) was sent before it. *)
Theorem C18_torque_after_enable :
  forall h c tr pre f post,
    inv_run inv_cmd_init h = Some (c, tr) ->
    frames tr = pre ++ f :: post ->
    frame_torque f <> 0 ->
    frame_enable f = true /\
    exists p r e mid, pre = p ++ [r; e] ++ mid /\ lockout_release r /\
      frame_enable e = true /\ frame_torque e = 0.
Proof. intros h c tr pre f post H. exact (run_torque_ever _ _ _ H pre f post). Qed.
Print Assumptions C18_torque_after_enable.

(** As long as nobody ends discharge mode (no firmware code does), no
    disabling frame lies between that enabling sequence and the torque frame. *)
Theorem C18_torque_directly_after_enable :
  forall h c tr pre f post,
    inv_run inv_cmd_init h = Some (c, tr) ->
    Forall (fun x => fst x <> CDischarge false) h ->
    frames tr = pre ++ f :: post ->
    frame_torque f <> 0 ->
    frame_enable f = true /\
    exists p r e mid, pre = p ++ [r; e] ++ mid /\ lockout_release r /\
      frame_enable e = true /\ frame_torque e = 0 /\
      Forall (fun g => frame_enable g = true) mid.
Proof. intros h c tr pre f post H F. exact (run_torque_strict _ _ _ H F pre f post). Qed.
Print Assumptions C18_torque_directly_after_enable.

(** Ending discharge mode while driving sends a disabling frame, but the next
    torque request is still accepted: torque directly after a disable. *)
Theorem C18_torque_after_disable_refuted :
  exists h c tr, inv_run inv_cmd_init h = Some (c, tr) /\
    map (fun f => (frame_torque f, frame_enable f)) (frames tr) =
      [(0, false); (0, true); (0, false); (1000, true)].
Proof.
  exists [(CEnable true, good); (CDischarge false, good); (CTorque (f_of_Z 100) 1, good)].
  do 2 eexists. split; vm_compute; reflexivity.
Qed.
Print Assumptions C18_torque_after_disable_refuted.

(** When CAN refuses the release frame, the enabling frame still goes out. *)
Theorem C18_lost_release_refuted :
  exists h c tr, inv_run inv_cmd_init h = Some (c, tr) /\
    map (fun f => (frame_torque f, frame_enable f)) (delivered tr) = [(0, true); (1000, true)].
Proof.
  exists [(CEnable true, mkEnv true false true); (CTorque (f_of_Z 100) 1, good)].
  do 2 eexists. split; vm_compute; reflexivity.
Qed.
Print Assumptions C18_lost_release_refuted.

Example C18_example :
  exists c tr,
    inv_run inv_cmd_init
      [(CTorque (f_of_Z 9) 1, good); (CEnable true, good); (CTorque (f_of_Z 9) 1, good);
       (CEnable false, good); (CTorque (f_of_Z 9) 1, good); (CEnable true, good);
       (CTorque (f_of_Z 8) 1, good)] = Some (c, tr) /\
    map (fun f => (frame_torque f, frame_enable f)) (frames tr) =
      [(0, false); (0, true); (90, true); (0, false); (0, false); (0, true); (80, true)].
Proof. do 2 eexists. split; vm_compute; reflexivity. Qed.

(** ** C19 *)
(** Some frame of the call was not taken by CAN. *)
Definition tx_failed (r : inv_res) : Prop := exists t, In t (ir_tx r) /\ tx_ok t = false.

Theorem C19_torque_and_discharge_report_partial :
  forall c k e r,
    inv_exec c k e = Some r -> tx_failed r ->
    (forall on, k <> CEnable on) ->
    ir_status r = INV_ERROR_CAN.
Proof.
  intros c k e r H (t & I & F) N. destruct k as [q d|on|on]; simpl in H.
  - apply torque_result in H.
    destruct H as (_ & [[E _]|(m & _ & _ & _ & E & S)]); rewrite E in I; [destruct I|].
    destruct I as [<-|[]]. simpl in F. subst. rewrite F in S. exact S.
  - now elim (N on).
  - injection H as <-. unfold SendInverterDischarge in *.
    destruct (e_lock e); simpl in *; [|destruct I].
    destruct (ic_enabled c && on); simpl in *; [destruct I|].
    destruct I as [<-|[]]. simpl in F. now rewrite F.
Qed.
Print Assumptions C19_torque_and_discharge_report_partial.

(** The enable call returns OK although none of its frames was sent. *)
Theorem C19_enable_reports_failure_refuted :
  exists c e r, inv_exec c (CEnable true) e = Some r /\
    length (ir_tx r) = 2%nat /\ Forall (fun t => tx_ok t = false) (ir_tx r) /\
    ir_status r = INV_OK /\ ic_enabled (ir_cmd r) = true.
Proof.
  exists inv_cmd_init, (mkEnv true false false). eexists.
  split; [reflexivity|]. repeat constructor.
Qed.
Print Assumptions C19_enable_reports_failure_refuted.

(** Indeed it never reports a CAN error. *)
Theorem C19_enable_never_reports_refuted :
  forall c on e r, inv_exec c (CEnable on) e = Some r -> ir_status r <> INV_ERROR_CAN.
Proof.
  intros c on e r [= <-]. unfold SendInverterEnabled.
  destruct (e_lock e), (ic_discharge c), on, (negb (ic_enabled c)); simpl; discriminate.
Qed.
Print Assumptions C19_enable_never_reports_refuted.

Example C19_example :
  exists r, inv_exec (mkInvCmd true false) (CTorque (f_of_Z 3) 1) (mkEnv true false true) = Some r /\
    tx_failed r /\ ir_status r = INV_ERROR_CAN.
Proof.
  eexists. split; [vm_compute; reflexivity|]. split; [|reflexivity].
  eexists. split; [left; reflexivity|reflexivity].
Qed.
