(** C89, C90: what the inverter is told on the bus, and what is left when the
    processor stops or a task hangs. [board_run c tick m0 bs] is the ECU with the
    CAN controller of the inverter's bus after the events [bs] from power-up. *)
From Coq Require Import Permutation Reals.
From Verif.Model Require Import Ecu.
From Verif.Spec Require Import VsmSpec InverterSpec EcuSpec TorqueSpec.
From Verif.Proof Require Import VsmProof EcuProof EcuFrames EcuPedal.
From Verif.Proof Require CanDriverProof.
From Verif.Spec Require Import EcuBusSpec CanDriverSpec.
From Verif.Proof Require Import EcuBusProof.
From Verif.Props Require Import FaultProps VsmProps EcuProps.
Open Scope Z_scope.

Definition bd (bs : list board_event) : board := board_run default_config 10 shipped_vsm bs.

(** ** C89 *)
(** Under every schedule the frames on the bus are, each at most once, commands
    that the throttle controller or the state manager handed over and for which
    the driver answered OK. *)
Theorem C89_only_accepted_commands :
  forall c tick m0 bs, let b := board_run c tick m0 bs in
  exists rest, Permutation (accepted_commands (bd_ecu b)) (bus_of b ++ rest).
Proof. intros c tick m0 bs b. destruct (bus_accounted c tick m0 bs) as (lost & P). eexists. exact P. Qed.
Print Assumptions C89_only_accepted_commands.

(** So whatever the pedal sensor reports, no frame on the bus asks for more than
    500 Nm, backwards, or discharge. *)
Theorem C89_bus_frames_in_range :
  forall c tick m0 bs i d, vsm_init c tick = Some m0 -> cpu_events pedal_ok bs ->
    In (i, d) (bus_of (board_run c tick m0 bs)) ->
    i = 0x0C0 /\ length d = 8%nat /\ 0 <= frame_torque d <= 5000 /\ frame_direction d = 1 /\ frame_discharge d = false.
Proof.
  intros c tick m0 bs i d HI P IN. destruct (bus_accounted c tick m0 bs) as (lost & PM).
  assert (A : In (i, d) (accepted_commands (bd_ecu (board_run c tick m0 bs)))).
  { eapply Permutation_in; [symmetry; exact PM|]. apply in_or_app. now left. }
  destruct (board_inv_run c tick m0 bs) as [_ _ (es & E & PL)].
  assert (PO : Forall pedal_ok es).
  { apply PL; [|exact P]. intros ev oks H. destruct ev; cbn [answered pedal_ok] in *; auto;
      destruct oks as [|? [|? [|? ?]]]; exact Logic.I. }
  apply in_map_iff in A as (t & W & A). apply filter_In in A as [A _]. rewrite E in A.
  destruct (C14_every_frame_in_range c tick m0 es HI PO) as (_ & R). destruct (R t A) as (R1 & R2 & R3 & R4).
  unfold on_wire in W. injection W as <- <-. split; [exact R1|]. split; [|auto].
  pose proof (sent_eight c tick m0 es) as L. rewrite Forall_forall in L. exact (L t A).
Qed.
Print Assumptions C89_bus_frames_in_range.

(** When the bus keeps up with the processor, every command appears, in the order
    in which the commands were given. *)
Theorem C89_all_in_order_when_bus_keeps_up_partial :
  forall c tick m0 es, let b := board_run c tick m0 (keeps_up es) in
    bd_ecu b = ecu_run c tick m0 (map all_taken es) /\
    bus_of b = map on_wire (e_sent (bd_ecu b)).
Proof.
  intros c tick m0 es b. destruct (keeps_up_run c tick m0 es) as (E & _ & _ & B). fold b in E, B.
  rewrite E. auto.
Qed.
Print Assumptions C89_all_in_order_when_bus_keeps_up_partial.

(** On such a bus, once the vehicle is not driven any more, the next activation of
    the throttle task tells the inverter zero torque. *)
Theorem C89_zero_torque_reaches_bus_partial :
  forall c tick m0 es live ok, vsm_init c tick = Some m0 -> Forall waits es ->
    let e := bd_ecu (board_run c tick m0 (keeps_up es)) in
    ~ driving e -> e_tpc e = TIdle -> ic_enabled (e_inv e) = true ->
    told_torque (board_run c tick m0 (keeps_up (es ++ activation live true ok))) = Some 0.
Proof.
  intros c tick m0 es live ok HI W. cbv zeta.
  destruct (keeps_up_run c tick m0 es) as (E & _ & _ & B). rewrite E. intros ND ID EN.
  destruct (keeps_up_run c tick m0 (es ++ activation live true ok)) as (_ & _ & _ & B2).
  unfold told_torque. rewrite B2, map_app.
  assert (W' : Forall waits (map all_taken es)).
  { rewrite Forall_forall in *. intros x H. apply in_map_iff in H as (y & <- & H). specialize (W y H). now destruct y. }
  change (map all_taken (activation live true ok)) with (activation live true true).
  destruct (zero_sent c tick m0 (map all_taken es) live HI W' ND ID EN) as (t & S & Z0).
  rewrite S, map_app. cbn [map]. rewrite rev_app_distr. cbn [rev app on_wire]. now rewrite Z0.
Qed.
Print Assumptions C89_zero_torque_reaches_bus_partial.

(** As shipped, a bus that lags behind for a moment is enough to turn the order
    round: no transmission fails, the vehicle is back in ACTIVE_NEUTRAL, the last
    command given is zero torque and has been on the bus, and the last command the
    inverter has received asks for 500 Nm. *)
Definition slow_bs : list board_event :=
  keeps_up (drive ++ step (ok_in false 5) 0) ++
  map BEcu (pedal f_one) ++ [BStart] ++ map BEcu (pedal f_one) ++ [BDone true] ++
  map BEcu (step (ok_in true 5) 1 ++ step (ok_in false 5) 0 ++ pedal f_one) ++
  [BStart; BDone true; BStart; BDone true].
Theorem C89_overtaken_command_refuted :
  let b := bd slow_bs in
  ~ In (BDone false) slow_bs /\ vm_state (e_vsm (bd_ecu b)) = StActiveNeutral /\ e_pend (bd_ecu b) = None /\
  map (fun t => frame_torque (tx_data t)) (e_sent (bd_ecu b)) = [0; 0; 5000; 5000; 0] /\
  map (fun f => frame_torque (snd f)) (bus_of b) = [0; 0; 5000; 0; 5000] /\
  told_torque b = Some 5000.
Proof.
  cbv zeta. split.
  - intros H. assert (F : forallb (fun x => match x with BDone false => false | _ => true end) slow_bs = true)
      by (vm_compute; reflexivity).
    rewrite forallb_forall in F. specialize (F _ H). discriminate.
  - vm_compute. auto 10.
Qed.
Print Assumptions C89_overtaken_command_refuted.

Example C89_nonvacuous :
  let b := bd (keeps_up (drive ++ step (ok_in false 5) 0 ++ pedal f_one)) in
  map (fun f => (fst f, frame_torque (snd f), frame_enable (snd f))) (bus_of b) =
    [(192, 0, false); (192, 0, true); (192, 5000, true)] /\ told_torque b = Some 5000.
Proof. vm_compute. auto. Qed.
Example C89_zero_nonvacuous :
  let e := bd_ecu (bd (keeps_up (drive ++ step (ok_in false 5) 0 ++ pedal f_one ++ step (ok_in true 5) 1))) in
  vm_state (e_vsm e) = StActiveNeutral /\ e_tpc e = TIdle /\ ic_enabled (e_inv e) = true.
Proof. vm_compute. auto. Qed.

(** ** C90 *)
(** Once the processor has stopped, nothing it controls changes any more; the bus
    sees at most the three frames that were in the mailboxes. *)
Theorem C90_stop_is_final :
  forall c tick m0 bs bs', let b := board_run c tick m0 (bs ++ [BStop]) in
    let b' := board_run c tick m0 (bs ++ BStop :: bs') in
    bd_ecu b' = bd_ecu b /\
    exists l, bus_of b' = bus_of b ++ l /\ (length l <= 3)%nat /\
      forall f, In f l -> In f (accepted_commands (bd_ecu b)).
Proof.
  intros c tick m0 bs bs'. cbv zeta.
  replace (bs ++ BStop :: bs') with ((bs ++ [BStop]) ++ bs') by now rewrite <- app_assoc.
  rewrite board_run_app.
  set (b := board_run c tick m0 (bs ++ [BStop])).
  assert (S : bd_stopped b = true) by (unfold b; rewrite board_run_snoc; reflexivity).
  destruct (board_inv_run c tick m0 (bs ++ [BStop])) as [(tr & R) _ _]. fold b in R.
  destruct (CanDriverProof.acct_run tr (tx_config shipped_ie) [] _ ltac:(discriminate 1) (perm_nil _) R) as (K & _).
  destruct (CanDriverProof.stuck_run tr (tx_config shipped_ie) _ eq_refl R) as (IE & _).
  split; [apply stopped_run, S|].
  destruct (stopped_frames c tick bs' b S IE K) as (l & lost & B & P).
  exists (map pair_of l). split; [unfold bus_of, wire; now rewrite B, map_app|].
  split.
  - rewrite map_length. pose proof (mailboxes_three c tick m0 (bs ++ [BStop])) as M. fold b in M.
    apply Permutation_length in P. rewrite app_length in P. lia.
  - intros f IN. destruct (bus_accounted c tick m0 (bs ++ [BStop])) as (l0 & PA). fold b in PA.
    eapply Permutation_in; [symmetry; exact PA|]. apply in_or_app. right. rewrite map_app. apply in_or_app. left.
    apply in_map_iff in IN as (it & <- & IN). apply in_map. eapply Permutation_in; [symmetry; exact P|].
    apply in_or_app. now left.
Qed.
Print Assumptions C90_stop_is_final.

(** That is not safe: if the processor stops while the vehicle is driven, the
    error output stays released and the last command stays 500 Nm for ever. *)
Definition driven : list board_event := keeps_up (drive ++ step (ok_in false 5) 0 ++ pedal f_one).
Theorem C90_stop_while_driving_refuted :
  forall bs, let b := bd (driven ++ BStop :: bs) in
    vm_state (e_vsm (bd_ecu b)) = StActiveForward /\ e_pin (bd_ecu b) = false /\ told_torque b = Some 5000.
Proof.
  intros bs. apply stop_keeps; vm_compute; reflexivity.
Qed.
Print Assumptions C90_stop_while_driving_refuted.

(** A hung throttle task asks for nothing more ... *)
Theorem C90_hung_throttle_asks_nothing :
  forall c tick m0 es es1, vsm_init c tick = Some m0 ->
    forallb (fun ev => negb (is_throttle ev)) es1 = true ->
    exists l, e_sent (ecu_run c tick m0 (es ++ es1)) = e_sent (ecu_run c tick m0 es) ++ l /\
      Forall (fun t => asks_torque t = false) l.
Proof. exact hung_throttle. Qed.
Print Assumptions C90_hung_throttle_asks_nothing.

(** ... but nothing notices: the state manager and the error output are the same
    whatever the throttle task does or does not do. *)
Theorem C90_hung_throttle_unnoticed_refuted :
  forall c tick m0 es,
    let e := ecu_run c tick m0 es in
    let e' := ecu_run c tick m0 (filter (fun ev => negb (is_throttle ev)) es) in
    e_vsm e = e_vsm e' /\ e_pend e = e_pend e' /\ e_pin e = e_pin e'.
Proof. exact throttle_unseen. Qed.
Print Assumptions C90_hung_throttle_unnoticed_refuted.

(** A hung state manager is worse: the throttle task goes on driving the vehicle
    with the pedal whatever the vehicle state says, each activation one frame,
    while the error output stays released. *)
Theorem C90_hung_manager_keeps_driving_refuted :
  forall ds, Forall (fun d => f_ok (accel_in d) = true) ds ->
    let e := now (drive ++ flat_map (fun d => activation (Some d) true true) ds) in
    vm_state (e_vsm e) = StActiveForward /\ e_pin e = false /\
    exists ts, e_sent e = e_sent (now drive) ++ ts /\
      Forall2 (fun d t => exists y, frame_enable (tx_data t) = true /\
         pedal_torque (accel_in d) y /\ stands_for (frame_torque (tx_data t)) y) ds ts.
Proof.
  intros ds F. unfold now. apply hung_manager_low; [reflexivity| |vm_compute; reflexivity|exact F].
  apply Forall_forall. intros x H.
  assert (G : forallb (fun ev => match ev with EvCmd b _ _ _ => b | _ => true end) drive = true) by (vm_compute; reflexivity).
  rewrite forallb_forall in G. specialize (G x H). now destruct x.
Qed.
Print Assumptions C90_hung_manager_keeps_driving_refuted.

Example C90_nonvacuous :
  told_torque (bd (driven ++ [BStop])) = Some 5000 /\
  bus_of (bd (driven ++ map BEcu (pedal f_one) ++ [BStop; BStart; BDone true; BStart; BDone true])) =
  bus_of (bd driven) ++ [(192, [136; 19; 0; 0; 1; 1; 0; 0])].
Proof. vm_compute. auto. Qed.
