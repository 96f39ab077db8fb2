(** Several tasks sending on the inverter's bus (C72). *)
From Verif Require Import Model.CanMailbox Spec.CanMailboxSpec Proof.CanMailboxProof.
From Verif Require Import Model.InverterCmd Model.PcPeriodic Spec.InverterSpec.
From Coq Require Import Permutation.
Open Scope Z_scope.

(** The frames asked for in a concrete schedule. *)
Ltac begins H := cbn in H; repeat (destruct H as [H|H];
  [first [discriminate H | injection H as <- <-]|]); try contradiction H.

(** If all senders take the inverter mutex, or if there is only one sender, then
    under every schedule each frame on the bus is one that a task asked to send,
    and each frame answered with OK is on the bus, failed there, waits in a
    mailbox or is in the queue: nothing is duplicated, mixed or forgotten.
    Missing from the full property: as shipped there is a sender without the
    mutex, the PC interface task. *)
Theorem C72_exclusive_senders_partial : forall sch,
  senders_exclusive sch -> (forall i f, asked sch i f -> full_frame f) ->
  let s := bus_run sch in
  Permutation (bs_ok s) (bs_bus s ++ bs_lost s ++ waiting (bs_mb s) ++ bs_queue s) /\
  (forall g, In g (bs_bus s ++ bs_lost s ++ waiting (bs_mb s)) -> exists i, asked sch i g).
Proof.
  intros sch X F s.
  destruct (run_binv (asked sch) F X sch (fun i f H => H) bus_init (binv_init (asked sch) X))
    as (_ & _ & _ & O & P).
  split; [exact P|]. intros g Hg. apply O. eapply Permutation_in; [apply Permutation_sym, P|].
  rewrite !app_assoc in *. apply in_or_app. left. exact Hg.
Qed.

(** Whatever the schedule, a frame on the bus is put together from parts of frames
    that were asked for. *)
Theorem C72_only_known_parts : forall sch g, In g (bs_bus (bus_run sch)) -> mixed sch g.
Proof.
  intros sch g Hg.
  destruct (run_pinv (asked sch) sch (fun i f H => H) bus_init (pinv_init (asked sch))) as (_ & _ & M).
  destruct (M g Hg) as (B & (i1 & f1 & A1 & E1) & (i2 & f2 & A2 & E2) & lo & hi & Ed &
                        (i3 & f3 & A3 & E3) & (i4 & f4 & A4 & E4)).
  exists i1, f1, i2, f2, i3, f3, i4, f4. repeat split; auto.
  destruct g; cbn in *. congruence.
Qed.

(** Whatever other tasks send, the two tasks that command the inverter are never
    inside the driver together. *)
Theorem C72_inverter_commands_exclusive : forall sch,
  let s := bus_run sch in ~ (bs_at s 0%nat <> Out /\ bs_at s 1%nat <> Out).
Proof.
  intros sch s [H0 H1]. pose proof (hold_run sch 0%nat eq_refl H0) as A. pose proof (hold_run sch 1%nat eq_refl H1) as B. congruence.
Qed.
Print Assumptions C72_inverter_commands_exclusive.

Example C72_exclusive_ex :
  let f := mkFrame CAN_DEV1 0xC0 8 (repeat 0 8) in
  let s := bus_run [Begin 0 f; Go 0; Begin 1 f; Begin 9 f; Go 9; Begin 1 f; Go 1] in
  bs_at s 0%nat <> Out /\ bs_at s 9%nat <> Out /\ bs_at s 1%nat = Out.
Proof. cbv zeta. split; [vm_compute; discriminate|]. split; [vm_compute; discriminate|]. vm_compute. reflexivity. Qed.

(** As shipped: the driver is asked for zero torque, the PC interface task sends
    its counter, and the inverter is told twice to deliver 3276.7 Nm. *)
Theorem C72_forged_torque_refuted : exists cmd dbg sch g,
  SendTorqueCommand true true (mkInvCmd true false) f_zero DIR_FORWARD =
    Some (mkInvRes (mkInvCmd true false) [InverterCmd.mkTx (fr_id cmd) (fr_data cmd) true] INV_OK) /\
  fst (fst (periodicCanDebug true 32767 0 true)) = Some dbg /\
  (forall i f, asked sch i f -> i = 0%nat /\ f = cmd \/ i = 9%nat /\ f = dbg) /\
  bs_bus (bus_run sch) = [g; g] /\ bs_ok (bus_run sch) = [dbg; cmd] /\
  fr_id g = fr_id cmd /\ frame_enable (fr_data g) = true /\ frame_torque (fr_data g) = 32767 /\
  frame_torque (fr_data cmd) = 0.
Proof.
  exists (mkFrame CAN_DEV1 0xC0 8 (command_bytes 0 DIR_FORWARD true false)).
  exists (mkFrame CAN_DEV1 0xAF 8 [255; 127; 0; 0; 0; 0; 0; 0x69]).
  exists ([Begin 9 (mkFrame CAN_DEV1 0xAF 8 [255; 127; 0; 0; 0; 0; 0; 0x69])] ++ steps 9 2 ++
     [Begin 0 (mkFrame CAN_DEV1 0xC0 8 (command_bytes 0 DIR_FORWARD true false))] ++ steps 0 2 ++
     steps 9 3 ++ steps 0 4 ++ steps 9 3 ++ [Sent 0 true] ++ steps 0 2 ++ [Sent 0 true]).
  eexists.
  split; [vm_compute; reflexivity|]. split; [vm_compute; reflexivity|].
  split; [intros i f H; begins H; auto|].
  split; [vm_compute; reflexivity|]. split; [vm_compute; reflexivity|].
  repeat split.
Qed.

(** As shipped: a command frame answered with OK that never leaves the VCU. *)
Theorem C72_lost_command_refuted : exists cmd dbg sch,
  (forall i f, asked sch i f -> i = 0%nat /\ f = cmd \/ i = 9%nat /\ f = dbg) /\
  full_frame cmd /\ full_frame dbg /\ fr_id cmd = 0xC0 /\
  let s := bus_run sch in
  In cmd (bs_ok s) /\ bs_bus s = [dbg] /\ bs_lost s = [] /\ waiting (bs_mb s) = [] /\ bs_queue s = [].
Proof.
  exists (mkFrame CAN_DEV1 0xC0 8 (command_bytes 0 DIR_FORWARD true false)).
  exists (mkFrame CAN_DEV1 0xAF 8 [255; 127; 0; 0; 0; 0; 0; 0x69]).
  exists ([Begin 0 (mkFrame CAN_DEV1 0xC0 8 (command_bytes 0 DIR_FORWARD true false))] ++ steps 0 2 ++
     [Begin 9 (mkFrame CAN_DEV1 0xAF 8 [255; 127; 0; 0; 0; 0; 0; 0x69])] ++ steps 9 8 ++
     steps 0 6 ++ [Sent 0 true]).
  split; [intros i f H; begins H; auto|].
  repeat split; vm_compute; auto.
Qed.

(** The debug frame of pass [counter]: identifier 0xAF, the counter in the first
    four bytes, low byte first, and 0x69 in the last. Every tenth failure is logged. *)
Theorem C72_debug_frame : forall counter errors ok, 0 <= counter < 2 ^ 32 -> 0 <= errors < 2 ^ 32 ->
  exists d, periodicCanDebug true counter errors ok =
    (Some (mkFrame CAN_DEV1 0xAF 8 d),
     (if ok then errors else (errors + 1) mod 2 ^ 32), negb ok && (errors mod 10 =? 0)) /\
  length d = 8%nat /\ Forall (fun b => 0 <= b < 256) d /\
  nth 0 d 0 + 2 ^ 8 * nth 1 d 0 + 2 ^ 16 * nth 2 d 0 + 2 ^ 24 * nth 3 d 0 = counter /\
  skipn 4 d = [0; 0; 0; 0x69].
Proof.
  intros counter errors ok C E. unfold periodicCanDebug. cbn [negb].
  eexists. split; [destruct ok; reflexivity|].
  split; [reflexivity|]. split; [|split; [|reflexivity]].
  - assert (B : forall k z, 0 <= byte k z < 256) by (intros; unfold byte; apply Z.mod_pos_bound; lia).
    repeat apply Forall_cons; auto; lia.
  - cbn [nth]. unfold byte.
    change (2 ^ (8 * 0)) with 1. change (2 ^ (8 * 1)) with 256.
    change (2 ^ (8 * 2)) with 65536. change (2 ^ (8 * 3)) with 16777216.
    change (2 ^ 8) with 256. change (2 ^ 16) with 65536. change (2 ^ 24) with 16777216.
    change (2 ^ 32) with 4294967296 in C. Z.div_mod_to_equations. lia.
Qed.

(** Contention of the two senders that use the mutex: the second waits, both
    frames go out. *)
Example C72_nonvacuous :
  let a := mkFrame CAN_DEV1 0xC0 8 [1; 2; 3; 4; 5; 6; 7; 8] in
  let b := mkFrame CAN_DEV1 0xC0 8 [8; 7; 6; 5; 4; 3; 2; 1] in
  let sch := [Begin 0 a] ++ steps 0 3 ++ [Begin 1 b] ++ steps 1 4 ++ steps 0 5 ++
             [Begin 1 b] ++ steps 1 8 ++ [Sent 1 true; Sent 0 true] in
  senders_exclusive sch /\ (forall i f, asked sch i f -> full_frame f) /\
  bs_bus (bus_run sch) = [b; a].
Proof.
  cbv zeta. split; [|split].
  - left. intros i f H. begins H; reflexivity.
  - intros i f H. begins H; repeat split.
  - vm_compute. reflexivity.
Qed.

Print Assumptions C72_exclusive_senders_partial.
Print Assumptions C72_only_known_parts.
Print Assumptions C72_forged_torque_refuted.
Print Assumptions C72_lost_command_refuted.
Print Assumptions C72_debug_frame.
