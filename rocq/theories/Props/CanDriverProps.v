(** C45, C46: the CAN driver. *)
From Coq Require Import ZifyBool ZifyNat Permutation.
From Verif.Spec Require Import CanDriverSpec.
From Verif.Proof Require Import CanDriverProof.

(** ** C45 *)
(** After any history, a receive interrupt on a bus that finds standard frames
    [hs] appends to every queue exactly the copies its accepted registrations on
    that bus ask for, in order, as far as the queue has room. *)
Theorem C45_delivered_to_interested_queues_partial :
  forall qcap tr w bus hs,
    buses_ok tr -> can_run qcap can_init tr = Some w -> 0 <= bus < 3 ->
    Forall (fun h => hw_ext h = false) hs ->
  exists w', can_step qcap w (CanRx bus (map (fun h => (h, true)) hs)) = Some w' /\
    forall q, cw_q w' q = cw_q w q ++
      firstn (qcap q - length (cw_q w q))
             (flat_map (copies (registered bus tr) q) (map (as_received bus) hs)).
Proof.
  intros qcap tr w bus hs B R Hb F.
  pose proof (regs_ok_run qcap tr [] can_init w regs_ok_init B R) as I. cbn [app] in I.
  cbn [can_step]. unfold ISR_RxMsgPending. rewrite (ro_use _ _ I bus Hb). cbn [negb].
  destruct (rx_loop_spec qcap bus (cw_inst w bus) hs (cw_q w) None) as (qs & E & S1); [|exact F|].
  { rewrite (ro_num _ _ I bus Hb), Nat2Z.id, (ro_len _ _ I bus Hb). exact (ro_max _ _ I bus Hb). }
  rewrite E. eexists. split; [reflexivity|]. intros q. cbn [cw_q]. rewrite S1.
  rewrite (ro_num _ _ I bus Hb), Nat2Z.id, (ro_eq _ _ I bus Hb). reflexivity.
Qed.
Print Assumptions C45_delivered_to_interested_queues_partial.

(** For a queue registered once on the bus: each matching frame once, in order,
    and nothing else. *)
Theorem C45_single_registration_partial :
  forall qcap tr w bus hs r,
    buses_ok tr -> can_run qcap can_init tr = Some w -> 0 <= bus < 3 ->
    Forall (fun h => hw_ext h = false) hs ->
    filter (fun e => re_queue e =? re_queue r) (registered bus tr) = [r] ->
    (length (cw_q w (re_queue r)) + length hs <= qcap (re_queue r))%nat ->
  exists w', can_step qcap w (CanRx bus (map (fun h => (h, true)) hs)) = Some w' /\
    cw_q w' (re_queue r) = cw_q w (re_queue r) ++
      map (as_received bus) (filter (fun h => interested (hw_id h) r) hs).
Proof.
  intros qcap tr w bus hs r B R Hb F One Room.
  destruct (C45_delivered_to_interested_queues_partial qcap tr w bus hs B R Hb F) as (w' & S1 & Q).
  exists w'. split; [exact S1|]. rewrite Q. f_equal.
  assert (E : flat_map (copies (registered bus tr) (re_queue r)) (map (as_received bus) hs) =
              map (as_received bus) (filter (fun h => interested (hw_id h) r) hs)).
  { clear - One. induction hs as [|h hs IH]; [reflexivity|]. cbn [map flat_map filter]. rewrite IH.
    unfold copies. cbn [as_received fr_id].
    replace (filter (fun r0 => (re_queue r0 =? re_queue r) && interested (hw_id h) r0) (registered bus tr))
      with (filter (interested (hw_id h)) [r]).
    - cbn [filter]. destruct (interested (hw_id h) r); reflexivity.
    - rewrite <- One. generalize (registered bus tr). induction l as [|x l IHl]; [reflexivity|].
      cbn [filter]. destruct (re_queue x =? re_queue r); cbn [filter andb]; rewrite ?IHl; reflexivity. }
  rewrite E. apply firstn_all2. rewrite map_length.
  assert (L : (length (filter (fun h => interested (hw_id h) r) hs) <= length hs)%nat).
  { clear. induction hs as [|h hs IH]; cbn; [lia|]. destruct (interested _ _); cbn; lia. }
  lia.
Qed.
Print Assumptions C45_single_registration_partial.

(** Registrations: no more than eight per bus, further ones are refused and
    change nothing, and no sequence of them leaves the table. *)
Theorem C45_ninth_registration_refused :
  forall qcap tr w bus i m q,
    buses_ok tr -> can_run qcap can_init tr = Some w -> 0 <= bus < 3 ->
    exists w' st, CAN_RegisterQueue w bus i m q = Some (w', st) /\
      ((length (reg_requests bus tr) < 8)%nat -> st = CAN_STATUS_OK) /\
      ((8 <= length (reg_requests bus tr))%nat -> st = CAN_STATUS_ERROR_MAX_QUEUES /\ w' = w).
Proof.
  intros qcap tr w bus i m q B R Hb.
  pose proof (regs_ok_run qcap tr [] can_init w regs_ok_init B R) as I. cbn [app] in I.
  unfold CAN_RegisterQueue, CAN_NUM_INSTANCES, CAN_MAX_RECV_QUEUES. rewrite Z.geb_leb.
  destruct (Z.leb_spec 3 bus); [lia|]. rewrite (ro_num _ _ I bus Hb).
  assert (Lr : length (registered bus tr) = Nat.min 8 (length (reg_requests bus tr)))
    by (unfold registered; apply firstn_length).
  destruct (Z.eqb_spec (Z.of_nat (length (registered bus tr))) 8) as [E|E].
  - eexists _, _. split; [reflexivity|]. split; [lia|auto].
  - rewrite Nat2Z.id.
    destruct (put_entry_spec (mkEntry i m q) (ci_queues (cw_inst w bus)) (length (registered bus tr))) as (l' & P & _).
    { rewrite (ro_len _ _ I bus Hb). pose proof (ro_max _ _ I bus Hb). lia. }
    rewrite P. eexists _, _. split; [reflexivity|]. split; [auto|lia].
Qed.
Print Assumptions C45_ninth_registration_refused.

Example C45_hypotheses_met :
  let tr := [CanReg 0 160 2032 7; CanReg 1 1712 2032 8; CanReg 0 0 0 9] in
  match can_run (fun _ => 4%nat) can_init tr with
  | Some w =>
      match can_step (fun _ => 4%nat) w
              (CanRx 0 (map (fun h => (h, true)) [mkHw false 165 8 (repeat 1 8); mkHw false 1712 8 (repeat 2 8)])) with
      | Some w' => cw_q w' 7 = [mkFrame 0 165 8 (repeat 1 8)] /\ cw_q w' 8 = [] /\ length (cw_q w' 9) = 2%nat
      | None => False
      end
  | None => False
  end.
Proof. vm_compute. auto. Qed.

(** Frames with an extended identifier pass the hardware filter (can.c:249-252),
    but the driver uses the standard identifier of the previous frame: a driver
    gets a frame that was not addressed to it... *)
Theorem C45_extended_frame_misdelivered_refuted :
  exists w w' std ext,
    can_run (fun _ => 4%nat) can_init [CanReg 0 160 2032 7] = Some w /\
    hw_ext ext = true /\ interested (hw_id ext) (mkEntry 160 2032 7) = false /\
    can_step (fun _ => 4%nat) w (CanRx 0 [(std, true); (ext, true)]) = Some w' /\
    cw_q w' 7 = [mkFrame 0 165 8 (hw_data std); mkFrame 0 165 8 (hw_data ext)] /\ hw_data ext <> hw_data std.
Proof.
  eexists _, _, (mkHw false 165 8 (repeat 1 8)), (mkHw true 12345678 8 (repeat 2 8)).
  split; [vm_compute; reflexivity|]. do 2 (split; [reflexivity|]). split; [vm_compute; reflexivity|].
  split; [reflexivity|discriminate].
Qed.
Print Assumptions C45_extended_frame_misdelivered_refuted.

(** ... and if it is the first frame of the interrupt the identifier used is
    uninitialised memory, whatever is registered. *)
Theorem C45_extended_frame_undefined_refuted :
  forall qcap tr w bus h t, buses_ok tr -> can_run qcap can_init tr = Some w -> 0 <= bus < 3 ->
    hw_ext h = true -> can_step qcap w (CanRx bus ((h, true) :: t)) = None.
Proof.
  intros qcap tr w bus h t B R Hb E.
  pose proof (regs_ok_run qcap tr [] can_init w regs_ok_init B R) as I.
  cbn [can_step]. unfold ISR_RxMsgPending. rewrite (ro_use _ _ I bus Hb). cbn [negb rx_loop]. now rewrite E.
Qed.
Print Assumptions C45_extended_frame_undefined_refuted.

(** ** C46 *)
(** Every accepted frame is, exactly once, on the bus, in a mailbox, in the
    pending queue, or lost by a failed transmission; without failed
    transmissions none is lost. Independent of the interrupt configuration. *)
Theorem C46_exactly_once_partial :
  forall ie tr c, tx_run (tx_config ie) tr = Some c ->
  exists lost,
    Permutation (tx_acc c) (tx_bus c ++ in_mailboxes (tx_mb c) ++ tx_q c ++ lost) /\
    (no_loss tr -> lost = []).
Proof.
  intros ie tr c R.
  destruct (acct_run tr (tx_config ie) [] c) as (_ & l & A & L); [discriminate 1|apply perm_nil|exact R|].
  exists l. auto.
Qed.
Print Assumptions C46_exactly_once_partial.

(** Frames sent one at a time appear on the bus in order. *)
Theorem C46_in_order_one_at_a_time_partial :
  forall ie tr c, sends_when_idle (tx_config ie) tr -> no_loss tr ->
    tx_run (tx_config ie) tr = Some c ->
    tx_acc c = tx_bus c ++ in_mailboxes (tx_mb c).
Proof.
  intros ie tr c W N R. apply (single_run tr (tx_config ie) c); auto; [discriminate 1|].
  repeat split. cbn. lia.
Qed.
Print Assumptions C46_in_order_one_at_a_time_partial.

(** The transmit-complete handler itself is right: were its interrupt enabled,
    frames would be handed to the hardware in the order of acceptance, and a
    frame would wait only while all mailboxes are full. *)
Theorem C46_handler_would_be_fifo_partial :
  forall tr c, tx_run (tx_config true) tr = Some c ->
    tx_acc c = tx_hand c ++ tx_q c /\ (tx_q c = [] \/ free_level (tx_mb c) = 0).
Proof.
  intros tr c R. apply (fifo_run tr (tx_config true) c); [|exact R]. repeat split. now left.
Qed.
Print Assumptions C46_handler_would_be_fifo_partial.

(** As shipped the interrupt is off: a frame that was once queued is never sent,
    although the call that queued it answered OK and all mailboxes are free. *)
Theorem C46_queued_frame_never_sent_refuted :
  exists tr c it,
    tx_run (tx_config shipped_ie) tr = Some c /\ In it (tx_acc c) /\
    in_mailboxes (tx_mb c) = [] /\
    forall tr' c', tx_run c tr' = Some c' -> In it (tx_q c').
Proof.
  exists ([TxSend 1 (repeat 0 8) 8 true; TxSend 2 (repeat 0 8) 8 true; TxSend 3 (repeat 0 8) 8 true;
           TxSend 4 (repeat 0 8) 8 true; TxStart; TxDone true; TxStart; TxDone true; TxStart; TxDone true]).
  eexists. exists (mkItem 4 (repeat 0 8)). split; [vm_compute; reflexivity|].
  split; [vm_compute; auto|]. split; [reflexivity|].
  intros tr' c' R. apply stuck_run in R; [|reflexivity]. destruct R as [_ [s ->]].
  apply in_or_app. left. now left.
Qed.
Print Assumptions C46_queued_frame_never_sent_refuted.

(** In general nothing ever leaves the queue. *)
Theorem C46_shipped_queue_only_grows :
  forall tr tr' c c', tx_run (tx_config shipped_ie) tr = Some c -> tx_run c tr' = Some c' ->
    exists s, tx_q c' = tx_q c ++ s.
Proof.
  intros tr tr' c c' R R'. destruct (stuck_run tr (tx_config shipped_ie) c eq_refl R) as [I _].
  now destruct (stuck_run tr' c c' I R').
Qed.
Print Assumptions C46_shipped_queue_only_grows.

(** Order on the bus: two frames with the same identifier (two inverter
    commands, say) are overtaken by mailbox numbering... *)
Theorem C46_same_identifier_overtakes_refuted :
  exists tr c a b d, tx_run (tx_config shipped_ie) tr = Some c /\ no_loss tr /\ ti_id b = ti_id d /\ b <> d /\
    tx_acc c = [a; b; d] /\ tx_bus c = [a; d; b].
Proof.
  exists [TxSend 192 (repeat 1 8) 8 true; TxStart; TxSend 192 (repeat 2 8) 8 true; TxDone true;
          TxSend 192 (repeat 3 8) 8 true; TxStart; TxDone true; TxStart; TxDone true].
  eexists. exists (mkItem 192 (repeat 1 8)), (mkItem 192 (repeat 2 8)), (mkItem 192 (repeat 3 8)).
  split; [vm_compute; reflexivity|]. split; [cbv; intuition discriminate|].
  split; [reflexivity|]. split; [discriminate|]. split; reflexivity.
Qed.
Print Assumptions C46_same_identifier_overtakes_refuted.

(** ... and a failed transmission (lost arbitration, no acknowledge) is not
    repeated: an accepted frame disappears. *)
Theorem C46_failed_transmission_lost_refuted :
  exists tr c it, tx_run (tx_config shipped_ie) tr = Some c /\ tx_acc c = [it] /\
    tx_bus c = [] /\ in_mailboxes (tx_mb c) = [] /\ tx_q c = [].
Proof.
  exists [TxSend 192 (repeat 1 8) 8 true; TxStart; TxDone false]. eexists. exists (mkItem 192 (repeat 1 8)).
  split; [vm_compute; reflexivity|]. repeat split.
Qed.
Print Assumptions C46_failed_transmission_lost_refuted.

Example C46_hypotheses_met :
  let tr := [TxSend 192 (repeat 1 8) 8 true; TxStart; TxDone true; TxSend 5 (repeat 2 8) 4 true] in
  sends_when_idle (tx_config false) tr /\ no_loss tr /\
  match tx_run (tx_config false) tr with
  | Some c => tx_bus c = [mkItem 192 (repeat 1 8)] /\ in_mailboxes (tx_mb c) = [mkItem 5 (repeat 2 4)]
  | None => False
  end.
Proof. split; [vm_compute; auto 10|]. split; [cbv; intuition discriminate|]. vm_compute. auto. Qed.
