(** C47, C48: UART transmission; C59: UART reception. *)
From Coq Require Import ZifyBool ZifyNat.
From Verif.Spec Require Import UartSpec.
From Verif.Proof Require Import UartProof.

(** ** C47 *)
(** Without errors and with room, and as long as no transmission-complete
    interrupt comes inside a send, the bytes sent, still to be fetched and
    pending are exactly the bytes of the accepted messages, in order. *)
Theorem C47_stream_preserved_partial :
  forall tr u, clean false tr -> roomy uart_init tr -> uart_run uart_init tr = Some u ->
    ua_wire u ++ in_flight u ++ ua_pend u = concat (ua_ok u).
Proof.
  intros tr u C R S1. destruct (uinv_run tr uart_init false u uinv_init C R S1) as [i I]. apply (ui_sum _ _ I).
Qed.
Print Assumptions C47_stream_preserved_partial.

(** The port does not lock up: whenever it counts as busy a transmission is under way
    in the hardware, so its end will be reported and the next bytes go out. This holds
    for every history, also when the DMA refuses a transfer. *)
Theorem C48_busy_means_sending :
  forall tr u, uart_run uart_init tr = Some u -> ua_busy u = true -> ua_hw u <> TxIdle.
Proof.
  assert (H : forall tr u0 u, (ua_busy u0 = true -> ua_hw u0 <> TxIdle) -> uart_run u0 tr = Some u -> ua_busy u = true -> ua_hw u <> TxIdle).
  { induction tr as [|e tr IH]; intros u0 u I R; cbn [uart_run] in R; [now injection R as <-|].
    destruct (uart_step u0 e) as [u1|] eqn:E; [|discriminate]. apply (IH u1 u); [|exact R]. clear IH R.
    destruct e as [d|ok| | |ok|]; cbn [uart_step] in E.
    - injection E as <-. unfold send_begin. destruct (ua_call u0); auto.
    - unfold send_end in E. destruct (ua_call u0) as [[d [|]]|]; [| |now injection E as <-].
      + destruct (stream_send_checked _ _ _); [|discriminate]. now injection E as <-.
      + destruct (wr_block _ _ _); [|discriminate]. unfold Transmit_DMA in E. destruct (ua_hw u0).
        * destruct ((length d =? 0)%nat || negb ok); injection E as <-; cbn; congruence.
        * injection E as <-; cbn; congruence.
        * injection E as <-; cbn; congruence.
    - unfold hw_byte in E. destruct (ua_hw u0) as [|k n|] eqn:HW; try (injection E as <-; now rewrite HW).
      destruct (k <? n)%nat; [|injection E as <-; now rewrite HW]. destruct (rd _ _); [|discriminate]. injection E as <-. cbn. congruence.
    - injection E as <-. unfold hw_dma_irq. destruct (ua_hw u0) as [|k n|] eqn:HW; try (now rewrite HW).
      destruct ((k =? n)%nat && negb (ua_masked u0)); [cbn; congruence|now rewrite HW].
    - unfold hw_tc_irq in E. destruct (ua_hw u0) eqn:HW; try (injection E as <-; now rewrite HW).
      destruct (ua_pend u0) as [|x l]; [injection E as <-; cbn; congruence|].
      destruct (stream_recv UART_MAX_DMA_LEN (x :: l)) as [b rest]. destruct (wr_block _ _ _); [|discriminate].
      unfold Transmit_DMA in E. destruct ((length b =? 0)%nat || negb ok); injection E as <-; cbn; congruence.
    - injection E as <-. cbn. discriminate. }
  intros tr u R. apply (H tr uart_init u); [discriminate|exact R].
Qed.
Print Assumptions C48_busy_means_sending.

(** For every history of messages of 1 to 512 bytes, with errors, failed
    DMA starts and interrupts anywhere: no access leaves a buffer and no DMA
    transfer is longer than 512 bytes. *)
Theorem C47_dma_never_exceeds_buffer :
  forall tr, messages_fit tr ->
  exists u, uart_run uart_init tr = Some u /\ length (ua_buf u) = 512%nat /\
    forall k n, ua_hw u = TxDma k n -> (k <= n <= 512)%nat.
Proof.
  intros tr F. destruct (ubound_run tr uart_init ubound_init F) as (u & R & B).
  exists u. split; [exact R|]. split; [apply (ub_len _ B)|apply (ub_dma _ B)].
Qed.
Print Assumptions C47_dma_never_exceeds_buffer.

(** A longer message on an idle line overwrites what follows the buffer. *)
Theorem C47_long_message_overflows_refuted :
  forall d ok, (512 < length d)%nat -> uart_run uart_init [UBegin d; UEnd ok] = None.
Proof.
  intros d ok H. cbn [uart_run uart_step]. unfold send_begin, send_end, uart_init. cbn [ua_call ua_busy ua_buf].
  destruct (wr_block (repeat 0 512) 0 d) eqn:W; [|reflexivity].
  apply wr_block_0_inv in W. rewrite repeat_length in W. lia.
Qed.
Print Assumptions C47_long_message_overflows_refuted.

(** A message of no bytes while another is being sent and the pending stream has
    room stops the controller (C74). *)
Theorem C47_empty_message_stops_refuted :
  forall u ok, ua_call u = None -> ua_busy u = true -> (length (ua_pend u) < 511)%nat ->
    uart_run u [UBegin []; UEnd ok] = None.
Proof.
  intros u ok C B L. cbn [uart_run uart_step]. unfold send_begin. rewrite C, B. unfold send_end. cbn [ua_call ua_pend].
  unfold stream_send_checked, TX_PENDING_CAP. now rewrite (proj2 (Nat.ltb_lt _ _) L).
Qed.
Print Assumptions C47_empty_message_stops_refuted.

Definition m1 : list Z := [1; 2].
Definition m2 : list Z := [3].
Definition m3 : list Z := [4; 5; 6].

Example C47_hypotheses_met :
  let tr := [UBegin m1; UEnd true; UByte; UBegin m2; UByte; UEnd true; UDmaIrq; UTcIrq true; UByte; UBegin m3; UEnd true] in
  clean false tr /\ roomy uart_init tr /\
  match uart_run uart_init tr with
  | Some u => ua_wire u = [1; 2; 3] /\ ua_pend u = [4; 5; 6] /\ ua_ok u = [m1; m2; m3]
  | None => False
  end.
Proof. vm_compute. intuition lia. Qed.

(** The masked interrupt is the DMA one, but the completion callback runs from
    the UART interrupt. If that comes after txInProgress was read, the message
    is queued behind an idle line and overtaken by the next one. No error, no
    failed start, all messages accepted. *)
Theorem C47_completion_inside_send_refuted :
  exists tr u, no_faults tr /\ roomy uart_init tr /\ uart_run uart_init tr = Some u /\
    ua_ok u = [m1; m2; m3] /\ ua_hw u = TxIdle /\ ua_wire u = m1 ++ m3 ++ m2.
Proof.
  exists [UBegin m1; UEnd true; UByte; UByte; UDmaIrq; UBegin m2; UTcIrq true; UEnd true;
          UBegin m3; UEnd true; UByte; UByte; UByte; UDmaIrq; UTcIrq true; UByte; UDmaIrq; UTcIrq true].
  eexists. split; [cbn; tauto|]. split; [vm_compute; intuition lia|]. split; [vm_compute; reflexivity|].
  repeat split.
Qed.
Print Assumptions C47_completion_inside_send_refuted.

(** ** C48 *)
(** In the clean case everything accepted does go out: from any reachable state
    between sends, the hardware alone empties the driver. *)
Theorem C48_accepted_data_is_sent_partial :
  forall tr u, clean false tr -> roomy uart_init tr -> uart_run uart_init tr = Some u -> ua_call u = None ->
  exists tr' u', hardware_only tr' /\ uart_run u tr' = Some u' /\
    ua_hw u' = TxIdle /\ ua_pend u' = [] /\ ua_wire u' = concat (ua_ok u).
Proof.
  intros tr u C R S1 N. destruct (uinv_run tr uart_init false u uinv_init C R S1) as [i I].
  assert (i = false) by (pose proof (ui_call _ _ I) as X; rewrite N in X; tauto). subst i.
  destruct (drains u I) as (t & u' & E & R' & H & P & W & _). exists t, u'.
  split; [apply (hw_clean t E)|auto].
Qed.
Print Assumptions C48_accepted_data_is_sent_partial.

Lemma stuck_idle : forall tr u, hardware_only tr -> ua_hw u = TxIdle ->
  exists u', uart_run u tr = Some u' /\ ua_wire u' = ua_wire u /\ ua_pend u' = ua_pend u.
Proof.
  induction tr as [|e tr IH]; intros u H I; [exists u; auto|].
  assert (H' : hardware_only tr) by (intros x Hx; apply H; now right).
  pose proof (H e (or_introl eq_refl)) as He. destruct e as [d|ok| | |ok|]; try easy; cbn [uart_run uart_step].
  - unfold hw_byte. rewrite I. apply IH; auto.
  - unfold hw_dma_irq. rewrite I. apply IH; auto.
  - unfold hw_tc_irq. rewrite I. apply IH; auto.
  - destruct (IH (hw_error_irq u) H' I) as (u' & R & W & P). exists u'. auto.
Qed.

(** A message accepted in the race of C47 stays in the driver for ever if no
    further message is sent. *)
Theorem C48_accepted_message_stuck_refuted :
  exists tr u, no_faults tr /\ roomy uart_init tr /\ uart_run uart_init tr = Some u /\ ua_call u = None /\
    ua_ok u = [m1; m2] /\ ua_wire u = m1 /\
    forall tr', hardware_only tr' -> exists u', uart_run u tr' = Some u' /\ ua_wire u' = m1.
Proof.
  exists [UBegin m1; UEnd true; UByte; UByte; UDmaIrq; UBegin m2; UTcIrq true; UEnd true].
  eexists. split; [cbn; tauto|]. split; [vm_compute; intuition lia|]. split; [vm_compute; reflexivity|].
  split; [reflexivity|]. split; [reflexivity|]. split; [reflexivity|].
  intros tr' H. edestruct (stuck_idle tr') as (u' & R & W & _); [exact H| |exists u'; split; [exact R|exact W]].
  reflexivity.
Qed.
Print Assumptions C48_accepted_message_stuck_refuted.

(** A message that does not fit in the pending stream is cut, and still answered OK. *)
Theorem C48_truncated_when_busy_refuted :
  forall a d, length a = 1%nat -> (511 < length d <= 512)%nat ->
  exists u, uart_run uart_init [UBegin a; UEnd true; UBegin d; UEnd true] = Some u /\
    ua_ok u = [a; d] /\ in_flight u = a /\ ua_pend u = firstn 511 d.
Proof.
  intros a d La Hd. destruct a as [|x [|? ?]]; try discriminate La. destruct d as [|y d]; [cbn in Hd; lia|].
  eexists. split; [vm_compute; reflexivity|]. split; [reflexivity|]. split; reflexivity.
Qed.
Print Assumptions C48_truncated_when_busy_refuted.

(** After a receive line error a message that is refused corrupts the accepted
    one being sent. *)
Theorem C48_refused_message_corrupts_refuted :
  exists tr u, uart_run uart_init tr = Some u /\ ua_ok u = [[1; 2; 3]] /\ ua_hw u = TxIdle /\
    ua_wire u = [1; 8; 9].
Proof.
  exists [UBegin [1; 2; 3]; UEnd true; UByte; UErrIrq; UBegin [7; 8; 9]; UEnd true; UByte; UByte; UDmaIrq; UTcIrq true].
  eexists. split; [vm_compute; reflexivity|]. repeat split.
Qed.
Print Assumptions C48_refused_message_corrupts_refuted.

(** ** C59 *)
(** Bursts shorter than 256 bytes, each closed by an idle line: what arrived is
    delivered exactly once and in order. *)
Theorem C59_short_bursts_delivered_once_partial :
  forall cap tr, short_bursts 0 tr -> (forall n, ~ In (RTake n) tr) -> (length (arrived tr) <= cap)%nat ->
  exists r cur, rx_run cap rx_init tr = Some r /\ rx_sb r ++ cur = arrived tr /\
    (length cur < 256)%nat /\
    exists r', rx_run cap rx_init (tr ++ [RIdle]) = Some r' /\ rx_sb r' = arrived tr.
Proof.
  intros cap tr S1 NT Cap.
  assert (I0 : rx_inv rx_init []) by (apply rx_inv_restart, repeat_length).
  destruct (rx_short cap tr rx_init [] [] I0) as (r & cur & R & I & L & Q);
    try reflexivity; try assumption; [cbn [length]; lia|].
  exists r, cur. split; [exact R|]. split; [exact Q|]. split; [exact L|].
  destruct (rx_short cap (tr ++ [RIdle]) rx_init [] [] I0) as (r2 & c2 & R2 & I2 & L2 & Q2); try reflexivity.
  - cbn [length]. lia.
  - clear - S1. cbn [length]. revert S1. generalize 0%nat as k. induction tr as [|e tr IH]; intros k H; [exact Logic.I|].
    destruct e; cbn [app short_bursts] in *; try tauto; try (now apply IH). split; [tauto|]. now apply IH.
  - intros n Hn. apply in_app_or in Hn. destruct Hn as [Hn|[Hn|[]]]; [now apply (NT n)|discriminate].
  - cbn [length]. unfold arrived. rewrite flat_map_app. cbn [flat_map]. rewrite !app_nil_r. fold (arrived tr). lia.
  - exists r2. split; [exact R2|].
    rewrite rx_run_app, R in R2. cbn [rx_run rx_step] in R2. unfold rx_idle_irq, UART_MAX_DMA_LEN in R2.
    rewrite (proj1 (proj2 I)) in R2.
    destruct (Nat.ltb_spec 0 (length cur)) as [L0|L0].
    + destruct (Nat.ltb_spec (length cur) 512); [|lia]. cbn [andb] in R2.
      rewrite (callback_spec cap r cur (length cur) true I) in R2 by lia. injection R2 as <-. cbn [rx_sb].
      rewrite firstn_all. unfold stream_send. rewrite firstn_all2; [exact Q|].
      cbn [app] in Q. apply (f_equal (@length Z)) in Q. rewrite app_length in Q. lia.
    + cbn [andb] in R2. injection R2 as <-. destruct cur; [|cbn [length] in L0; lia].
      rewrite app_nil_r in Q. exact Q.
Qed.
Print Assumptions C59_short_bursts_delivered_once_partial.

(** A burst of 256 to 511 bytes: the half-transfer interrupt delivers the first
    256 bytes, and the idle interrupt delivers them again. *)
Theorem C59_long_burst_duplicated_refuted :
  forall cap a b, length a = 256%nat -> (length b < 256)%nat -> (512 + length b <= cap)%nat ->
  exists r, rx_run cap rx_init (map RByte a ++ [RHalf] ++ map RByte b ++ [RIdle]) = Some r /\
    rx_sb r = a ++ a ++ b.
Proof.
  intros cap a b La Lb Cap.
  assert (I0 : rx_inv rx_init []) by (apply rx_inv_restart, repeat_length).
  destruct (rx_burst cap a rx_init [] I0) as (r1 & R1 & I1 & B1 & F1 & H1); [cbn [length]; lia|].
  rewrite rx_run_app, R1. cbn [app rx_run rx_step]. unfold rx_half_irq. rewrite H1, La. cbn [length app] in *.
  change (rx_half rx_init) with false. change (rx_full rx_init) with false in F1. change (rx_sb rx_init) with (@nil Z) in B1.
  destruct (Nat.ltb_spec 0 256); [|lia]. destruct (Nat.leb_spec 256 (0 + 256)); [|lia]. cbn [orb andb].
  assert (I1' : rx_inv (mkRx (rx_buf r1) (rx_pos r1) false (rx_full r1) (rx_sb r1)) a) by exact I1.
  rewrite (callback_spec cap _ a 256 false I1') by lia. cbn [rx_buf rx_pos rx_half rx_full rx_sb].
  rewrite B1. assert (Fa : firstn 256 a = a) by (apply firstn_all2; lia). rewrite Fa.
  assert (S1 : stream_send cap [] a = a) by (unfold stream_send; cbn [length app]; apply firstn_all2; lia). rewrite S1.
  match goal with |- context [rx_run cap ?r _] => assert (I2 : rx_inv r a) by exact I1; set (r2 := r) in * end.
  destruct (rx_burst cap b r2 a I2) as (r3 & R3 & I3 & B3 & _ & _); [lia|].
  rewrite rx_run_app, R3. cbn [rx_run rx_step]. unfold rx_idle_irq, UART_MAX_DMA_LEN.
  rewrite (proj1 (proj2 I3)), app_length.
  destruct (Nat.ltb_spec 0 (length a + length b)); [|lia]. destruct (Nat.ltb_spec (length a + length b) 512); [|lia].
  cbn [andb]. rewrite <- app_length, (callback_spec cap r3 (a ++ b) _ true I3) by (rewrite ?app_length; lia).
  eexists. split; [reflexivity|]. cbn [rx_sb]. rewrite B3. unfold r2. cbn [rx_sb].
  rewrite firstn_all. unfold stream_send. rewrite firstn_all2; [reflexivity|]. rewrite app_length. lia.
Qed.
Print Assumptions C59_long_burst_duplicated_refuted.

(** Bursts of any length, each with its interrupts served at once: the consumer
    gets exactly [delivered], that is the first half of every 512-byte buffer
    twice; no other byte is lost, repeated or moved. *)
Theorem C59_exact_when_served_promptly :
  (forall l, exists out, delivered l out) /\
  forall cap bursts outs, Forall2 delivered bursts outs -> (length (concat outs) <= cap)%nat ->
  exists r, rx_run cap rx_init (flat_map (prompt 0) bursts) = Some r /\ rx_sb r = concat outs.
Proof.
  split; [intros l; now apply (delivered_total (length l))|]. intros cap bursts outs F Cap.
  destruct (serve_bursts cap bursts outs F rx_init []) as (r & R & (_ & _ & _ & S1)); [|exact Cap|eauto].
  split; [apply rx_inv_restart, repeat_length|]. repeat split.
Qed.
Print Assumptions C59_exact_when_served_promptly.

Example C59_exact_nonvacuous :
  delivered (repeat 1 256 ++ repeat 2 256 ++ [3]) (repeat 1 256 ++ repeat 1 256 ++ repeat 2 256 ++ [3]).
Proof. apply del_full; [apply repeat_length|apply repeat_length|]. apply del_short. cbn. lia. Qed.

Example C59_hypotheses_met :
  let tr := map RByte (repeat 7 100) ++ [RIdle] ++ map RByte (repeat 8 20) in
  short_bursts 0 tr /\ length (arrived tr) = 120%nat.
Proof. split; [vm_compute; repeat (split; [repeat constructor|]); exact Logic.I|reflexivity]. Qed.
