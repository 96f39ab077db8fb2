(** C84: the serial ports move bytes. *)
From Verif.Model Require Import SerialDma.
From Verif.Spec Require Import BringUpSpec SerialDmaSpec.
From Verif.Proof Require Import BringUpProof SerialDmaProof.

(** A stream carries the bytes of a port exactly when it listens to the port's
    request, goes the right way, moves through memory and counts in bytes. *)
Theorem C84_carries_exactly :
  forall c p,
    (serves c p true = true <->
       (dc_channel c, dc_to_periph c) = wired (tx_stream p) /\ dc_minc c = true /\ dc_size c = 1) /\
    (serves c p false = true <->
       (dc_channel c, dc_to_periph c) = wired (rx_stream p) /\ dc_minc c = true /\ dc_size c = 1).
Proof.
  intros c p. unfold serves. rewrite !Bool.andb_true_iff, !Z.eqb_eq, !Bool.eqb_true_iff.
  destruct p; cbn [wired tx_stream rx_stream request_line]; split; split;
    try (intros [[[-> ->] ->] ->]; auto); intros ([= A B] & C & D); auto.
Qed.
Print Assumptions C84_carries_exactly.

(** For any order of the initialisation functions and any port: set up after
    MX_DMA_Init, the port behaves as the driver model of C47, C48 and C59 says;
    otherwise it never sends a byte and never delivers one, whatever is sent to it
    or written to it. *)
Theorem C84_exact_partial :
  forall order p,
    (set_up_after_dma order p ->
       (forall u tr, serial_tx_run (bring_up order) p u tr = uart_run u tr) /\
       (forall cap r tr, serial_rx_run (bring_up order) p cap r tr = rx_run cap r tr)) /\
    (~ set_up_after_dma order p ->
       (forall tr u, serial_tx_run (bring_up order) p uart_init tr = Some u -> on_the_wire u = []) /\
       (forall cap tr r, serial_rx_run (bring_up order) p cap rx_init tr = Some r -> rx_sb r = [])).
Proof.
  intros order p. destruct (port_streams order p) as [GOOD BAD]. destruct (serves_intended p) as [ST SR]. split; intros H.
  - destruct (GOOD H) as [T R]. split; intros.
    + apply tx_run_same. now rewrite T.
    + apply rx_run_same. now rewrite R.
  - destruct (BAD H) as [T R]. split.
    + intros tr u E. refine (proj1 (tx_dead_run (bring_up order) p tr _ uart_init u _ E)).
      * rewrite T. apply serves_reset.
      * split; [reflexivity|exact Logic.I].
    + intros cap tr r E. refine (proj2 (proj2 (proj2 (rx_dead_run (bring_up order) p cap tr _ rx_init r _ E)))).
      * rewrite R. apply serves_reset.
      * repeat split.
Qed.
Print Assumptions C84_exact_partial.

(** The shipped order is of the second kind for all three ports: the PC ports and
    the GPS port stay silent and deaf. *)
Theorem C84_shipped_ports_silent_refuted :
  forall p,
    (forall tr u, serial_tx_run (bring_up mx_order) p uart_init tr = Some u -> on_the_wire u = []) /\
    (forall cap tr r, serial_rx_run (bring_up mx_order) p cap rx_init tr = Some r -> rx_sb r = []).
Proof.
  intros p. apply C84_exact_partial. intros H. destruct (proj1 (port_streams mx_order p) H) as [T _].
  destruct p; discriminate T.
Qed.
Print Assumptions C84_shipped_ports_silent_refuted.

(** Senders are told otherwise. *)
Example C84_ex :
  exists u r,
    serial_tx_run (bring_up mx_order) USART_1 uart_init [UBegin [1; 2; 3]; UEnd true; UByte; UByte; UBegin [4]; UEnd true] = Some u /\
    accepted u = [[1; 2; 3]; [4]] /\ on_the_wire u = [] /\
    serial_rx_run (bring_up mx_order) USART_1 100 rx_init [RByte 7; RByte 8; RIdle] = Some r /\ rx_sb r = [].
Proof. do 2 eexists. split; [vm_compute; reflexivity|]. split; [reflexivity|]. split; [reflexivity|]. split; [vm_compute; reflexivity|reflexivity]. Qed.

Example C84_good_order :
  set_up_after_dma [MX_GPIO; MX_DMA; MX_USART1] USART_1 /\
  exists r, serial_rx_run (bring_up [MX_GPIO; MX_DMA; MX_USART1]) USART_1 100 rx_init [RByte 7; RByte 8; RIdle] = Some r /\
    rx_sb r = [7; 8].
Proof.
  split; [exists [MX_GPIO; MX_DMA], []; split; [reflexivity|cbn; auto]|].
  eexists. split; [vm_compute; reflexivity|reflexivity].
Qed.
