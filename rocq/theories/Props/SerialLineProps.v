(** C83: the serial ports run at the rate their partners use. *)
From Verif.Model Require Import SerialLine.
From Verif.Spec Require Import SerialLineSpec.
From Verif.Proof Require Import SerialLineProof.
From Coq Require Import Lia ZifyBool.

(** Whenever the bit times of the two sides differ by no more than a 32nd, any
    sequence of characters, with any pauses or none, is received exactly: whatever
    the receiver's clock phase at each start edge, what it has received is a prefix
    of what was sent, without framing errors; and all of it can be received. *)
Theorem C83_received_as_sent :
  forall bit_tx bit_rx cs t, close bit_tx bit_rx -> sent_from bit_tx t cs ->
    (forall out, rx_run (line bit_tx cs) bit_rx t out ->
       out = map Some (firstn (length out) (map snd cs))) /\
    rx_run (line bit_tx cs) bit_rx t (map Some (map snd cs)).
Proof.
  intros bt br cs t C F. split.
  - intros out R. apply (run_prefix bt br C _ t out R cs F). intros x _. reflexivity.
  - apply (run_exists bt br C cs _ t F). intros x _. reflexivity.
Qed.
Print Assumptions C83_received_as_sent.

Example C83_ex :
  close 1000 980 /\ sent_from 1000 0 [(0, 0x55); (10000, 0xFF); (25000, 0)] /\
  rx_char (line 1000 [(0, 0x55); (10000, 0xFF); (25000, 0)]) 980 (10000 + 30) = Some 255.
Proof. split; [unfold close; lia|]. split; [cbn; lia|reflexivity]. Qed.

(** The divider the HAL computes is the nearest one. *)
Theorem C83_divider_nearest :
  forall pclk baud brr, 0 <= pclk -> 0 < baud -> usart_brr pclk baud = Some brr ->
    2 * Z.abs (brr * baud - pclk) <= baud.
Proof.
  intros pclk baud brr P B H. unfold usart_brr in H. destruct (_ && _); [|discriminate]. injection H as <-.
  pose proof (Z.mul_div_le (pclk + baud / 2) baud B).
  pose proof (Z.mul_succ_div_gt (pclk + baud / 2) baud B).
  pose proof (Z.mul_div_le baud 2 ltac:(lia)). pose proof (Z.mul_succ_div_gt baud 2 ltac:(lia)). nia.
Qed.
Print Assumptions C83_divider_nearest.

(** As shipped: each port talks in both directions to a partner that is within
    2.5 % of the port's nominal rate, which for the PC ports is the rate the PC
    tools and the README use. *)
Theorem C83_shipped_ports :
  forall p, exists bit, port_bit p = Some bit /\
    forall partner, within 25 (port_clock p) partner -> close partner bit /\ close bit partner.
Proof.
  intros p. destruct p; eexists; (split; [reflexivity|]); unfold within, close;
    intros x H; cbn [port_clock] in H;
    [change PCLK2 with 108000000 in H|change PCLK1 with 54000000 in H|change PCLK2 with 108000000 in H];
    match goal with |- context[?a * port_baud ?q] => let v := eval vm_compute in (a * port_baud q) in change (a * port_baud q) with v end; lia.
Qed.
Print Assumptions C83_shipped_ports.

Example C83_rates :
  port_baud PORT_USART1 = 115200 /\ port_baud PORT_USART3 = 115200 /\ port_baud PORT_USART6 = 9600 /\
  usart_brr (port_clock PORT_USART1) (port_baud PORT_USART1) = Some 938 /\
  usart_brr (port_clock PORT_USART3) (port_baud PORT_USART3) = Some 469 /\
  usart_brr (port_clock PORT_USART6) (port_baud PORT_USART6) = Some 11250.
Proof. repeat split. Qed.

(** A tolerance is needed: at 6 % the stop bit is missed. *)
Example C83_too_slow : rx_char (line 1060 [(0, 0)]) 1000 0 = None.
Proof. reflexivity. Qed.
