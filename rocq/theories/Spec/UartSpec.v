(** Conditions on UART histories. *)
From Verif.Model Require Export Uart.

(** No error interrupt, every DMA start succeeds, and no transmission-complete
    interrupt comes between the two halves of a send. [inside]: a send is under
    way at the start. *)
Fixpoint clean (inside : bool) (tr : list uart_event) : Prop :=
  match tr with
  | [] => True
  | UBegin _ :: t => clean true t
  | UEnd ok :: t => ok = true /\ clean false t
  | UTcIrq ok :: t => ok = true /\ inside = false /\ clean inside t
  | UErrIrq :: _ => False
  | _ :: t => clean inside t
  end.

(** The same without the last condition. *)
Fixpoint no_faults (tr : list uart_event) : Prop :=
  match tr with
  | [] => True
  | UEnd ok :: t => ok = true /\ no_faults t
  | UTcIrq ok :: t => ok = true /\ no_faults t
  | UErrIrq :: _ => False
  | _ :: t => no_faults t
  end.

(** Whenever a message is queued, the pending stream has room for all of it. *)
Fixpoint roomy (u : uart) (tr : list uart_event) : Prop :=
  match tr with
  | [] => True
  | e :: t =>
      match e, ua_call u with
      | UEnd _, Some (d, true) => (length (ua_pend u) + length d <= TX_PENDING_CAP)%nat
      | _, _ => True
      end /\
      match uart_step u e with Some u' => roomy u' t | None => True end
  end.

(** Bytes the DMA has still to fetch. *)
Definition in_flight (u : uart) : list Z :=
  match ua_hw u with TxDma k n => firstn (n - k) (skipn k (ua_buf u)) | _ => [] end.

(** Interrupts and hardware progress only. *)
Definition hardware_only (tr : list uart_event) : Prop :=
  forall e, In e tr -> match e with UBegin _ | UEnd _ => False | _ => True end.

(** Messages of the history. *)
Definition messages_fit (tr : list uart_event) : Prop :=
  forall d, In (UBegin d) tr -> (0 < length d <= 512)%nat.

(** Receive side: the bytes that arrived, in order. *)
Definition arrived (tr : list rx_event) : list Z :=
  flat_map (fun e => match e with RByte b => [b] | _ => [] end) tr.

(** Every burst is shorter than 256 bytes: an idle interrupt comes before the
    256th byte since the last one. [n]: bytes since then. *)
Fixpoint short_bursts (n : nat) (tr : list rx_event) : Prop :=
  match tr with
  | [] => True
  | RByte _ :: t => (n < 255)%nat /\ short_bursts (S n) t
  | RIdle :: t => short_bursts 0 t
  | _ :: t => short_bursts n t
  end.

(** A burst whose interrupts are all served at once: the half-transfer interrupt
    after byte 256, the transfer-complete interrupt after byte 512 (reception
    starts over), the idle interrupt at the end. [n]: bytes in the buffer. *)
Fixpoint prompt (n : nat) (l : list Z) : list rx_event :=
  match l with
  | [] => [RIdle]
  | b :: t =>
      if (S n =? 256)%nat then RByte b :: RHalf :: prompt (S n) t
      else if (S n =? 512)%nat then RByte b :: RFull :: prompt 0 t
      else RByte b :: prompt (S n) t
  end.

(** What the consumer gets for a burst: every first half of a 512-byte buffer
    twice. *)
Inductive delivered : list Z -> list Z -> Prop :=
| del_short l : (length l < 256)%nat -> delivered l l
| del_half a b : length a = 256%nat -> (length b < 256)%nat -> delivered (a ++ b) (a ++ a ++ b)
| del_full a b rest out : length a = 256%nat -> length b = 256%nat -> delivered rest out ->
    delivered (a ++ b ++ rest) (a ++ a ++ b ++ out).
