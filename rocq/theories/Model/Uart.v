(** system-lib/uart/uart.c: one UART interface, transmit and receive side, with
    the part of the HAL that decides when the driver's callbacks run. *)
From Verif.Base Require Export Words Mem Stream.

(** uart.h:34 *)
Definition UART_MAX_DMA_LEN : nat := 512.
(** The pending stream is created with size 512 (uart.c:192-196): 511 bytes. *)
Definition TX_PENDING_CAP : nat := 511.

(** ** Transmit side *)

(** Transmit hardware. [TxIdle]: HAL gState is READY. [TxDma k n]: a DMA
    transfer of n bytes, k of them sent. [TxLast]: the DMA interrupt has run and
    enabled the transmission-complete interrupt of the UART
    (stm32f7xx_hal_uart.c:3381-3396). *)
Inductive tx_hw := TxIdle | TxDma (k n : nat) | TxLast.

(** uart.c:23-43. [ua_masked]: the interrupt txIrq is disabled. [ua_call]: a
    running UART_SendMessage that has read txInProgress: its data and the value
    read. [ua_wire]: the bytes sent. [ua_ok]: the messages answered OK. *)
Record uart := mkUart {
  ua_busy : bool;
  ua_pend : list Z;
  ua_buf : list Z;
  ua_hw : tx_hw;
  ua_masked : bool;
  ua_call : option (list Z * bool);
  ua_wire : list Z;
  ua_ok : list (list Z) }.

(** uart.c:188-197 *)
Definition uart_init : uart := mkUart false [] (repeat 0 512) TxIdle false None [] [].

(** HAL_UART_Transmit_DMA (stm32f7xx_hal_uart.c:1344-1400): refused when a
    transfer is running or the size is 0; [dmaOk]: HAL_DMA_Start_IT succeeds. *)
Definition Transmit_DMA (hw : tx_hw) (n : nat) (dmaOk : bool) : tx_hw * bool :=
  match hw with
  | TxIdle => if (n =? 0)%nat || negb dmaOk then (TxIdle, false) else (TxDma 0 n, true)
  | _ => (hw, false)
  end.

(** uart.c:227-243: up to reading txInProgress, with txIrq disabled. Only one
    task sends on an interface, so calls do not overlap. *)
Definition send_begin (u : uart) (data : list Z) : uart :=
  match ua_call u with
  | Some _ => u
  | None => mkUart (ua_busy u) (ua_pend u) (ua_buf u) (ua_hw u) true (Some (data, ua_busy u)) (ua_wire u) (ua_ok u)
  end.

(** uart.c:243-261: the rest of the call. The wait of up to 100 ticks for room
    in the stream is the time between [send_begin] and this step. None: memcpy
    writes past uartDmaTx, or the controller stops. *)
Definition send_end (u : uart) (dmaOk : bool) : option uart :=
  match ua_call u with
  | None => Some u
  | Some (data, true) =>
      pend <- stream_send_checked TX_PENDING_CAP (ua_pend u) data ;;
      Some (mkUart (ua_busy u) pend (ua_buf u) (ua_hw u) false None (ua_wire u) (ua_ok u ++ [data]))
  | Some (data, false) =>
      buf <- wr_block (ua_buf u) 0 data ;;
      let '(hw, ok) := Transmit_DMA (ua_hw u) (length data) dmaOk in
      Some (mkUart ok (ua_pend u) buf hw false None (ua_wire u)
              (if ok then ua_ok u ++ [data] else ua_ok u))
  end.

(** The DMA fetches one byte and the UART sends it. Hardware, during the transfer
    started at uart.c:123 or 251. *)
Definition hw_byte (u : uart) : option uart :=
  match ua_hw u with
  | TxDma k n =>
      if (k <? n)%nat then
        b <- rd (ua_buf u) (Z.of_nat k) ;;
        Some (mkUart (ua_busy u) (ua_pend u) (ua_buf u) (TxDma (S k) n) (ua_masked u) (ua_call u)
                (ua_wire u ++ [b]) (ua_ok u))
      else Some u
  | _ => Some u
  end.

(** DMA transfer-complete interrupt (3381-3396). This is the interrupt that
    txIrq names (deviceMapping.c:72, 77, 89) and that uart.c:241 disables. *)
Definition hw_dma_irq (u : uart) : uart :=
  match ua_hw u with
  | TxDma k n =>
      if (k =? n)%nat && negb (ua_masked u)
      then mkUart (ua_busy u) (ua_pend u) (ua_buf u) TxLast (ua_masked u) (ua_call u) (ua_wire u) (ua_ok u)
      else u
  | _ => u
  end.

(** UART transmission-complete interrupt (stm32f7xx_hal_uart.c:2418-2423, 3820-3837),
    not disabled by uart.c:241, and uart.c:101-132. *)
Definition hw_tc_irq (u : uart) (dmaOk : bool) : option uart :=
  match ua_hw u with
  | TxLast =>
      match ua_pend u with
      | [] => Some (mkUart false [] (ua_buf u) TxIdle (ua_masked u) (ua_call u) (ua_wire u) (ua_ok u))
      | _ =>
          let '(b, rest) := stream_recv UART_MAX_DMA_LEN (ua_pend u) in
          buf <- wr_block (ua_buf u) 0 b ;;
          let '(hw, ok) := Transmit_DMA TxIdle (length b) dmaOk in
          Some (mkUart (if ok then ua_busy u else false) rest buf hw (ua_masked u) (ua_call u) (ua_wire u) (ua_ok u))
      end
  | _ => Some u
  end.

(** uart.c:134-149 after a receive line error: the HAL ends reception only
    (stm32f7xx_hal_uart.c:2216-2257), a running transmission goes on. *)
Definition hw_error_irq (u : uart) : uart :=
  mkUart false (ua_pend u) (ua_buf u) (ua_hw u) (ua_masked u) (ua_call u) (ua_wire u) (ua_ok u).

(** uart.c:101-149, 227-261. *)
Inductive uart_event :=
| UBegin (data : list Z)
| UEnd (dmaOk : bool)
| UByte
| UDmaIrq
| UTcIrq (dmaOk : bool)
| UErrIrq.

(** No code of its own; drives uart.c:101-149, 227-261. *)
Definition uart_step (u : uart) (e : uart_event) : option uart :=
  match e with
  | UBegin d => Some (send_begin u d)
  | UEnd ok => send_end u ok
  | UByte => hw_byte u
  | UDmaIrq => Some (hw_dma_irq u)
  | UTcIrq ok => hw_tc_irq u ok
  | UErrIrq => Some (hw_error_irq u)
  end.

(** A history of these events (uart.c:101-149, 227-261). *)
Fixpoint uart_run (u : uart) (tr : list uart_event) : option uart :=
  match tr with
  | [] => Some u
  | e :: t => match uart_step u e with Some u' => uart_run u' t | None => None end
  end.

(** ** Receive side *)

(** [rx_pos]: bytes the DMA has stored in uartDmaRx; [rx_half], [rx_full]: DMA
    half/full transfer interrupt pending; [rx_sb]: contents of the stream set by
    UART_SetRecvStream (207-224), of capacity [cap]. uart.c:23-43. *)
Record uart_rx := mkRx { rx_buf : list Z; rx_pos : nat; rx_half : bool; rx_full : bool; rx_sb : list Z }.

(** uart.c:200: reception started. *)
Definition rx_init : uart_rx := mkRx (repeat 0 512) 0 false false [].

(** A byte arrives. While the full buffer waits to be handled it is lost (receiver
    overrun, not detailed further). Hardware, into the buffer given at uart.c:200.
    *)
Definition rx_byte (r : uart_rx) (b : Z) : option uart_rx :=
  if (rx_pos r <? UART_MAX_DMA_LEN)%nat then
    buf <- wr (rx_buf r) (Z.of_nat (rx_pos r)) b ;;
    let p := S (rx_pos r) in
    Some (mkRx buf p (rx_half r || (p =? 256)%nat) (rx_full r || (p =? 512)%nat) (rx_sb r))
  else Some r.

(** uart.c:72-94: HAL_UARTEx_RxEventCallback. [restarts]: the receiver is ready,
    so HAL_UARTEx_ReceiveToIdle_DMA starts over at the beginning of the buffer;
    otherwise it answers HAL_BUSY (stm32f7xx_hal_uart_ex.c:683, 718). *)
Definition RxEventCallback (cap : nat) (r : uart_rx) (size : nat) (restarts : bool) : option uart_rx :=
  d <- rd_block (rx_buf r) 0 (Z.of_nat size) ;;
  let sb := stream_send cap (rx_sb r) d in
  if restarts then Some (mkRx (rx_buf r) 0 false false sb)
  else Some (mkRx (rx_buf r) (rx_pos r) (rx_half r) (rx_full r) sb).

(** Half-transfer interrupt (stm32f7xx_hal_uart.c:3491-3520): the callback is
    called with half the size while reception goes on. *)
Definition rx_half_irq (cap : nat) (r : uart_rx) : option uart_rx :=
  if rx_half r then
    RxEventCallback cap (mkRx (rx_buf r) (rx_pos r) false (rx_full r) (rx_sb r)) 256 false
  else Some r.

(** Transfer-complete interrupt (3433-3485). The DMA handler serves a pending half-
    transfer flag first. stm32f7xx_hal_uart.c:3433-3485. *)
Definition rx_full_irq (cap : nat) (r : uart_rx) : option uart_rx :=
  r1 <- rx_half_irq cap r ;;
  if rx_full r1 then RxEventCallback cap r1 512 true else Some r1.

(** Idle-line interrupt (2300-2342). stm32f7xx_hal_uart.c:2300-2342. *)
Definition rx_idle_irq (cap : nat) (r : uart_rx) : option uart_rx :=
  if (0 <? rx_pos r)%nat && (rx_pos r <? UART_MAX_DMA_LEN)%nat
  then RxEventCallback cap r (rx_pos r) true else Some r.

(** uart.c:72-94 and the reader of the stream (requests.c:123-129, gps.c). *)
Inductive rx_event := RByte (b : Z) | RHalf | RFull | RIdle | RTake (n : nat).

(** No code of its own; drives uart.c:72-94. *)
Definition rx_step (cap : nat) (r : uart_rx) (e : rx_event) : option uart_rx :=
  match e with
  | RByte b => rx_byte r b
  | RHalf => rx_half_irq cap r
  | RFull => rx_full_irq cap r
  | RIdle => rx_idle_irq cap r
  | RTake n => Some (mkRx (rx_buf r) (rx_pos r) (rx_half r) (rx_full r) (skipn n (rx_sb r)))
  end.

(** A history of these events (uart.c:72-94). *)
Fixpoint rx_run (cap : nat) (r : uart_rx) (tr : list rx_event) : option uart_rx :=
  match tr with
  | [] => Some r
  | e :: t => match rx_step cap r e with Some r' => rx_run cap r' t | None => None end
  end.
