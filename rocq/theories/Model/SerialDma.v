(** The serial ports with the DMA streams that carry their bytes, in the
    configuration left by the start-up of Model/BringUp.v.

    A stream serves the requests of the channel selected in its register only, in
    the direction selected there. The request lines (reference manual, DMA request
    mapping): channel 4 for USART1 and USART3, 5 for USART6. *)
From Verif.Model Require Export Uart BringUp.

(** The three UARTs set up at main.c:759, 794, 829. *)
Inductive serial := USART_1 | USART_3 | USART_6.
(** stm32f7xx_hal_msp.c:780-1005, __HAL_LINKDMA of each port. *)
Definition tx_stream (p : serial) : stream :=
  match p with USART_1 => S_USART1_TX | USART_3 => S_USART3_TX | USART_6 => S_USART6_TX end.
(** stm32f7xx_hal_msp.c:780-1005, __HAL_LINKDMA of each port. *)
Definition rx_stream (p : serial) : stream :=
  match p with USART_1 => S_USART1_RX | USART_3 => S_USART3_RX | USART_6 => S_USART6_RX end.
(** Reference manual; the channel asked for is in stm32f7xx_hal_msp.c:780-1005. *)
Definition request_line (p : serial) : Z := match p with USART_6 => 5 | _ => 4 end.

(** Hardware; compares what stm32f7xx_hal_msp.c:780-1005 left in the stream's
    register. *)
Definition serves (c : dma_cfg) (p : serial) (to_periph : bool) : bool :=
  (dc_channel c =? request_line p) && Bool.eqb (dc_to_periph c) to_periph && dc_minc c && (dc_size c =? 1).

(** Transmission: without service no byte moves and the transfer does not end.
    Drives uart.c:227-261 and 101-132. *)
Definition serial_tx_step (h : hw) (p : serial) (u : uart) (e : uart_event) : option uart :=
  match e with
  | UByte => if serves (hw_stream h (tx_stream p)) p true then uart_step u UByte else Some u
  | _ => uart_step u e
  end.
(** A history of these events (uart.c:101-261). *)
Fixpoint serial_tx_run (h : hw) (p : serial) (u : uart) (tr : list uart_event) : option uart :=
  match tr with
  | [] => Some u
  | e :: t => match serial_tx_step h p u e with Some u' => serial_tx_run h p u' t | None => None end
  end.

(** Reception: without service an arriving byte stays in the data register and is
    overwritten by the next. Drives uart.c:72-94. *)
Definition serial_rx_step (h : hw) (p : serial) (cap : nat) (r : uart_rx) (e : rx_event) : option uart_rx :=
  match e with
  | RByte b => if serves (hw_stream h (rx_stream p)) p false then rx_step cap r e else Some r
  | _ => rx_step cap r e
  end.
(** A history of these events (uart.c:72-94). *)
Fixpoint serial_rx_run (h : hw) (p : serial) (cap : nat) (r : uart_rx) (tr : list rx_event) : option uart_rx :=
  match tr with
  | [] => Some r
  | e :: t => match serial_rx_step h p cap r e with Some r' => serial_rx_run h p cap r' t | None => None end
  end.
