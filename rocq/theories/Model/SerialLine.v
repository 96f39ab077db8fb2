(** The serial ports bit by bit: bit rates from the clock tree, the line as a
    function of time, and the receiver's sampling.

    Time is counted in an arbitrary unit, fine enough to express both sides'
    clocks. The line is ideal: no noise, no finite slopes. *)
From Verif.Base Require Export Words.
From Verif.Model Require Export WheelTimer.

(** stm32f7xx_hal_uart.c:3018-3025 with stm32f7xx_hal_uart.h:1217 (oversampling by
    16, main.c:765, 800, 835); None: HAL_ERROR. *)
Definition usart_brr (pclk baud : Z) : option Z :=
  let usartdiv := (pclk + baud / 2) / baud in
  if (16 <=? usartdiv) && (usartdiv <=? 65535) then Some usartdiv else None.

(** main.c:759, 794, 829; clock sources msp 784, 858, 932 *)
Inductive port := PORT_USART1 | PORT_USART3 | PORT_USART6.
(** Clock source of each port: stm32f7xx_hal_msp.c:784, 858, 932. *)
Definition port_clock (p : port) : Z := match p with PORT_USART3 => PCLK1 | _ => PCLK2 end.
(** main.c:759, 794, 829 *)
Definition port_baud (p : port) : Z := match p with PORT_USART6 => 9600 | _ => 115200 end.

(** A character on the line: start bit, eight data bits from the lowest, stop bit
    (main.c:760-762: 8 bits, no parity, one stop bit). *)
Definition char_bit (b k : Z) : bool :=
  if k =? 0 then false else if k =? 9 then true else Z.testbit b (k - 1).

(** The line while the characters [cs] are sent, each with its start time, with
    [bit] time units per bit; high when idle. Hardware; the format is that of
    main.c:760-762. *)
Definition line (bit : Z) (cs : list (Z * Z)) (t : Z) : bool :=
  match find (fun c => (fst c <=? t) && (t <? fst c + 10 * bit)) cs with
  | Some (s, b) => char_bit b ((t - s) / bit)
  | None => true
  end.

(** The receiver, after it has seen the start edge at time [e] with [d] delay: each
    bit is the majority of three samples around its middle, at 7/16, 8/16 and 9/16
    of a bit time (reference manual, USART receiver; OneBitSampling disabled). Set
    at main.c:766. *)
Definition sample (l : Z -> bool) (bit t k j : Z) : bool := l (t + (16 * k + j) * bit / 16).
(** Hardware: two of the three samples (OneBitSampling disabled, main.c:766). *)
Definition majority (a b c : bool) : bool := (a && b) || (a && c) || (b && c).
(** Hardware: one bit (main.c:765-766). *)
Definition rx_bit (l : Z -> bool) (bit t k : Z) : bool :=
  majority (sample l bit t k 7) (sample l bit t k 8) (sample l bit t k 9).

(** One character; None: the start bit is not confirmed, or a framing error.
    Hardware; the format is that of main.c:760-762. *)
Definition rx_char (l : Z -> bool) (bit t : Z) : option Z :=
  if negb (rx_bit l bit t 0) && rx_bit l bit t 9
  then Some (fold_left (fun a k => a + (if rx_bit l bit t (k + 1) then 2 ^ k else 0)) [0; 1; 2; 3; 4; 5; 6; 7] 0)
  else None.

(** When the receiver looks for the next start edge again: after the last sample.
    Hardware (main.c:765-766). *)
Definition rx_end (bit t : Z) : Z := t + 153 * bit / 16.

(** A run of the receiver from time [t]: it waits for the line to go low, at [e];
    its own clock notices after at most a sixteenth of a bit; the outcome of each
    character is listed. Hardware (main.c:759-767). *)
Inductive rx_run (l : Z -> bool) (bit : Z) : Z -> list (option Z) -> Prop :=
| RxIdle t : rx_run l bit t []
| RxChar t e d out :
    t <= e -> (forall x, t <= x < e -> l x = true) -> l e = false ->
    0 <= d <= bit / 16 ->
    rx_run l bit (rx_end bit (e + d)) out ->
    rx_run l bit t (rx_char l bit (e + d) :: out).
