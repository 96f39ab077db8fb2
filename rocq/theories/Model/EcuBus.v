(** The ECU of Ecu.v with the CAN controller of the inverter's bus behind it
    (CanDriver.v), and a processor that may stop.

    A frame is handed to the driver in one step: the two tasks that command the
    inverter never are inside the driver together (cInverter.c:422, 448; C72), and
    the debug frame of the PC interface (pcinterface.c:60) is left out. *)
From Verif.Model Require Export Ecu.
From Verif.Model Require CanDriver.

(** [bd_stopped]: the processor is in one of the endless loops: the fault handlers
    (stm32f7xx_it.c:88-158), Error_Handler (main.c:1073-1082) or a failed
    configASSERT (FreeRTOSConfig.h:122). Interrupts are off or of lower priority,
    so no task and no other handler runs. *)
Record board := mkBoard { bd_ecu : ecu; bd_tx : CanDriver.can_tx; bd_stopped : bool }.

(** After CAN_Config (can.c:217-273): nothing pending, no mailbox in use. *)
Definition board_init (m0 : vsm) : board :=
  mkBoard (ecu_init m0) (CanDriver.tx_config CanDriver.shipped_ie) false.

(** The frames an event of the ECU hands to the driver. Their contents do not depend
    on the status the driver returns. The calls of CAN_SendMessage at
    cInverter.c:45-49. *)
Definition attempts (c : config) (tick : Z) (e : ecu) (ev : ecu_event) : list tx :=
  skipn (length (e_sent e)) (e_sent (ecu_step c tick e ev)).

(** cInverter.c:45-49: the command is sent with CAN_SendMessage, eight bytes. *)
Definition give1 (d : CanDriver.can_tx) (t : tx) : CanDriver.can_tx * bool :=
  match CanDriver.CAN_SendMessage d (tx_id t) (tx_data t) 8 true with
  | Some (d', st) => (d', st =? CanDriver.CAN_STATUS_OK)
  | None => (d, false)
  end.
(** The calls one after the other (cInverter.c:446-486 makes up to two). *)
Fixpoint give (d : CanDriver.can_tx) (ts : list tx) : CanDriver.can_tx * list bool :=
  match ts with
  | [] => (d, [])
  | t :: ts => let (d', ok) := give1 d t in let (d'', oks) := give d' ts in (d'', ok :: oks)
  end.

(** The event with the statuses the driver really returned. The status returned at
    can.c:302-344 and used at cInverter.c:51. *)
Definition answered (ev : ecu_event) (oks : list bool) : ecu_event :=
  match ev, oks with
  | EvRequest il _, [a] => EvRequest il a
  | EvCmd tl il _ _, [b] => EvCmd tl il true b
  | EvCmd tl il _ _, [a; b] => EvCmd tl il a b
  | _, _ => ev
  end.

(** The processor does a piece of work, the controller starts or ends a
    transmission, the processor stops. BStop: the processor loops in a fault handler
    or an assertion (stm32f7xx_it.c:72-150, FreeRTOSConfig.h:122). *)
Inductive board_event := BEcu (ev : ecu_event) | BStart | BDone (sent : bool) | BStop.

(** One such event. The processor's work: cInverter.c:45-49 hands the frames to
    can.c:302-344; after BStop it does none. *)
Definition board_step (c : config) (tick : Z) (b : board) (ev : board_event) : board :=
  match ev with
  | BEcu x =>
      if bd_stopped b then b else
      let (d, oks) := give (bd_tx b) (attempts c tick (bd_ecu b) x) in
      mkBoard (ecu_step c tick (bd_ecu b) (answered x oks)) d false
  | BStart => mkBoard (bd_ecu b) (CanDriver.hw_start (bd_tx b)) (bd_stopped b)
  | BDone sent => mkBoard (bd_ecu b) (CanDriver.hw_done (bd_tx b) sent) (bd_stopped b)
  | BStop => mkBoard (bd_ecu b) (bd_tx b) true
  end.

(** A history of such events. No code of its own (drives can.c:302-344). *)
Definition board_run (c : config) (tick : Z) (m0 : vsm) (bs : list board_event) : board :=
  fold_left (board_step c tick) bs (board_init m0).
