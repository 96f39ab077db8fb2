(** A CAN controller with its error counters under the driver of
    Model/CanDriver.v: what disturbances on the bus do to the node.

    The counters follow the fault confinement rules of ISO 11898-1 as bxCAN
    implements them. Simplifications: an error adds 8 to the transmit counter and 1
    or 8 to the receive counter (the special cases of stuff errors during
    arbitration and of error flags are left out); time is not modelled. *)
From Verif.Model Require Export CanDriver.

(** Error counters TEC and REC, the bus-off flag, and the number of times 11
    recessive bits in a row were seen since bus-off. Contract of the bxCAN register
    ESR; the driver never reads it (can.c:1-344). *)
Record confinement := mkFc { fc_tec : Z; fc_rec : Z; fc_off : bool; fc_idle : Z }.
(** The counters after HAL_CAN_Init (stm32f7xx_hal_can.c, initialisation mode;
    called from main.c by the cube code, CAN_Init at can.c:193-214 does not touch
    them). *)
Definition fc_reset : confinement := mkFc 0 0 false 0.

(** Error passive: one of the counters above 127. CAN protocol (ISO 11898-1), no
    code of its own; can.c:1-344 has no reaction to it. *)
Definition passive (f : confinement) : bool := (127 <? fc_tec f) || (127 <? fc_rec f).

(** Why a transmission failed: nobody acknowledged, a disturbance, or another node
    won the arbitration. The reasons set ALST and TERR in TSR; the HAL only reports
    them (can.c:136-175 does not look at them). *)
Inductive tx_failure := NoAck | Disturbed | LostArbitration.

(** Hardware contract: TEC grows by 8, except for a missing acknowledge in error
    passive state. Not in the repository's code; can.c:1-344 never reads the
    counter. *)
Definition count_tx_error (f : confinement) (k : tx_failure) : confinement :=
  match k with
  | LostArbitration => f
  | NoAck => if passive f then f else mkFc (fc_tec f + 8) (fc_rec f) (255 <? fc_tec f + 8) 0
  | Disturbed => mkFc (fc_tec f + 8) (fc_rec f) (255 <? fc_tec f + 8) 0
  end.
(** Hardware contract: TEC falls by 1. Not in the repository's code (can.c:1-344).
    *)
Definition count_tx_ok (f : confinement) : confinement :=
  mkFc (Z.max 0 (fc_tec f - 1)) (fc_rec f) (fc_off f) (fc_idle f).
(** Hardware contract: REC grows by 1 (coarse: the standard also has steps of 8).
    Not in the repository's code (can.c:1-344). *)
Definition count_rx_error (f : confinement) (big : bool) : confinement :=
  mkFc (fc_tec f) (Z.min 255 (fc_rec f + (if big then 8 else 1))) (fc_off f) (fc_idle f).
(** Hardware contract: REC falls by 1. Not in the repository's code (can.c:1-344).
    *)
Definition count_rx_ok (f : confinement) : confinement :=
  mkFc (fc_tec f) (if 127 <? fc_rec f then 120 else Z.max 0 (fc_rec f - 1)) (fc_off f) (fc_idle f).

(** Recovery: with automatic bus-off management (MCR.ABOM) the controller comes
    back by itself after 128 times 11 recessive bits; without it only software can
    start that, by entering and leaving initialisation mode. Shipped: off
    (main.c:402, 439, 476). *)
Definition shipped_abom : bool := false.
(** Hardware contract of the recovery sequence; it is automatic only with ABOM,
    which main.c:402, 439 and 476 disable. *)
Definition recover (abom : bool) (f : confinement) : confinement :=
  if fc_off f && abom
  then if 127 <=? fc_idle f then fc_reset else mkFc (fc_tec f) (fc_rec f) true (fc_idle f + 1)
  else f.

(** The node: transmit side of the driver, counters, frames received (as the receive
    interrupt finds them). The driver's part is can.c:41-55. *)
Record node := mkNode { nd_tx : can_tx; nd_fc : confinement; nd_rx : list hw_frame }.
(** The node after CAN_Init and CAN_Config, can.c:193-273. *)
Definition node_start (ie : bool) : node := mkNode (tx_config ie) fc_reset [].

(** What can happen. [NConfig] is another CAN_Config of the bus: the filter is
    written again and HAL_CAN_Start refuses (can.c:256-263,
    stm32f7xx_hal_can.c:1035-1076), so nothing changes for the controller. No
    other call of the driver, and nothing else in the firmware, touches
    initialisation mode. *)
Inductive node_event :=
| NSend (msgId : Z) (data : list Z) (n : Z)
| NConfig
| NStart
| NSent
| NFailed (k : tx_failure)
| NReceive (h : hw_frame)
| NRxError (big : bool)
| NRecessive.

(** One event of the bus or of the firmware (can.c:64-114, 136-175, 302-344) at the
    node. *)
Definition node_step (abom : bool) (s : node) (e : node_event) : option node :=
  let off := fc_off (nd_fc s) in
  match e with
  | NSend i d n => match CAN_SendMessage (nd_tx s) i d n true with
                   | Some (c, _) => Some (mkNode c (nd_fc s) (nd_rx s))
                   | None => None
                   end
  | NConfig => Some s
  | NStart => Some (if off then s else mkNode (hw_start (nd_tx s)) (nd_fc s) (nd_rx s))
  | NSent =>
      Some match tx_cur (nd_tx s) with
           | Some _ => if off then s else mkNode (hw_done (nd_tx s) true) (count_tx_ok (nd_fc s)) (nd_rx s)
           | None => s
           end
  | NFailed k =>
      Some match tx_cur (nd_tx s) with
           | Some _ => if off then s else mkNode (hw_done (nd_tx s) false) (count_tx_error (nd_fc s) k) (nd_rx s)
           | None => s
           end
  | NReceive h => Some (if off then s else mkNode (nd_tx s) (count_rx_ok (nd_fc s)) (nd_rx s ++ [h]))
  | NRxError b => Some (if off then s else mkNode (nd_tx s) (count_rx_error (nd_fc s) b) (nd_rx s))
  | NRecessive => Some (mkNode (nd_tx s) (recover abom (nd_fc s)) (nd_rx s))
  end.

(** A history of such events. No code of its own (drives can.c:64-344). *)
Fixpoint node_run (abom : bool) (s : node) (tr : list node_event) : option node :=
  match tr with
  | [] => Some s
  | e :: t => match node_step abom s e with Some s' => node_run abom s' t | None => None end
  end.
