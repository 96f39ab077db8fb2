(** system-lib/can/can.c: reception dispatch and transmission. *)
From Verif.Model Require Export CanFrame.

(** can.h:27-28 *)
Definition CAN_NUM_INSTANCES : Z := 3.
(** can.h:27 *)
Definition CAN_MAX_RECV_QUEUES : Z := 8.
(** can.h:28 *)
Definition CAN_MAX_PENDING_MSGS : Z := 64.

(** can.h:30-40 *)
Definition CAN_STATUS_OK : Z := 0.
(** can.h:33 *)
Definition CAN_STATUS_ERROR_TX : Z := 1.
(** can.h:37 *)
Definition CAN_STATUS_ERROR_INVALID_BUS : Z := 5.
(** can.h:38 *)
Definition CAN_STATUS_ERROR_MAX_QUEUES : Z := 6.

(** ** Reception *)

(** A frame in the hardware receive FIFO: identifier kind, identifier, length
    and the eight data registers (stm32f7xx_hal_can.c:1544-1567). *)
Record hw_frame := mkHw { hw_ext : bool; hw_id : Z; hw_dlc : Z; hw_data : list Z }.

(** can.c:24-28. The queue handle is a number naming a queue of the world. *)
Record recv_entry := mkEntry { re_id : Z; re_mask : Z; re_queue : Z }.

(** can.c:41-53, receive part: the array of eight entries and their number. *)
Record can_inst := mkInst { ci_inUse : bool; ci_num : Z; ci_queues : list recv_entry }.

(** All buses, and the contents of every FreeRTOS queue. can.c:41-57. *)
Record can_world := mkCw { cw_inst : Z -> can_inst; cw_q : Z -> list can_frame }.

(** Update of one entry of the instance table (can.c:57) or of the queues. *)
Definition set_at (A : Type) (f : Z -> A) (k : Z) (v : A) : Z -> A :=
  fun i => if i =? k then v else f i.
Arguments set_at {A}.

(** Array write; None outside the array. Used for queues[] at can.c:293-295. *)
Fixpoint put_entry (l : list recv_entry) (i : nat) (e : recv_entry) : option (list recv_entry) :=
  match l, i with
  | [], _ => None
  | _ :: t, O => Some (e :: t)
  | x :: t, S j => match put_entry t j e with Some t' => Some (x :: t') | None => None end
  end.

(** can.c:193-209 followed by CAN_Config (236-239) of every bus. *)
Definition zero_entry := mkEntry 0 0 0.
(** The state after CAN_Init and CAN_Config of every bus, can.c:193-273: in use, no
    queue registered. *)
Definition can_init : can_world :=
  mkCw (fun b => mkInst ((0 <=? b) && (b <? CAN_NUM_INSTANCES)) 0 (repeat zero_entry 8)) (fun _ => []).

(** can.c:276-299. The bus number is a C enum value; negative values do not occur. *)
Definition CAN_RegisterQueue (w : can_world) (bus deviceId mask q : Z) : option (can_world * Z) :=
  if bus >=? CAN_NUM_INSTANCES then Some (w, CAN_STATUS_ERROR_INVALID_BUS)
  else
    let d := cw_inst w bus in
    if ci_num d =? CAN_MAX_RECV_QUEUES then Some (w, CAN_STATUS_ERROR_MAX_QUEUES)
    else match put_entry (ci_queues d) (Z.to_nat (ci_num d)) (mkEntry deviceId mask q) with
         | None => None
         | Some l =>
             Some (mkCw (set_at (cw_inst w) bus (mkInst (ci_inUse d) (u8 (ci_num d + 1)) l)) (cw_q w),
                   CAN_STATUS_OK)
         end.

(** xQueueSendToBackFromISR: dropped when the queue is full. can.c:104. *)
Definition queue_push (cap : nat) (l : list can_frame) (f : can_frame) : list can_frame :=
  if (length l <? cap)%nat then l ++ [f] else l.

(** can.c:99-110. The loop index runs below ci_num; None when the array is
    shorter. *)
Fixpoint dispatch (qcap : Z -> nat) (qs : Z -> list can_frame) (entries : list recv_entry)
         (n : nat) (f : can_frame) {struct n} : option (Z -> list can_frame) :=
  match n with
  | O => Some qs
  | S n' =>
      match entries with
      | [] => None
      | e :: t =>
          let qs' := if Z.land (fr_id f) (re_mask e) =? re_id e
                     then set_at qs (re_queue e) (queue_push (qcap (re_queue e)) (qs (re_queue e)) f)
                     else qs in
          dispatch qcap qs' t n' f
      end
  end.

(** can.c:88-111. [fifo]: the frames found by successive iterations, each with
    the success of HAL_CAN_GetRxMessage. [stdId]: the StdId member of the local
    rxHeader, None while uninitialised: the HAL writes it only for standard
    frames (stm32f7xx_hal_can.c:1544-1553) and can.c:95 reads it always. Reading
    the uninitialised member gives None. *)
Fixpoint rx_loop (qcap : Z -> nat) (bus : Z) (d : can_inst) (qs : Z -> list can_frame)
         (stdId : option Z) (fifo : list (hw_frame * bool)) : option (Z -> list can_frame) :=
  match fifo with
  | [] => Some qs
  | (h, ok) :: t =>
      if negb ok then Some qs
      else
        let stdId' := if hw_ext h then stdId else Some (hw_id h) in
        match stdId' with
        | None => None
        | Some sid =>
            match dispatch qcap qs (ci_queues d) (Z.to_nat (ci_num d))
                    (mkFrame bus sid (hw_dlc h) (hw_data h)) with
            | None => None
            | Some qs' => rx_loop qcap bus d qs' stdId' t
            end
        end
  end.

(** can.c:64-114 for the bus the interrupt belongs to. *)
Definition ISR_RxMsgPending (qcap : Z -> nat) (w : can_world) (bus : Z) (fifo : list (hw_frame * bool))
  : option can_world :=
  let d := cw_inst w bus in
  if negb (ci_inUse d) then Some w
  else match rx_loop qcap bus d (cw_q w) None fifo with
       | None => None
       | Some qs => Some (mkCw (cw_inst w) qs)
       end.

(** Histories: registrations, receive interrupts, and drivers taking frames.
    CAN_RegisterQueue (can.c:276-299), the receive interrupt (64-114), xQueueReceive
    in the drivers (cInverter.c, orionBms.c). *)
Inductive can_event :=
| CanReg (bus deviceId mask q : Z)
| CanRx (bus : Z) (fifo : list (hw_frame * bool))
| CanTake (q : Z) (n : nat).

(** One such event; the receive queue keeps its order (can.c:64-114, 276-299). *)
Definition can_step (qcap : Z -> nat) (w : can_world) (e : can_event) : option can_world :=
  match e with
  | CanReg b i m q => match CAN_RegisterQueue w b i m q with Some (w', _) => Some w' | None => None end
  | CanRx b fifo => ISR_RxMsgPending qcap w b fifo
  | CanTake q n => Some (mkCw (cw_inst w) (set_at (cw_q w) q (skipn n (cw_q w q))))
  end.

(** A history of such events. No code of its own (drives can.c:64-299). *)
Fixpoint can_run (qcap : Z -> nat) (w : can_world) (tr : list can_event) : option can_world :=
  match tr with
  | [] => Some w
  | e :: t => match can_step qcap w e with Some w' => can_run qcap w' t | None => None end
  end.

(** ** Transmission (one bus) *)

(** can.c:30-33: identifier and the DLC first bytes of the data. *)
Record tx_item := mkItem { ti_id : Z; ti_data : list Z }.

(** Three hardware mailboxes, the pending queue, the frames that went out on the
    bus, the mailbox being transmitted, and whether the transmit-complete interrupt
    is enabled. [tx_hand] and [tx_acc] record the history: frames handed to a
    mailbox, and frames for which CAN_SendMessage answered OK. The driver's part:
    can.c:41-55. *)
Record can_tx := mkTx {
  tx_mb : list (option tx_item);
  tx_q : list tx_item;
  tx_bus : list tx_item;
  tx_cur : option nat;
  tx_ie : bool;
  tx_hand : list tx_item;
  tx_acc : list tx_item }.

(** can.c:217-273: CAN_Config enables only the receive interrupt (267), so the
    shipped value of [ie] is false. *)
Definition tx_config (ie : bool) : can_tx := mkTx [None; None; None] [] [] None ie [] [].
(** CAN_Config enables the receive notification only, can.c:267. *)
Definition shipped_ie : bool := false.

(** HAL_CAN_GetTxMailboxesFreeLevel (stm32f7xx_hal_can.c:1400-1430), bus started. *)
Definition free_level (mb : list (option tx_item)) : Z :=
  Z.of_nat (length (filter (fun m => match m with None => true | Some _ => false end) mb)).

(** HAL_CAN_AddTxMessage (1251-1341): the lowest free mailbox (register TSR.CODE).
    stm32f7xx_hal_can.c:1251-1341. *)
Fixpoint fill_mailbox (mb : list (option tx_item)) (it : tx_item) : option (list (option tx_item)) :=
  match mb with
  | [] => None
  | None :: t => Some (Some it :: t)
  | Some x :: t => match fill_mailbox t it with Some t' => Some (Some x :: t') | None => None end
  end.

(** can.c:302-344. [data]: the caller's array; [halOk]: HAL_CAN_AddTxMessage can
    succeed. None: the call reads past the caller's array (the HAL always reads
    eight bytes, 1309-1318; memcpy reads n) or writes past the eight bytes of
    txItem.data (333), or breaks the "Max 8" of can.h:97. Simplification: the
    10-tick wait for room in the queue is not split; the queue is full or not. *)
Definition CAN_SendMessage (c : can_tx) (msgId : Z) (data : list Z) (n : Z) (halOk : bool)
  : option (can_tx * Z) :=
  if (n <? 0) || (8 <? n) then None
  else
    let it := mkItem msgId (firstn (Z.to_nat n) data) in
    if 0 <? free_level (tx_mb c) then
      if Z.of_nat (length data) <? 8 then None
      else if negb halOk then Some (c, CAN_STATUS_ERROR_TX)
      else match fill_mailbox (tx_mb c) it with
           | Some mb => Some (mkTx mb (tx_q c) (tx_bus c) (tx_cur c) (tx_ie c) (tx_hand c ++ [it]) (tx_acc c ++ [it]),
                              CAN_STATUS_OK)
           | None => Some (c, CAN_STATUS_ERROR_TX)
           end
    else if Z.of_nat (length data) <? n then None
    else if Z.of_nat (length (tx_q c)) <? CAN_MAX_PENDING_MSGS
         then Some (mkTx (tx_mb c) (tx_q c ++ [it]) (tx_bus c) (tx_cur c) (tx_ie c) (tx_hand c) (tx_acc c ++ [it]),
                    CAN_STATUS_OK)
         else Some (c, CAN_STATUS_ERROR_TX).

(** can.c:159-172: while something is pending and a mailbox is free. The fuel
    is the number of pending frames; HAL_CAN_AddTxMessage succeeds because a
    mailbox is free and the bus is started. *)
Fixpoint tx_drain (mb : list (option tx_item)) (q hand : list tx_item)
  : list (option tx_item) * list tx_item * list tx_item :=
  match q with
  | [] => (mb, [], hand)
  | it :: q' =>
      if 0 <? free_level mb
      then match fill_mailbox mb it with
           | Some mb' => tx_drain mb' q' (hand ++ [it])
           | None => (mb, q, hand)
           end
      else (mb, q, hand)
  end.

(** can.c:136-175 *)
Definition ISR_TxComplete (c : can_tx) : can_tx :=
  let '(mb, q, hand) := tx_drain (tx_mb c) (tx_q c) (tx_hand c) in
  mkTx mb q (tx_bus c) (tx_cur c) (tx_ie c) hand (tx_acc c).

(** The bus controller chooses among the filled mailboxes the lowest identifier,
    and among equal ones the lowest mailbox (main.c:406, 443:
    TransmitFifoPriority = DISABLE). *)
Fixpoint arbiter (mb : list (option tx_item)) (i : nat) (best : option (nat * Z)) : option nat :=
  match mb with
  | [] => match best with Some (j, _) => Some j | None => None end
  | None :: t => arbiter t (S i) best
  | Some it :: t =>
      let best' := match best with
                   | Some (j, k) => if ti_id it <? k then Some (i, ti_id it) else best
                   | None => Some (i, ti_id it)
                   end in
      arbiter t (S i) best'
  end.

(** Hardware starts a transmission when none is running. Hardware contract
    (transmission by mailbox priority is left out); the request is made at
    stm32f7xx_hal_can.c:1321. *)
Definition hw_start (c : can_tx) : can_tx :=
  match tx_cur c with
  | Some _ => c
  | None => mkTx (tx_mb c) (tx_q c) (tx_bus c) (arbiter (tx_mb c) 0 None) (tx_ie c) (tx_hand c) (tx_acc c)
  end.

(** A mailbox becomes empty again (hardware contract, TSR.TME; read at
    stm32f7xx_hal_can.c:1256). *)
Fixpoint clear_mb (mb : list (option tx_item)) (i : nat) : list (option tx_item) :=
  match mb, i with
  | [], _ => []
  | _ :: t, O => None :: t
  | x :: t, S j => x :: clear_mb t j
  end.

(** The running transmission ends, successfully or not. AutoRetransmission is
    disabled (main.c:404, 441), so the mailbox is free in both cases. The
    interrupt follows if it is enabled. *)
Definition hw_done (c : can_tx) (sent : bool) : can_tx :=
  match tx_cur c with
  | None => c
  | Some i =>
      let out := match nth_error (tx_mb c) i with
                 | Some (Some it) => if sent then [it] else []
                 | _ => []
                 end in
      let c' := mkTx (clear_mb (tx_mb c) i) (tx_q c) (tx_bus c ++ out) None (tx_ie c) (tx_hand c) (tx_acc c) in
      if tx_ie c then ISR_TxComplete c' else c'
  end.

(** CAN_SendMessage (can.c:302-344), the end of a transmission, the transmit
    interrupt (can.c:136-175). *)
Inductive tx_event :=
| TxSend (msgId : Z) (data : list Z) (n : Z) (halOk : bool)
| TxStart
| TxDone (sent : bool).

(** One such event (can.c:136-175, 302-344). *)
Definition tx_step (c : can_tx) (e : tx_event) : option can_tx :=
  match e with
  | TxSend i d n ok => match CAN_SendMessage c i d n ok with Some (c', _) => Some c' | None => None end
  | TxStart => Some (hw_start c)
  | TxDone s => Some (hw_done c s)
  end.

(** A history of such events. No code of its own (drives can.c:136-344). *)
Fixpoint tx_run (c : can_tx) (tr : list tx_event) : option can_tx :=
  match tr with
  | [] => Some c
  | e :: t => match tx_step c e with Some c' => tx_run c' t | None => None end
  end.
