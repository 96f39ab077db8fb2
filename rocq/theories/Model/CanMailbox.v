(** Sending on one CAN bus from several tasks, at the level of register accesses.
    CanDriver.v takes CAN_SendMessage as one step; here every access to the bus
    controller is a step of its own and tasks may be interleaved between them. *)
From Verif.Model Require Export CanFrame.
From Coq Require Export Bool List ZArith Lia.
Export ListNotations.

(** Transmit mailbox registers TIR (identifier), TDTR (length), TDHR (bytes 4-7),
    TDLR (bytes 0-3) and the request bit TXRQ of TIR. A mailbox is empty (TSR.TME)
    when nothing is requested. Written at stm32f7xx_hal_can.c:1289-1321. *)
Record mbox := mkMbox { m_id : Z; m_dlc : Z; m_hi : list Z; m_lo : list Z; m_req : bool }.

(** What a task is doing in CAN_SendMessage (can.c:302-344) with
    HAL_CAN_AddTxMessage (stm32f7xx_hal_can.c:1251-1341): about to read the free
    level (326), to read TSR (1256), to write TIR (1289), TDTR (1300), TDHR (1309),
    TDLR (1314), to read TIR and to write it back with TXRQ set (1321). *)
Inductive stage :=
| Out
| AtLevel (f : can_frame)
| AtStatus (f : can_frame)
| AtId (f : can_frame) (m : nat)
| AtDlc (f : can_frame) (m : nat)
| AtHi (f : can_frame) (m : nat)
| AtLo (f : can_frame) (m : nat)
| AtRead (f : can_frame) (m : nat)
| AtReq (f : can_frame) (m : nat) (id : Z)
| AtQueue (f : can_frame).

(** [bs_at]: where each task is. [bs_holder]: who holds the inverter command mutex.
    [bs_bus], [bs_lost]: frames transmitted, and frames that failed on the bus.
    [bs_ok]: the frames for which CAN_SendMessage has answered OK. The code is
    can.c:302-344 with stm32f7xx_hal_can.c:1251-1341; the mutex is cInverter.c:422,
    448. *)
Record busys := mkBus {
  bs_mb : list mbox; bs_queue : list can_frame; bs_at : nat -> stage; bs_holder : option nat;
  bs_bus : list can_frame; bs_lost : list can_frame; bs_ok : list can_frame }.

(** After CAN_Init and CAN_Config (can.c:193-273): mailboxes and queue empty. *)
Definition bus_init : busys :=
  mkBus (repeat (mkMbox 0 0 [] [] false) 3) [] (fun _ => Out) None [] [] [].

(** The throttle task (0) and the state manager (1) send under the mutex
    (cInverter.c:422, 448); the PC interface task's debug frame does not
    (pcinterface.c:60). Tasks are numbered as in Locks.v. *)
Definition locker (i : nat) : bool := (i =? 0)%nat || (i =? 1)%nat.

(** Task [i] goes on to [a]. No code of its own (places in can.c:302-344). *)
Definition move (s : busys) (i : nat) (a : stage) : busys :=
  mkBus (bs_mb s) (bs_queue s) (fun j => if (j =? i)%nat then a else bs_at s j)
    (bs_holder s) (bs_bus s) (bs_lost s) (bs_ok s).

(** New contents of the mailbox registers (stm32f7xx_hal_can.c:1289-1321). *)
Definition set_mb (s : busys) (mb : list mbox) : busys :=
  mkBus mb (bs_queue s) (bs_at s) (bs_holder s) (bs_bus s) (bs_lost s) (bs_ok s).

(** The call returns; the mutex is given back (cInverter.c:442). *)
Definition leave (s : busys) (i : nat) (ok : list can_frame) : busys :=
  mkBus (bs_mb s) (bs_queue s) (fun j => if (j =? i)%nat then Out else bs_at s j)
    (if locker i then None else bs_holder s) (bs_bus s) (bs_lost s) (bs_ok s ++ ok).

(** TSR.CODE: the first empty mailbox. Hardware contract; read at
    stm32f7xx_hal_can.c:1265. *)
Fixpoint first_free (mb : list mbox) (i : nat) : option nat :=
  match mb with
  | [] => None
  | m :: t => if m_req m then first_free t (S i) else Some i
  end.

(** A write to the registers of mailbox [m]. The registers of a mailbox that is not
    empty are write protected (STM32F7 reference manual, CAN mailbox registers). The
    writes are at stm32f7xx_hal_can.c:1289-1321. *)
Fixpoint write_mb (m : nat) (f : mbox -> mbox) (mb : list mbox) : list mbox :=
  match mb, m with
  | [], _ => []
  | x :: t, O => (if m_req x then x else f x) :: t
  | x :: t, S m => x :: write_mb m f t
  end.

(** stm32f7xx_hal_can.c:1289 *)
Definition put_id (v : Z) (x : mbox) := mkMbox v (m_dlc x) (m_hi x) (m_lo x) (m_req x).
(** stm32f7xx_hal_can.c:1300 *)
Definition put_dlc (v : Z) (x : mbox) := mkMbox (m_id x) v (m_hi x) (m_lo x) (m_req x).
(** stm32f7xx_hal_can.c:1309 *)
Definition put_hi (v : list Z) (x : mbox) := mkMbox (m_id x) (m_dlc x) v (m_lo x) (m_req x).
(** stm32f7xx_hal_can.c:1314 *)
Definition put_lo (v : list Z) (x : mbox) := mkMbox (m_id x) (m_dlc x) (m_hi x) v (m_req x).
(** stm32f7xx_hal_can.c:1321, the second half of the read-modify-write: the
    identifier read before is written back. *)
Definition put_req (v : Z) (x : mbox) := mkMbox v (m_dlc x) (m_hi x) (m_lo x) true.
(** Hardware contract: the mailbox is empty after the transmission (TSR.TME, read at
    stm32f7xx_hal_can.c:1256). *)
Definition put_free (x : mbox) := mkMbox (m_id x) (m_dlc x) (m_hi x) (m_lo x) false.

(** What the controller transmits from a mailbox (of bus CAN_DEV1). Built from the
    registers written at stm32f7xx_hal_can.c:1289-1314. *)
Definition out_frame (x : mbox) : can_frame :=
  mkFrame CAN_DEV1 (m_id x) (m_dlc x) (m_lo x ++ m_hi x).

(** can.h:28 CAN_MAX_PENDING_MSGS *)
Definition PENDING_CAP : nat := 64.

(** Events: a task calls CAN_SendMessage, a task gets on with its call, the
    controller finishes with mailbox [m] (any requested one), successfully or not.
    The transmit interrupt is off as shipped (C46), so queued frames stay queued.
    can.c:302-344. *)
Inductive bus_event := Begin (i : nat) (f : can_frame) | Go (i : nat) | Sent (m : nat) (ok : bool).

(** The next access of task [i] in CAN_SendMessage, can.c:302-344 (the stages carry
    the lines). *)
Definition bus_go (s : busys) (i : nat) : busys :=
  match bs_at s i with
  | Out => s
  | AtLevel f =>
      match first_free (bs_mb s) 0 with
      | Some _ => move s i (AtStatus f)
      | None => move s i (AtQueue f)
      end
  | AtStatus f =>
      match first_free (bs_mb s) 0 with
      | Some m => move s i (AtId f m)
      | None => leave s i []                      (* HAL_ERROR *)
      end
  | AtId f m => move (set_mb s (write_mb m (put_id (fr_id f)) (bs_mb s))) i (AtDlc f m)
  | AtDlc f m => move (set_mb s (write_mb m (put_dlc (fr_dlc f)) (bs_mb s))) i (AtHi f m)
  | AtHi f m => move (set_mb s (write_mb m (put_hi (skipn 4 (fr_data f))) (bs_mb s))) i (AtLo f m)
  | AtLo f m => move (set_mb s (write_mb m (put_lo (firstn 4 (fr_data f))) (bs_mb s))) i (AtRead f m)
  | AtRead f m =>
      match nth_error (bs_mb s) m with
      | Some x => move s i (AtReq f m (m_id x))
      | None => s
      end
  | AtReq f m v => leave (set_mb s (write_mb m (put_req v) (bs_mb s))) i [f]
  | AtQueue f =>
      if (length (bs_queue s) <? PENDING_CAP)%nat
      then leave (mkBus (bs_mb s) (bs_queue s ++ [f]) (bs_at s) (bs_holder s) (bs_bus s) (bs_lost s) (bs_ok s)) i [f]
      else leave s i []
  end.

(** One event. Begin: can.c:302, behind the mutex of cInverter.c:422, 448 for the
    two tasks that take it. *)
Definition bus_step (s : busys) (e : bus_event) : busys :=
  match e with
  | Begin i f =>
      match bs_at s i with
      | Out =>
          if locker i then
            match bs_holder s with
            | None => let s' := move s i (AtLevel f) in
                mkBus (bs_mb s') (bs_queue s') (bs_at s') (Some i) (bs_bus s') (bs_lost s') (bs_ok s')
            | Some _ => s                         (* waits *)
            end
          else move s i (AtLevel f)
      | _ => s
      end
  | Go i => bus_go s i
  | Sent m ok =>
      match nth_error (bs_mb s) m with
      | Some x =>
          if m_req x then
            let mb := firstn m (bs_mb s) ++ put_free x :: skipn (S m) (bs_mb s) in
            if ok
            then mkBus mb (bs_queue s) (bs_at s) (bs_holder s) (bs_bus s ++ [out_frame x]) (bs_lost s) (bs_ok s)
            else mkBus mb (bs_queue s) (bs_at s) (bs_holder s) (bs_bus s) (bs_lost s ++ [out_frame x]) (bs_ok s)
          else s
      | None => s
      end
  end.

(** A history of such events. No code of its own (drives can.c:302-344). *)
Definition bus_run (sch : list bus_event) : busys := fold_left bus_step sch bus_init.
