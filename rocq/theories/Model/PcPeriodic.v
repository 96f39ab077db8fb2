(** What the PC interface sends on its own: the state broadcast
    (pcinterface/periodicupdates.c), the log text (pcinterface.c:30-44,
    system-lib/logging/logging.c) and the CAN debug frame (pcinterface.c:46-68). *)
From Verif.Base Require Export Mem Stream Text.
From Verif.Model Require Export VehicleState MsgFrame CanFrame.

(** The two ports of pcinterface.h:53-105 (uartA, uartB). *)
Inductive uart_port := UartA | UartB.
(** One UART_SendMessage call (periodicupdates.c:52-59): port and bytes. *)
Definition uart_out := (uart_port * list Z)%type.

(** pcinterface.c:119-123, messages.h:21-23 *)
Definition mfStateUpdate : mfenc := mkEnc 18 7 2 1.

(** periodicupdates.c:28-60. [lock]: the CRC mutex. *)
Definition sendStateField (lock : bool) (buffer : list Z) (fieldId fieldSize field : Z)
  : option (list Z * list uart_out) :=
  if fieldSize >? 4 then Some (buffer, []) else
  b <- MsgFrameEncode_InitFrame mfStateUpdate buffer ;;
  b <- wr_block b 5 [byte 1 fieldId; byte 0 fieldId; byte 0 fieldSize;
                     byte 3 field; byte 2 field; byte 1 field; byte 0 field] ;;
  b <- MsgFrameEncode_UpdateCRC lock mfStateUpdate b ;;
  sent <- rd_block b 0 18 ;;
  Some (b, [(UartA, sent); (UartB, sent)]).

(** periodicupdates.c:86-94 *)
Definition tmpSdc (d : sdc_t) : Z :=
  Z.lor (Z.lor (Z.lor (Z.shiftl (b2z (s_bms d)) 0) (Z.shiftl (b2z (s_bspd d)) 1))
               (Z.shiftl (b2z (s_imd d)) 2)) (Z.shiftl (b2z (s_out d)) 3).

(** periodicupdates.c:110-113; pdmChState has 8 elements. *)
Definition tmpPdm (ch : list bool) : Z :=
  fold_left (fun acc i => Z.lor acc (Z.shiftl (b2z (nth (Z.to_nat i) ch false)) i))
            [0; 1; 2; 3; 4; 5] 0.

(** The calls of sendStateField made by periodicupdates.c:187-189 through
    lines 82-161: field id, size, value. sendStateFieldf (62-73) copies the bits
    of the float. *)
Definition sent_fields (d : vstate) : list (Z * Z * Z) :=
  let b := vs_battery d in
  [ (1, 1, tmpSdc (vs_sdc d));
    (2, 1, tmpPdm (vs_glv d));
    (3, 4, f_bits (b_maxCellVoltage b));
    (4, 1, b_maxCellVoltageCellID b);
    (5, 4, f_bits (b_maxCellTemperature b));
    (6, 1, b_minCellTemperatureCellID b);
    (7, 4, f_bits (b_dcCurrent b));
    (8, 4, f_bits (b_dcVoltage b));
    (9, 4, f_bits (b_stateOfCharge b));
    (10, 1, b_counter b);
    (11, 1, b2z (b_faultIndicator b)) ].

(** [locks]: one bit per CRC calculation. The calls of periodicupdates.c:82-161 one
    after the other. *)
Fixpoint send_all (locks : list bool) (buffer : list Z) (l : list (Z * Z * Z))
  : option (list Z * list uart_out) :=
  match l with
  | [] => Some (buffer, [])
  | (i, n, v) :: t =>
      '(b, o1) <- sendStateField (hd true locks) buffer i n v ;;
      '(b, o2) <- send_all (tl locks) b t ;;
      Some (b, o1 ++ o2)
  end.

(** periodicupdates.c:18 *)
Definition COUNT_1HZ : Z := 100.

(** periodicupdates.c:168-190. [snapshot]: the copied state, or [None] when
    VehicleState_CopyState fails. *)
Definition periodicStateUpdate (enabled : bool) (counter : Z) (snapshot : option vstate)
    (locks : list bool) (buffer : list Z) : option (list Z * list uart_out) :=
  if negb enabled then Some (buffer, []) else
  if negb (counter mod COUNT_1HZ =? 0) then Some (buffer, []) else
  match snapshot with
  | None => Some (buffer, [])
  | Some d => send_all locks buffer (sent_fields d)
  end.

(** ** Log text *)
(** logging.h:19 *)
Definition LOGGING_MAX_MSG_LEN : nat := 512.
(** pcinterface.h:42 *)
Definition LOG_STREAM_CAP : nat := 2047.

(** logging.c:94-104 strnlen, 86-88: the bytes offered to the stream. *)
Definition log_bytes (msg : list Z) : list Z := firstn LOGGING_MAX_MSG_LEN (cstr msg).

(** logging.c:70-91 with the serial output enabled; the SWO output is not modelled.
    [lock]: the log mutex. [msg]: memory from the message pointer on. None: the
    controller stops. *)
Definition Log_Print (lock : bool) (stream msg : list Z) : option (list Z) :=
  if lock then stream_send_checked LOG_STREAM_CAP stream (log_bytes msg) else Some stream.

(** pcinterface.c:126-130, messages.h:25-27 *)
Definition mfLogData : mfenc := mkEnc 43 32 2 2.

(** pcinterface.c:33-43, one iteration on a non-empty stream. *)
Definition flush_iteration (lock : bool) (buffer stream : list Z)
  : option (list Z * list Z * list uart_out) :=
  b <- wr_block buffer 0 (repeat 0 43) ;;
  b <- MsgFrameEncode_InitFrame mfLogData b ;;
  let '(got, rest) := stream_recv 32 stream in
  b <- wr_block b 5 got ;;
  b <- MsgFrameEncode_UpdateCRC lock mfLogData b ;;
  sent <- rd_block b 0 43 ;;
  Some (b, rest, [(UartA, sent); (UartB, sent)]).

(** Log_Print calls of any task, before, between or after iterations of the flush
    loop. logging.c:70-91 (Log_Print) and pcinterface.c:30-44 (flush). *)
Inductive log_event :=
| Write (lock : bool) (msg : list Z)
| Flush (crcLock : bool).

(** No code of its own; drives logging.c:70-91 and pcinterface.c:30-44. *)
Definition log_step (buffer stream : list Z) (ev : log_event)
  : option (list Z * list Z * list uart_out) :=
  match ev with
  | Write lock msg => s <- Log_Print lock stream msg ;; Some (buffer, s, [])
  | Flush crcLock =>
      match stream with
      | [] => Some (buffer, stream, [])
      | _ => flush_iteration crcLock buffer stream
      end
  end.

(** pcinterface.c:30-44, the whole loop when nobody writes meanwhile. *)
Fixpoint flushLogMessage (fuel : nat) (locks : list bool) (buffer stream : list Z)
  : option (list Z * list Z * list uart_out) :=
  match stream with
  | [] => Some (buffer, [], [])
  | _ =>
      match fuel with
      | O => Some (buffer, stream, [])
      | S n =>
          '(b, s, o) <- flush_iteration (hd true locks) buffer stream ;;
          '(b2, s2, o2) <- flushLogMessage n (tl locks) b s ;;
          Some (b2, s2, o ++ o2)
      end
  end.

(** ** CAN debug frame *)
(** pcinterface.c:46-68. [ok]: result of CAN_SendMessage. Returns the frame, the
    new error counter (uint32_t) and whether an error is logged. *)
Definition periodicCanDebug (enable : bool) (counter errors : Z) (ok : bool)
  : option can_frame * Z * bool :=
  if negb enable then (None, errors, false) else
  let frame := mkFrame CAN_DEV1 0xAF 8
     [byte 0 counter; byte 1 counter; byte 2 counter; byte 3 counter; 0; 0; 0; 0x69] in
  if ok then (Some frame, errors, false)
  else (Some frame, u32 (errors + 1), errors mod 10 =? 0).

(** pcinterface.c:70-85, a notified pass of the task: its broadcast part and the
    counter (uint32_t). *)
Definition broadcast_pass (enabled : bool) (st : Z * list Z) (snapshot : option vstate) (locks : list bool)
  : option (Z * list Z * list uart_out) :=
  let '(counter, buffer) := st in
  '(b, o) <- periodicStateUpdate enabled counter snapshot locks buffer ;;
  Some (u32 (counter + 1), b, o).

(** Consecutive passes; one list of outputs per pass. pcinterface.c:70-95, the
    periodic part only. *)
Fixpoint broadcast_passes (enabled : bool) (st : Z * list Z) (l : list (option vstate * list bool))
  : option (Z * list Z * list (list uart_out)) :=
  match l with
  | [] => Some (st, [])
  | (snap, locks) :: t =>
      '(c, b, o) <- broadcast_pass enabled st snap locks ;;
      '(st2, os) <- broadcast_passes enabled (c, b) t ;;
      Some (st2, o :: os)
  end.
