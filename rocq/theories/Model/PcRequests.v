(** Requests from the PC: pcinterface/requests.c. *)
From Verif.Base Require Export Mem Stream.
From Verif.Model Require Export MsgFrame.

(** The calls a message leads to. VehicleControl_SetECUError and
    VehicleControl_SetPowerChannel (results ignored, requests.c:42, 66) and
    PCInterface_DebugTermRecv (modelled in DebugTerm.v). The log text is not
    modelled here. *)
Inductive pc_call :=
| SetECUError (on : bool)
| SetPowerChannel (ch : Z) (on : bool)
| TermRecv (payload : list Z).

(** messages.h:13, 36-41; requests.c:14-17 *)
Definition DESTADDR_VCU : Z := 1.
(** messages.h:36 *)
Definition COMMON_DATALEN : Z := 8.
(** messages.h:37 *)
Definition COMMON_MSGLEN : Z := 19.
(** messages.h:39 *)
Definition FUNC_DEBUG_TERMINAL : Z := 0x9.
(** messages.h:40 *)
Definition FUNC_TESTCMD_SDC : Z := 0x101.
(** messages.h:41 *)
Definition FUNC_TESTCMD_PDM : Z := 0x102.
(** requests.c:14 *)
Definition BATCH_RECV_SIZE : nat := 8.

(** requests.c:32-48. [payload] are the bytes from the payload pointer on. *)
Definition handleMsgTestSdc (payload : list Z) (nBytes : Z) : option (list pc_call) :=
  if negb (nBytes =? COMMON_DATALEN) then Some [] else
  x <- rd payload 7 ;;
  Some [SetECUError (negb (x =? 0))].

(** requests.c:50-72, both loops unrolled by [pdm_calls]. *)
Fixpoint pdm_calls (n : nat) (i : Z) (payload : list Z) : option (list pc_call) :=
  match n with
  | O => Some []
  | S n' =>
      x <- rd payload (i + 2) ;;
      rest <- pdm_calls n' (i + 1) payload ;;
      Some (SetPowerChannel i (negb (x =? 0)) :: rest)
  end.
(** requests.c:50-72 *)
Definition handleMsgTestPdm (payload : list Z) (nBytes : Z) : option (list pc_call) :=
  if negb (nBytes =? COMMON_DATALEN) then Some [] else pdm_calls 6 0 payload.

(** requests.c:74-118. [bytes] are the bytes from mfDecode.data + offset on. *)
Definition handleMessage (controlEnabled : bool) (bytes : list Z) (nBytes : Z) : option (list pc_call) :=
  if negb controlEnabled then Some [] else
  if negb (nBytes =? COMMON_MSGLEN) then Some [] else
  a1 <- rd bytes 1 ;;
  a0 <- rd bytes 2 ;;
  if negb (be16 a1 a0 =? DESTADDR_VCU) then Some [] else
  f1 <- rd bytes 3 ;;
  f0 <- rd bytes 4 ;;
  let function := be16 f1 f0 in
  let payload := skipn 5 bytes in
  let payloadLen := u16 (nBytes - 11) in
  if function =? FUNC_DEBUG_TERMINAL then
    p <- rd_block payload 0 payloadLen ;; Some [TermRecv p]
  else if function =? FUNC_TESTCMD_SDC then handleMsgTestSdc payload payloadLen
  else if function =? FUNC_TESTCMD_PDM then handleMsgTestPdm payload payloadLen
  else Some [].

(** The part of PCInterface_T the requests use (pcinterface.h:53-105). *)
Record pcreq := mkReq { q_stream : list Z; q_dec : mfdec; q_control : bool }.

(** pcinterface.h:44: 2048 bytes. *)
Definition RECV_STREAM_CAP : nat := Z.to_nat 2047.

(** requests.c:123-148: one turn of the loop, entered only if the stream is not
    empty. Other tasks and interrupts run between turns. *)
Definition request_iteration (locks : list bool) (q : pcreq) : option (pcreq * list pc_call) :=
  match q_stream q with
  | [] => Some (q, [])
  | _ =>
      let '(recv, s) := stream_recv BATCH_RECV_SIZE (q_stream q) in
      '(succ, m1) <- MsgFrameDecode_RecvBytes (q_dec q) recv ;;
      if (succ : bool) then
        '(r, m2, _) <- MsgFrameDecode_RecvMsg locks m1 ;;
        match r with
        | Some offset =>
            calls <- handleMessage (q_control q) (skipn (Z.to_nat offset) (d_data m2)) (d_msgLen m2) ;;
            Some (mkReq s m2 (q_control q), calls)
        | None => Some (mkReq s m2 (q_control q), [])
        end
      else Some (mkReq s m1 (q_control q), [])
  end.

(** What happens to the interface, in any order: bytes arrive from a UART
    (uart.c:72-94, into the stream set at pcinterface.c:187-192), one turn of the
    request loop, PCInterface_SetVehicleControl (pcinterface.c:211-221). *)
Inductive pc_event := Arrive (bytes : list Z) | Turn (locks : list bool) | EnableControl.

(** No code of its own; drives requests.c:123-148, uart.c:72-94 and
    pcinterface.c:211-221. *)
Definition pc_step (q : pcreq) (e : pc_event) : option (pcreq * list pc_call) :=
  match e with
  | Arrive b => Some (mkReq (stream_send RECV_STREAM_CAP (q_stream q) b) (q_dec q) (q_control q), [])
  | Turn locks => request_iteration locks q
  | EnableControl => Some (mkReq (q_stream q) (q_dec q) true, [])
  end.

(** requests.c:120-149 without anything arriving meanwhile. *)
Fixpoint HandleRequests (fuel : nat) (q : pcreq) : option (pcreq * list pc_call) :=
  match q_stream q with
  | [] => Some (q, [])
  | _ =>
      match fuel with
      | O => None
      | S n =>
          '(q1, c1) <- request_iteration [] q ;;
          '(q2, c2) <- HandleRequests n q1 ;;
          Some (q2, c1 ++ c2)
      end
  end.
