(** What the PC protocol's commands mean, and histories of the interface. *)
From Verif.Model Require Import PcRequests.
From Verif.Spec Require Export FrameSpec DecoderSpec.

(** Meaning of a 19-byte command frame: address 1, function 0x101 sets the ECU
    error from the last payload byte, 0x102 sets power channels 0-5 from payload
    bytes 2-7, 9 passes the payload to the terminal; all else means nothing. *)
Definition on (p : list Z) (i : nat) : bool := negb (nth i p 0 =? 0).
Definition command (w : list Z) : list pc_call :=
  let p := frame_payload w in
  if frame_addr w =? 1 then
    if frame_func w =? 0x101 then [SetECUError (on p 7)]
    else if frame_func w =? 0x102 then
      [SetPowerChannel 0 (on p 2); SetPowerChannel 1 (on p 3); SetPowerChannel 2 (on p 4);
       SetPowerChannel 3 (on p 5); SetPowerChannel 4 (on p 6); SetPowerChannel 5 (on p 7)]
    else if frame_func w =? 9 then [TermRecv p]
    else []
  else [].

(** Result of a history: state, bytes stored in the receive stream, calls made. *)
Fixpoint pc_run (q : pcreq) (evs : list pc_event) : option (pcreq * list Z * list pc_call) :=
  match evs with
  | [] => Some (q, [], [])
  | e :: t =>
      '(q1, c1) <- pc_step q e ;;
      '(q2, got, c2) <- pc_run q1 t ;;
      Some (q2, match e with Arrive b => stream_stored RECV_STREAM_CAP (q_stream q) b | _ => [] end ++ got,
            c1 ++ c2)
  end.

(** After PCInterface_Init (pcinterface.c:114, 140-145, 182-186). *)
Definition pc_fresh (q : pcreq) : Prop :=
  q_stream q = [] /\ fresh 19 (q_dec q) /\ q_control q = false.

Definition events_ok (evs : list pc_event) : Prop :=
  Forall (fun e => match e with Arrive b => Forall is_byte b | _ => True end) evs.
Definition crc_available (evs : list pc_event) : Prop :=
  Forall (fun e => match e with Turn l => Forall (eq true) l | _ => True end) evs.
Definition no_enable (evs : list pc_event) : Prop :=
  Forall (fun e => match e with EnableControl => False | _ => True end) evs.
