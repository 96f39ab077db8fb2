(** FreeRTOS V10.2.1 stream buffers (cube-proj/Lib/FreeRTOS/Source/stream_buffer.c)
    at the level of single memory accesses: a ring of bytes with two indices,
    written by senders and read by a receiver that may interrupt one another
    between any two accesses.

    Not modelled: message buffers (never created by this firmware), waking a
    waiting task (57-128), which does not touch the data, and waiting for room or
    data (535-573, 738-781): a call that waits is a call that starts later. *)
From Verif.Base Require Export Mem.

(** The fields that hold data (141-153): pucBuffer, whose length is xLength, xHead
    and xTail. stream_buffer.c:141-153. *)
Record ring := mkRing { rb_buf : list Z; rb_head : Z; rb_tail : Z }.

(** xLength (stream_buffer.c:145). *)
Definition rb_len (r : ring) : Z := Z.of_nat (length (rb_buf r)).

(** prvInitialiseNewStreamBuffer, 1209-1233: the buffer is filled with 0x55, the
    indices are 0. xStreamBufferCreateStatic gives xLength = the size asked for
    (283-340). stream_buffer.c:1209-1233. *)
Definition ring_new (size : nat) : ring := mkRing (repeat 0x55 size) 0 0.

(** xStreamBufferSpacesAvailable, 477-490, with size_t arithmetic.
    stream_buffer.c:477-490. *)
Definition SpacesAvailable (len tail head : Z) : Z :=
  let x := u32 (u32 (u32 (len + tail) - head) - 1) in
  if len <=? x then u32 (x - len) else x.

(** prvBytesInBuffer, 1194-1205. stream_buffer.c:1194-1205. *)
Definition BytesInBuffer (len head tail : Z) : Z :=
  let x := u32 (u32 (len + head) - tail) in
  if len <=? x then u32 (x - len) else x.

(** The index of byte [k] of a block that starts at [start]: the two memcpy calls of
    1103-1111 and of 1154-1162. stream_buffer.c:1103-1111, 1154-1162. *)
Definition slot (len start count k : Z) : Z :=
  let first := Z.min (len - start) count in
  if k <? first then start + k else k - first.

(** The index after the block: 1118-1126, 1171-1176. stream_buffer.c:1118-1126,
    1171-1176. *)
Definition advance (len start count : Z) : Z :=
  let x := u32 (start + count) in if len <=? x then u32 (x - len) else x.

(** ** A sender: xStreamBufferSend without waiting (575-606) or
    xStreamBufferSendFromISR (635-657), which do the same to the data. *)
Inductive sender :=
| SIdle
| STail (data : list Z)                    (* called; reads xTail next (477) *)
| SHead (data : list Z) (tail : Z)         (* reads xHead next (478) *)
| SStart (data : list Z)                   (* data cut to the room (682); reads xHead next (1094) *)
| SCopy (data : list Z) (start k : Z).     (* k bytes copied (1103, 1111); stores xHead when all are (1128) *)

(** One access by a sender. [Some n]: the call returns n. None: a configASSERT
    fails, which stops the controller with interrupts disabled
    (FreeRTOSConfig.h:122), or an access outside the buffer. *)
Definition sender_step (r : ring) (s : sender) : option (ring * sender * option Z) :=
  match s with
  | SIdle => Some (r, SIdle, None)
  | STail d => Some (r, SHead d (rb_tail r), None)
  | SHead d tail =>
      let space := SpacesAvailable (rb_len r) tail (rb_head r) in
      if space =? 0 then Some (r, SIdle, Some 0)                      (* 670-674, 706 *)
      else Some (r, SStart (firstn (Z.to_nat space) d), None)
  | SStart d =>
      let count := Z.of_nat (length d) in
      let start := rb_head r in
      if 0 <? count then                                              (* 1092 *)
        let first := Z.min (rb_len r - start) count in
        if (start + first <=? rb_len r)                               (* 1102 *)
           && (count - first <=? rb_len r)                            (* 1110 *)
        then Some (r, SCopy d start 0, None) else None
      else None
  | SCopy d start k =>
      let count := Z.of_nat (length d) in
      if k <? count then
        b <- rd d k ;;
        buf <- wr (rb_buf r) (slot (rb_len r) start count k) b ;;
        Some (mkRing buf (rb_head r) (rb_tail r), SCopy d start (k + 1), None)
      else Some (mkRing (rb_buf r) (advance (rb_len r) start count) (rb_tail r), SIdle, Some count)
  end.

(** ** The receiver: xStreamBufferReceive without waiting (784-813) or
    xStreamBufferReceiveFromISR (886-914). *)
(** stream_buffer.c:784-813, 886-914. *)
Inductive receiver :=
| RIdle
| RHead (n : Z)                            (* called with room for n bytes; reads xHead next (1194) *)
| RTail (n head : Z)                       (* reads xTail next (1195) *)
| RStart (count : Z)                       (* reads xTail next (1143) *)
| RCopy (count start k : Z) (got : list Z). (* k bytes copied; stores xTail when all are (1178) *)

(** One access. [Some l]: the call returns the bytes l. stream_buffer.c:1134-1185,
    1189-1205. *)
Definition receiver_step (r : ring) (v : receiver) : option (ring * receiver * option (list Z)) :=
  match v with
  | RIdle => Some (r, RIdle, None)
  | RHead n => Some (r, RTail n (rb_head r), None)
  | RTail n head =>
      let available := BytesInBuffer (rb_len r) head (rb_tail r) in
      let count := Z.min available n in
      if 0 <? count then Some (r, RStart count, None)                 (* 792, 893, 1141 *)
      else Some (r, RIdle, Some [])
  | RStart count =>
      let start := rb_tail r in
      let first := Z.min (rb_len r - start) count in
      if start + first <=? rb_len r then Some (r, RCopy count start 0 [], None) (* 1152-1153 *)
      else None
  | RCopy count start k got =>
      if k <? count then
        b <- rd (rb_buf r) (slot (rb_len r) start count k) ;;
        Some (r, RCopy count start (k + 1) (got ++ [b]), None)
      else Some (mkRing (rb_buf r) (rb_head r) (advance (rb_len r) start count), RIdle, Some got)
  end.

(** xStreamBufferIsEmpty, 979-987. stream_buffer.c:979-987. *)
Definition IsEmpty (r : ring) : bool := rb_head r =? rb_tail r.

(** ** One sender and one receiver, in any interleaving.
    [st_sent]: the bytes that calls to send have reported as stored. [st_got]:
    the bytes that calls to receive have returned. *)
(** The calls are those of stream_buffer.c:506-607, 713-813. *)
Record stream1 := mkStream1 {
  st_ring : ring; st_snd : sender; st_rcv : receiver; st_sent : list Z; st_got : list Z }.

(** xStreamBufferCreateStatic, stream_buffer.c:283-340. *)
Definition stream1_new (size : nat) : stream1 := mkStream1 (ring_new size) SIdle RIdle [] [].

(** A call starts (ignored while the same side is inside a call), or one side makes
    one access. stream_buffer.c:506-657, 713-914. *)
Inductive stream_event := ESend (data : list Z) | ERecv (n : Z) | ESndStep | ERcvStep.

(** The bytes a call reports when it returns: the first [n] of the data it was
    working on. The return values at stream_buffer.c:606, 657. *)
Definition reported (s : sender) (res : option Z) : list Z :=
  match s, res with
  | SCopy d _ _, Some n => firstn (Z.to_nat n) d
  | _, _ => []
  end.

(** No code of its own; drives stream_buffer.c:506-914. *)
Definition stream1_step (s : stream1) (e : stream_event) : option stream1 :=
  match e with
  | ESend d =>
      Some (match st_snd s with
            | SIdle => mkStream1 (st_ring s) (STail d) (st_rcv s) (st_sent s) (st_got s)
            | _ => s end)
  | ERecv n =>
      Some (match st_rcv s with
            | RIdle => mkStream1 (st_ring s) (st_snd s) (RHead n) (st_sent s) (st_got s)
            | _ => s end)
  | ESndStep =>
      '(r, w, res) <- sender_step (st_ring s) (st_snd s) ;;
      Some (mkStream1 r w (st_rcv s) (st_sent s ++ reported (st_snd s) res) (st_got s))
  | ERcvStep =>
      '(r, v, res) <- receiver_step (st_ring s) (st_rcv s) ;;
      Some (mkStream1 r (st_snd s) v (st_sent s) (st_got s ++ match res with Some l => l | None => [] end))
  end.

(** A history of these events (stream_buffer.c:506-914). *)
Fixpoint stream1_run (s : stream1) (es : list stream_event) : option stream1 :=
  match es with
  | [] => Some s
  | e :: es => s' <- stream1_step s e ;; stream1_run s' es
  end.

(** ** Two senders and one receiver: the receive stream of the PC interface.
    Both PC ports are given the same stream (pcinterface.c:187-192). The callback
    that sends (uart.c:72-94) is called in the DMA interrupt of the port (priority
    6, main.c:860-884, half and full buffer) and in its UART interrupt (priority
    7, stm32f7xx_hal_msp.c, idle line), so a DMA interrupt of one port can
    interrupt a send for the other port; it then runs to its end. *)
Record stream2 := mkStream2 {
  s2_ring : ring; s2_a : sender; s2_b : sender; s2_rcv : receiver;
  s2_sent_a : list Z; s2_sent_b : list Z; s2_got : list Z }.

(** xStreamBufferCreateStatic, stream_buffer.c:283-340. *)
Definition stream2_new (size : nat) : stream2 := mkStream2 (ring_new size) SIdle SIdle RIdle [] [] [].

(** uart.c:72-94 for each of the two ports, requests.c:123-129 for the receiver. *)
Inductive stream2_event :=
| ESendA (data : list Z) | ESendB (data : list Z) | ERecv2 (n : Z) | EStepA | EStepB | EStepRcv.

(** No code of its own; drives stream_buffer.c:610-657, 713-813. *)
Definition stream2_step (s : stream2) (e : stream2_event) : option stream2 :=
  match e with
  | ESendA d =>
      Some (match s2_a s with
            | SIdle => mkStream2 (s2_ring s) (STail d) (s2_b s) (s2_rcv s) (s2_sent_a s) (s2_sent_b s) (s2_got s)
            | _ => s end)
  | ESendB d =>
      Some (match s2_b s with
            | SIdle => mkStream2 (s2_ring s) (s2_a s) (STail d) (s2_rcv s) (s2_sent_a s) (s2_sent_b s) (s2_got s)
            | _ => s end)
  | ERecv2 n =>
      Some (match s2_rcv s with
            | RIdle => mkStream2 (s2_ring s) (s2_a s) (s2_b s) (RHead n) (s2_sent_a s) (s2_sent_b s) (s2_got s)
            | _ => s end)
  | EStepA =>
      '(r, w, res) <- sender_step (s2_ring s) (s2_a s) ;;
      Some (mkStream2 r w (s2_b s) (s2_rcv s) (s2_sent_a s ++ reported (s2_a s) res) (s2_sent_b s) (s2_got s))
  | EStepB =>
      '(r, w, res) <- sender_step (s2_ring s) (s2_b s) ;;
      Some (mkStream2 r (s2_a s) w (s2_rcv s) (s2_sent_a s) (s2_sent_b s ++ reported (s2_b s) res) (s2_got s))
  | EStepRcv =>
      '(r, v, res) <- receiver_step (s2_ring s) (s2_rcv s) ;;
      Some (mkStream2 r (s2_a s) (s2_b s) v (s2_sent_a s) (s2_sent_b s)
              (s2_got s ++ match res with Some l => l | None => [] end))
  end.

(** A history of these events (stream_buffer.c:610-813). *)
Fixpoint stream2_run (s : stream2) (es : list stream2_event) : option stream2 :=
  match es with
  | [] => Some s
  | e :: es => s' <- stream2_step s e ;; stream2_run s' es
  end.
