(** system-lib/uart/msgframedecode.c, msgframeencode.c. All buffer accesses are
    checked; [None] is undefined behaviour. *)
From Verif.Base Require Export Mem.
From Verif.Model Require Export Crc.

(** msgframedecode.h:31 *)
Definition MSGFRAME_BUFFER_LEN : Z := 1024.

(** msgframedecode.h:33-42 *)
Record mfdec := mkDec {
  d_msgLen : Z; d_start : Z; d_end : Z; d_avail : Z; d_data : list Z }.

(** Assignment to the array member only, as in msgframedecode.c:51-130. *)
Definition set_data (m : mfdec) (x : list Z) : mfdec :=
  mkDec (d_msgLen m) (d_start m) (d_end m) (d_avail m) x.

(** msgframedecode.c:51-62. [m] is the statically allocated object with its
    1024-byte array (uint16_t fields). *)
Definition MsgFrameDecode_Init (m : mfdec) : bool * mfdec :=
  if d_msgLen m >? MSGFRAME_BUFFER_LEN then (false, m)
  else (true, mkDec (d_msgLen m) 0 0 MSGFRAME_BUFFER_LEN (d_data m)).

(** msgframedecode.c:64-77 *)
Definition MsgFrameDecode_RecvBytes (m : mfdec) (bytes : list Z) : option (bool * mfdec) :=
  let n := Z.of_nat (length bytes) in
  if n >? d_avail m then Some (false, m)
  else
    data' <- wr_block (d_data m) (d_end m) bytes ;;
    Some (true, mkDec (d_msgLen m) (d_start m) (u16 (d_end m + n)) (u16 (d_avail m - n)) data').

(** msgframedecode.c:16-48. The four ORs of shifted bytes are written [be32].
    [lock] is the outcome of the CRC mutex; the status is ignored as in the code. *)
Definition verifyCrc (lock : bool) (m : mfdec) : option (bool * mfdec) :=
  let msg := d_start m in
  let crcOffset := u32 (d_msgLen m - 6) in
  b3 <- rd (d_data m) (msg + crcOffset) ;;
  b2 <- rd (d_data m) (msg + crcOffset + 1) ;;
  b1 <- rd (d_data m) (msg + crcOffset + 2) ;;
  b0 <- rd (d_data m) (msg + crcOffset + 3) ;;
  let msgCrc := be32 b3 b2 b1 b0 in
  data1 <- wr_block (d_data m) (msg + crcOffset) [0; 0; 0; 0] ;;
  win <- rd_block data1 msg (d_msgLen m) ;;
  let calcCrc := snd (CRC_Calculate lock win) in
  data2 <- wr_block data1 (msg + crcOffset)
             [byte 3 msgCrc; byte 2 msgCrc; byte 1 msgCrc; byte 0 msgCrc] ;;
  Some (calcCrc =? msgCrc, set_data m data2).

(** msgframedecode.c:83-106, the search loop. [used] is usedBytes, [locks] the
    outcomes of the CRC mutex (taken as successful beyond the end of the list).
    Result: the offset of the frame if one was found, state, usedBytes, the
    unused part of [locks]. Running out of [fuel] counts as failure, too; it is
    shown not to happen. *)
Fixpoint search (fuel : nat) (locks : list bool) (used : Z) (m : mfdec)
  : option (option Z * mfdec * Z * list bool) :=
  match fuel with
  | O => None
  | S fuel' =>
      if used >=? d_msgLen m then
        startByte <- rd (d_data m) (d_start m) ;;
        crByte <- rd (d_data m) (u32 (d_start m + d_msgLen m - 2)) ;;
        lfByte <- rd (d_data m) (u32 (d_start m + d_msgLen m - 1)) ;;
        if (startByte =? 58) && (crByte =? 13) && (lfByte =? 10) then
          '(ok, m1) <- verifyCrc (hd true locks) m ;;
          if (ok : bool) then
            Some (Some (d_start m1),
                  mkDec (d_msgLen m1) (u16 (d_start m1 + d_msgLen m1)) (d_end m1) (d_avail m1) (d_data m1),
                  u32 (used - d_msgLen m1), tl locks)
          else
            search fuel' (tl locks) (u32 (used - 1))
              (mkDec (d_msgLen m1) (u16 (d_start m1 + 1)) (d_end m1) (d_avail m1) (d_data m1))
        else
          search fuel' locks (u32 (used - 1))
            (mkDec (d_msgLen m) (u16 (d_start m + 1)) (d_end m) (d_avail m) (d_data m))
      else Some (None, m, used, locks)
  end.

(** msgframedecode.c:111-113: for (i = i0; i < i0+n; ++i) data[i] = data[i + start]. *)
Fixpoint shift_down (n : nat) (i start : Z) (data : list Z) : option (list Z) :=
  match n with
  | O => Some data
  | S n' =>
      x <- rd data (i + start) ;;
      data' <- wr data i x ;;
      shift_down n' (i + 1) start data'
  end.

(** msgframedecode.c:79-120. [Some off]: returned true with *msgOffset = off. *)
Definition MsgFrameDecode_RecvMsg (locks : list bool) (m : mfdec)
  : option (option Z * mfdec * list bool) :=
  let used := u32 (d_end m - d_start m) in
  '(r, m1, used1, locks1) <- search (S (Z.to_nat used)) locks used m ;;
  match r with
  | Some off => Some (Some off, m1, locks1)
  | None =>
      if d_start m1 >? 1 then
        data' <- shift_down (Z.to_nat used1) 0 (d_start m1) (d_data m1) ;;
        Some (None, mkDec (d_msgLen m1) 0 (u16 (d_end m1 - d_start m1))
                          (u16 (d_avail m1 + d_start m1)) data', locks1)
      else Some (None, m1, locks1)
  end.

(** msgframeencode.h:24-36; the buffer is passed separately. *)
Record mfenc := mkEnc { e_msgLen : Z; e_dataLen : Z; e_address : Z; e_function : Z }.

(** msgframeencode.c:19-37. The two asserts are preconditions: [None] when they
    fail. The returned pointer is buffer + 5. *)
Definition MsgFrameEncode_InitFrame (e : mfenc) (buffer : list Z) : option (list Z) :=
  if negb (e_msgLen e >=? 11) || negb (e_msgLen e - 11 =? e_dataLen e) then None else
  b <- wr buffer 0 58 ;;
  b <- wr b (e_msgLen e - 2) 13 ;;
  b <- wr b (e_msgLen e - 1) 10 ;;
  b <- wr b 1 (byte 1 (e_address e)) ;;
  b <- wr b 2 (byte 0 (e_address e)) ;;
  b <- wr b 3 (byte 1 (e_function e)) ;;
  wr b 4 (byte 0 (e_function e)).

(** msgframeencode.c:39-64 *)
Definition MsgFrameEncode_UpdateCRC (lock : bool) (e : mfenc) (buffer : list Z) : option (list Z) :=
  let crcOffset := u32 (e_msgLen e - 6) in
  b <- wr_block buffer crcOffset [0; 0; 0; 0] ;;
  win <- rd_block b 0 (e_msgLen e) ;;
  let calcCrc := snd (CRC_Calculate lock win) in
  wr_block b crcOffset [byte 3 calcCrc; byte 2 calcCrc; byte 1 calcCrc; byte 0 calcCrc].
