(** system-lib/uart/nmeadecode.c. All array accesses are checked; [None] is an
    access outside an array, i.e. undefined behaviour. *)
From Coq Require Import String.
From Verif.Model Require Export NmeaTypes.

(** nmeadecode.h:20 *)
Definition NMEAMSG_BUFFER_LEN : Z := 1024.

(** nmeadecode.h:22-29; uint16_t cursors, uint8_t data[1024]. *)
Record nmea := mkNmea { n_start : Z; n_end : Z; n_avail : Z; n_data : list Z }.

(** Assignment to nmea->start (nmeadecode.c:262, 446-447). *)
Definition set_start (n : nmea) (x : Z) : nmea := mkNmea x (n_end n) (n_avail n) (n_data n).

(** nmeafields.h:62-68 *)
Inductive msgtype := NMEA_NULL | NMEA_GPGGA.

(** nmeafields.h:70-78. Only the GPGGA member of the union is ever used; struct
    NmeaMessageGPGGA (nmeafields.h:23-32) has the fields of the vehicle state's
    GPS record, so [gps_t] serves for both. *)
Record nfields := mkFields { f_type : msgtype; f_gga : gps_t }.

(** Field updates of struct NmeaMessageGPGGA. nmeafields.h:23-32. *)
Definition gg_time (g : gps_t) x := mkGps x (g_latitude g) (g_ns g) (g_longitude g) (g_ew g) (g_positionFix g) (g_nSatellites g).
(** nmeafields.h:23-32. *)
Definition gg_lat (g : gps_t) x := mkGps (g_utcTime g) x (g_ns g) (g_longitude g) (g_ew g) (g_positionFix g) (g_nSatellites g).
(** nmeafields.h:23-32. *)
Definition gg_ns (g : gps_t) x := mkGps (g_utcTime g) (g_latitude g) x (g_longitude g) (g_ew g) (g_positionFix g) (g_nSatellites g).
(** nmeafields.h:23-32. *)
Definition gg_lon (g : gps_t) x := mkGps (g_utcTime g) (g_latitude g) (g_ns g) x (g_ew g) (g_positionFix g) (g_nSatellites g).
(** nmeafields.h:23-32. *)
Definition gg_ew (g : gps_t) x := mkGps (g_utcTime g) (g_latitude g) (g_ns g) (g_longitude g) x (g_positionFix g) (g_nSatellites g).
(** nmeafields.h:23-32. *)
Definition gg_fix (g : gps_t) x := mkGps (g_utcTime g) (g_latitude g) (g_ns g) (g_longitude g) (g_ew g) x (g_nSatellites g).
(** nmeafields.h:23-32. *)
Definition gg_nsat (g : gps_t) x := mkGps (g_utcTime g) (g_latitude g) (g_ns g) (g_longitude g) (g_ew g) (g_positionFix g) x.

(** strncpy (<string.h>): characters up to the first '\0', then zeros, [n] in all.
    Called at nmeadecode.c:118, 136. *)
Fixpoint strncpy_src (src : list Z) (n : nat) : list Z :=
  match n, src with
  | O, _ => []
  | S n', [] => repeat 0 n
  | S n', c :: t => if c =? 0 then repeat 0 n else c :: strncpy_src t n'
  end.
(** nmeadecode.c:118, 136; [dst] has 11 elements (nmeafields.h:23-32). *)
Definition strncpy (dst src : list Z) (n : Z) : option (list Z) :=
  wr_block dst 0 (strncpy_src src (Z.to_nat n)).

(** nmeadecode.c:46-52. [tk_base] is inStr as an index into data, [tk_buf] the
    128 bytes of tokenBuffer. *)
Record token := mkToken { tk_base : Z; tk_len : Z; tk_i : Z; tk_buf : list Z }.

(** nmeadecode.c:79-85; the loop copies characters until ',' or inStrLen.
    [n] = inStrLen - i at entry, an upper bound of the iterations. *)
Fixpoint tokenLoop (data : list Z) (n : nat) (t : token) (count : Z) : option (Z * token) :=
  c <- rd data (tk_base t + tk_i t) ;;
  match n with
  | O => Some (count, t)
  | S n' =>
      if negb (c =? 44) && (tk_i t <? tk_len t) then
        buf <- wr (tk_buf t) count c ;;
        tokenLoop data n' (mkToken (tk_base t) (tk_len t) (u16 (tk_i t + 1)) buf) (u16 (count + 1))
      else Some (count, t)
  end.

(** nmeadecode.c:69-94 *)
Definition extractNextToken (data : list Z) (t : token) : option (Z * token) :=
  if tk_len t =? 0 then
    buf <- wr (tk_buf t) 0 0 ;;
    Some (0, mkToken (tk_base t) (tk_len t) (tk_i t) buf)
  else
    ' (count, t1) <- tokenLoop data (Z.to_nat (tk_len t - tk_i t)) t 0 ;;
    buf <- wr (tk_buf t1) count 0 ;;
    Some (u16 (count + 1), mkToken (tk_base t1) (tk_len t1) (u16 (tk_i t1 + 1)) buf).

(** extractNextToken followed by TOKEN_REQUIRED (nmeadecode.c:57) or
    TOKEN_OPTIONAL (58), with [min] the minimum length; [k] is the rest of the
    function. The output record is returned as it is when the function returns. *)
Definition tok (min : Z) (data : list Z) (t : token) (g : gps_t)
    (k : Z -> token -> option (bool * gps_t)) : option (bool * gps_t) :=
  ' (count, t') <- extractNextToken data t ;;
  if count <? min then Some (false, g) else k count t'.

(** nmeadecode.c:147-191: from the fix indicator on. *)
Definition decodeTail (data : list Z) (t : token) (g : gps_t) : option (bool * gps_t) :=
  tok 2 data t g (fun _ t =>
  c <- rd (tk_buf t) 0 ;;
  match charToUIntDec c with
  | None => Some (false, g)
  | Some pf =>
      let g := gg_fix g pf in
      tok 2 data t g (fun count t =>
      ' (ok, nsat) <- strToUInt8Dec (tk_buf t) (count - 1) ;;
      let g := gg_nsat g nsat in
      if negb ok then Some (false, g) else
      tok 2 data t g (fun _ t => (* HDOP *)
      tok 2 data t g (fun _ t => (* MSL altitude *)
      tok 2 data t g (fun _ t => (* units *)
      tok 2 data t g (fun _ t => (* geoidal separation *)
      tok 2 data t g (fun _ t => (* units *)
      tok 1 data t g (fun _ t => (* age of diff, optional *)
      Some (true, g))))))))
  end).

(** nmeadecode.c:129-145: longitude and E/W. *)
Definition decodeLon (data : list Z) (t : token) (g : gps_t) : option (bool * gps_t) :=
  tok 2 data t g (fun count t =>
  if count >? 11 then Some (false, g) else
  lon <- strncpy (g_longitude g) (tk_buf t) count ;;
  let g := gg_lon g lon in
  tok 2 data t g (fun _ t =>
  c <- rd (tk_buf t) 0 ;;
  if negb (c =? 69) && negb (c =? 87) then Some (false, g) else
  decodeTail data t (gg_ew g c))).

(** nmeadecode.c:111-127: latitude and N/S. *)
Definition decodeLat (data : list Z) (t : token) (g : gps_t) : option (bool * gps_t) :=
  tok 2 data t g (fun count t =>
  if count >? 11 then Some (false, g) else
  lat <- strncpy (g_latitude g) (tk_buf t) count ;;
  let g := gg_lat g lat in
  tok 2 data t g (fun _ t =>
  c <- rd (tk_buf t) 0 ;;
  if negb (c =? 78) && negb (c =? 83) then Some (false, g) else
  decodeLon data t (gg_ns g c))).

(** nmeadecode.c:96-192; payload in data[pBegin, pEnd). *)
Definition payloadDecodeGPGGA (data : list Z) (pBegin pEnd : Z) (g : gps_t) : option (bool * gps_t) :=
  let t := mkToken pBegin (u16 (pEnd - pBegin)) 0 (repeat 0 128) in
  tok 2 data t g (fun _ t =>
  time <- NmeaCharToUTCTime (tk_buf t) ;;
  match time with
  | None => Some (false, g)
  | Some u => decodeLat data t (gg_time g u)
  end).

(** nmeadecode.c:201-221. [id] is talkermsgId without its terminating zero; as
    "GPGGA" contains no zero, strncmp over six characters is equality. *)
Definition tryDecodePayload (data id : list Z) (pBegin pEnd : Z) (o : nfields) : option (bool * nfields) :=
  if bytes_eqb id (str "GPGGA") then
    ' (ok, g) <- payloadDecodeGPGGA data pBegin pEnd (f_gga o) ;;
    Some (ok, mkFields NMEA_GPGGA g)
  else Some (false, mkFields NMEA_NULL (f_gga o)).

(** nmeadecode.c:245-247: XOR of data[j] for j in [j, pEnd); [n] = pEnd - j. *)
Fixpoint xorLoop (data : list Z) (n : nat) (j acc : Z) : option Z :=
  match n with
  | O => Some acc
  | S n' => b <- rd data j ;; xorLoop data n' (u16 (j + 1)) (Z.lxor acc b)
  end.

(** nmeadecode.c:224-250; checksum[2] is never written after its initialisation
    to zero, so the test in 230-232 never fires and is left out. *)
Definition verifyChecksum (data : list Z) (mBegin pBegin pEnd h1 h0 : Z) : option bool :=
  if pEnd <? pBegin + 2 then Some false else
  match charToUInt16Hex h1, charToUInt16Hex h0 with
  | Some c1, Some c0 =>
      calc <- xorLoop data (Z.to_nat (pEnd - u16 (mBegin + 1))) (u16 (mBegin + 1)) 0 ;;
      Some (calc =? u16 (u16 (c1 * 16) + c0))
  | _, _ => Some false
  end.

(** nmeadecode.c:258-265; [n] = end - start at entry (no iteration if negative). *)
Fixpoint trimLoop (data : list Z) (n : nat) (start : Z) : option Z :=
  match n with
  | O => Some start
  | S n' => c <- rd data start ;;
            if negb (c =? 36) then trimLoop data n' (u16 (start + 1)) else Some start
  end.
(** nmeadecode.c:258-265 *)
Definition trimFront (n : nmea) : option nmea :=
  s <- trimLoop (n_data n) (Z.to_nat (n_end n - n_start n)) (n_start n) ;;
  Some (set_start n s).

(** nmeadecode.c:318-325: index of the first '*' in data[i..end], both ends
    included; [n] = end - i + 1. *)
Fixpoint starLoop (data : list Z) (n : nat) (i : Z) : option (option Z) :=
  match n with
  | O => Some None
  | S n' => c <- rd data i ;;
            if c =? 42 then Some (Some i) else starLoop data n' (u16 (i + 1))
  end.

(** nmeadecode.c:342-362 with i the index after '*': the two checksum characters
    and the index after the message. *)
Definition locateMsgEnd (data : list Z) (end_ i : Z) : option (option (Z * Z * Z)) :=
  if u16 (end_ - i) <? 4 then Some None else
  h1 <- rd data i ;;
  h0 <- rd data (u16 (i + 1)) ;;
  cr <- rd data (u16 (i + 2)) ;;
  if negb (cr =? 13) then Some None else
  lf <- rd data (u16 (i + 3)) ;;
  if negb (lf =? 10) then Some None else
  Some (Some (h1, h0, u16 (i + 4))).

(** nmeadecode.c:371-415 (with tryDecodeStart 274-284, tryDecodeTalkerMsgId
    293-305, tryDecodeLocatePayload 314-333). *)
Definition tryDecode (n : nmea) (o : nfields) : option (Z * nfields) :=
  let o := mkFields NMEA_NULL (f_gga o) in
  if n_end n =? n_start n then Some (0, o) else
  if u16 (n_end n - n_start n) <? 13 then Some (0, o) else
  let data := n_data n in
  c <- rd data (n_start n) ;;
  if negb (c =? 36) then Some (0, o) else
  let i := u16 (n_start n + 1) in
  id <- rd_block data i 5 ;;
  c <- rd data (u16 (i + 5)) ;;
  if negb (c =? 44) then Some (0, o) else
  let pBegin := u16 (i + 6) in
  star <- starLoop data (Z.to_nat (n_end n - pBegin + 1)) pBegin ;;
  match star with
  | None => Some (0, o)
  | Some pEnd =>
      tail <- locateMsgEnd data (n_end n) (u16 (pEnd + 1)) ;;
      match tail with
      | None => Some (0, o)
      | Some (h1, h0, i) =>
          good <- verifyChecksum data (n_start n) pBegin pEnd h1 h0 ;;
          if negb good then Some (0, o) else
          ' (ok, o) <- tryDecodePayload data id pBegin pEnd o ;;
          if ok then Some (i, o) else Some (0, o)
      end
  end.

(** nmeadecode.c:419-424; the data array keeps its contents. *)
Definition NmeaDecode_Init (n : nmea) : nmea := mkNmea 0 0 NMEAMSG_BUFFER_LEN (n_data n).

(** nmeadecode.c:426-440 *)
Definition NmeaDecode_AccumulateBytes (n : nmea) (bytes : list Z) : option (bool * nmea) :=
  let k := Z.of_nat (length bytes) in
  if k >? n_avail n then Some (false, n) else
  data <- wr_block (n_data n) (n_end n) bytes ;;
  Some (true, mkNmea (n_start n) (u16 (n_end n + k)) (u16 (n_avail n - k)) data).

(** nmeadecode.c:451-464. [used] is usedBytes. [inl]: found a message; [inr]:
    the loop ended, with the final usedBytes. *)
Fixpoint decodeLoop (used : nat) (n : nmea) (o : nfields) : option ((nmea * nfields) + (nat * nmea * nfields)) :=
  match used with
  | O => Some (inr (O, n, o))
  | S used' =>
      if Z.of_nat used >? 13 then
        ' (len, o') <- tryDecode n o ;;
        if len =? 0 then decodeLoop used' (set_start n (u16 (n_start n + 1))) o'
        else Some (inl (set_start n (u16 (n_start n + len)), o'))
      else Some (inr (used, n, o))
  end.

(** nmeadecode.c:469-471: data[i] = data[i + start] for i up to usedBytes; [k]
    iterations left. *)
Fixpoint shiftLoop (data : list Z) (start : Z) (k : nat) (i : Z) : option (list Z) :=
  match k with
  | O => Some data
  | S k' =>
      b <- rd data (i + start) ;;
      data' <- wr data i b ;;
      shiftLoop data' start k' (i + 1)
  end.

(** nmeadecode.c:442-478 *)
Definition NmeaDecode_Decode (n : nmea) (o : nfields) : option (bool * nmea * nfields) :=
  n <- trimFront n ;;
  r <- decodeLoop (Z.to_nat (u16 (n_end n - n_start n))) n o ;;
  match r with
  | inl (n, o) => Some (true, n, o)
  | inr (used, n, o) =>
      if n_start n >? 1 then
        data <- shiftLoop (n_data n) (n_start n) used 0 ;;
        Some (false, mkNmea 0 (u16 (n_end n - n_start n)) (u16 (n_avail n + n_start n)) data, o)
      else Some (false, n, o)
  end.
