(** system-lib/uart/nmeatypes.c. Characters are bytes 0..255; comparisons with
    ASCII constants give the same answer for signed and unsigned char. *)
From Verif.Base Require Export Mem Text.
From Verif.Model Require Export VehicleState.

(** nmeatypes.c:10-18 charToUInt8Dec and 20-28 charToUInt16Dec (they differ in
    the type of the output only). *)
Definition charToUIntDec (c : Z) : option Z :=
  if (c >=? 48) && (c <=? 57) then Some (c - 48) else None.

(** nmeatypes.c:30-46 *)
Definition charToUInt16Hex (c : Z) : option Z :=
  if (c >=? 48) && (c <=? 57) then Some (c - 48)
  else if (c >=? 65) && (c <=? 70) then Some (c - 65 + 10)
  else if (c >=? 97) && (c <=? 102) then Some (c - 97 + 10)
  else None.

(** nmeatypes.c:52-61: the loop with [k] digits left to look at, so idx = k - 1.
    uint16_t mul, uint8_t *out. *)
Fixpoint strDecLoop (str : list Z) (k : nat) (mul out : Z) : option (bool * Z) :=
  match k with
  | O => Some (true, out)
  | S k' =>
      c <- rd str (Z.of_nat k') ;;
      match charToUIntDec c with
      | None => Some (false, out)
      | Some digit => strDecLoop str k' (u16 (mul * 10)) (u8 (out + u8 (mul * digit)))
      end
  end.

(** nmeatypes.c:48-64. Result and *out, which is written on failure, too. *)
Definition strToUInt8Dec (str : list Z) (len : Z) : option (bool * Z) :=
  strDecLoop str (Z.to_nat len) 1 0.

(** nmeatypes.c:66-101. Outer [None]: access outside the array. Inner [None]:
    returned false, *out untouched. The characters are
    read up front; the code reads them one by one and may stop earlier, which
    makes no difference in an array of at least 11 characters. *)
Definition NmeaCharToUTCTime (s : list Z) : option (option utc_t) :=
  c10 <- rd s 10 ;;
  if negb (c10 =? 0) then Some None else
  c0 <- rd s 0 ;; c1 <- rd s 1 ;; c2 <- rd s 2 ;; c3 <- rd s 3 ;; c4 <- rd s 4 ;; c5 <- rd s 5 ;;
  c6 <- rd s 6 ;; c7 <- rd s 7 ;; c8 <- rd s 8 ;; c9 <- rd s 9 ;;
  match charToUIntDec c0, charToUIntDec c1, charToUIntDec c2,
        charToUIntDec c3, charToUIntDec c4, charToUIntDec c5 with
  | Some h1, Some h0, Some m1, Some m0, Some s1, Some s0 =>
      let time ms2 ms1 ms0 :=
        mkUtc (u8 (10 * h1 + h0)) (u8 (10 * m1 + m0)) (u8 (10 * s1 + s0))
              (u16 (100 * ms2 + 10 * ms1 + ms0)) in
      if c6 =? 46 then
        match charToUIntDec c7, charToUIntDec c8, charToUIntDec c9 with
        | Some ms2, Some ms1, Some ms0 => Some (Some (time ms2 ms1 ms0))
        | _, _, _ => Some None
        end
      else if negb (c6 =? 0) then Some None
      else Some (Some (time 0 0 0))
  | _, _, _, _, _, _ => Some None
  end.
