(** The text the GPS task makes of every chunk it receives (gps.c:51-58). The text
    is built and then not used. *)
From Coq Require Import String.
From Verif.Base Require Export Words Mem Text.

(** gps.h:35 *)
Definition GPS_RECV : Z := 2048.

(** snprintf into [buf] at [at], told that there is room for [n > 0] characters: at
    most [n-1] characters and the terminator; returns the length of the text. A
    write outside the buffer is undefined behaviour ([None]). C library, as
    called at gps.c:53-58. *)
Definition snprintf_at (buf : list Z) (at_ n : Z) (text : list Z) : option (list Z * Z) :=
  b <- wr_block buf at_ (firstn (Z.to_nat (n - 1)) text ++ [0]) ;; Some (b, Z.of_nat (List.length text)).

(** gps.c:55-57 *)
Fixpoint put_chars (buf : list Z) (offset : Z) (bytes : list Z) : option (list Z * Z) :=
  match bytes with
  | [] => Some (buf, offset)
  | c :: r => r1 <- snprintf_at buf offset GPS_RECV [c] ;; put_chars (fst r1) (offset + snd r1) r
  end.

(** gps.c:53-58: the buffer and the final offset *)
Definition gps_text (bytes : list Z) : option (list Z * Z) :=
  r0 <- snprintf_at (repeat 0 (Z.to_nat (2 * GPS_RECV))) 0 GPS_RECV (str "GPS received sentence: ") ;;
  r1 <- put_chars (fst r0) (snd r0) bytes ;;
  r2 <- snprintf_at (fst r1) (snd r1) GPS_RECV [10] ;;
  Some (fst r2, snd r1 + snd r2).
