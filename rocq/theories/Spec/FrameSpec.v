(** The PC protocol's frame format (README "PC interface", tools/ecu-config) and
    what it means to find frames in a byte stream. *)
From Verif.Model Require Import Crc.

(** CRC field: big endian, the four bytes before CR LF. *)
Definition crc_field (w : list Z) : Z :=
  let o := (length w - 6)%nat in
  be32 (nth o w 0) (nth (o + 1) w 0) (nth (o + 2) w 0) (nth (o + 3) w 0).

(** The bytes the CRC is taken over: the whole frame with a zeroed CRC field. *)
Definition covered (w : list Z) : list Z :=
  let o := (length w - 6)%nat in firstn o w ++ [0; 0; 0; 0] ++ skipn (o + 4) w.

Definition delimited (w : list Z) : bool :=
  (nth 0 w 0 =? 58) && (nth (length w - 2) w 0 =? 13) && (nth (length w - 1) w 0 =? 10).

Definition valid_frame (L : nat) (w : list Z) : bool :=
  Nat.eqb (length w) L && delimited w && (crc_field w =? HAL_CRC_Calculate (covered w)).

(** The frame for an address, function and payload. *)
Definition encode (addr func : Z) (payload : list Z) : list Z :=
  let head := 58 :: byte 1 addr :: byte 0 addr :: byte 1 func :: byte 0 func :: payload in
  let c := HAL_CRC_Calculate (head ++ [0; 0; 0; 0; 13; 10]) in
  head ++ [byte 3 c; byte 2 c; byte 1 c; byte 0 c; 13; 10].

Definition frame_addr (w : list Z) : Z := be16 (nth 1 w 0) (nth 2 w 0).
Definition frame_func (w : list Z) : Z := be16 (nth 3 w 0) (nth 4 w 0).
Definition frame_payload (w : list Z) : list Z := firstn (length w - 11) (skipn 5 w).

(** Frames of length [L] in a stream: from left to right, at each position take
    the frame that starts there if there is one, else go on by one byte.
    [skip] counts the remaining bytes of the frame just taken. *)
Fixpoint scan (L skip : nat) (s : list Z) : list (list Z) :=
  match s with
  | [] => []
  | _ :: t =>
      match skip with
      | S k => scan L k t
      | O => if valid_frame L (firstn L s) then firstn L s :: scan L (L - 1) t
             else scan L 0 t
      end
  end.

Definition frames_in (L : nat) (s : list Z) : list (list Z) := scan L 0 s.

(** The frames occur in the stream one after the other, without overlap. *)
Inductive in_order : list (list Z) -> list Z -> Prop :=
| in_order_nil : forall s, in_order [] s
| in_order_cons : forall gap w s ws, in_order ws s -> in_order (w :: ws) (gap ++ w ++ s).

(** No frame straddles the boundary between [noise] and the frame [f] after it. *)
Definition clean_before (L : nat) (noise f : list Z) : Prop :=
  forall i, (i < length noise)%nat -> (length noise < i + L)%nat ->
    valid_frame L (firstn L (skipn i (noise ++ f))) = false.

(** Bits of a byte string, most significant bit of each byte first, and error
    patterns on them. *)
Definition bits_of (l : list Z) : list bool := flat_map byte_bits l.
Fixpoint flip (bits pattern : list bool) : list bool :=
  match bits, pattern with
  | x :: a, y :: b => xorb x y :: flip a b
  | _, _ => []
  end.
