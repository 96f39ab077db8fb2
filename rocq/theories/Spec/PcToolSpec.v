(** What the PC program is expected to make of the bytes it receives. *)
From Coq Require Import String.
From Verif.Base Require Export Text.
From Verif.Model Require Import Crc PcTool.
From Verif.Spec Require Import FrameSpec PcPeriodicSpec.

(** The CRC of the frame is right. *)
Definition crc_good (w : list Z) : bool := crc_field w =? HAL_CRC_Calculate (covered w).

(** What a decoder should report for the frame [w]. *)
Definition message_of (w : list Z) : py_msg :=
  mkPyMsg (frame_payload w) (frame_func w) (frame_addr w)
          (HAL_CRC_Calculate (covered w)) (crc_field w) (crc_good w).

(** The stretches of [L] bytes with the delimiters of a frame, from left to right
    and without overlap, whatever their CRC. [skip]: bytes left of the last one. *)
Fixpoint stretches (L skip : nat) (s : list Z) : list (list Z) :=
  match s with
  | [] => []
  | _ :: t =>
      match skip with
      | S k => stretches L k t
      | O => if Nat.eqb (length (firstn L s)) L && delimited (firstn L s)
             then firstn L s :: stretches L (L - 1) t
             else stretches L 0 t
      end
  end.

(** In the concatenation of the pieces, CR LF occurs only where a piece ends.
    Pieces are frames of any length, or noise. *)
Definition crlf_only_at_ends (pieces : list (list Z)) : Prop :=
  forall pre post, concat pieces = pre ++ [13; 10] ++ post ->
    exists ps qs, pieces = ps ++ qs /\ concat ps = pre ++ [13; 10].

(** Sufficient for it, frame by frame: CR LF only at the end of each, and none
    starts with LF. *)
Definition tidy (p : list Z) : Prop :=
  (forall pre post, p = pre ++ [13; 10] ++ post -> post = []) /\ forall q, p <> 10 :: q.

(** The frames of length [L] among the pieces. *)
Definition is_frame (L : nat) (p : list Z) : bool := Nat.eqb (length p) L && delimited p.

(** [ws] contains the elements of [fs] in order; all others are [junk]. *)
Inductive picked {A} (junk : A -> Prop) : list A -> list A -> Prop :=
| picked_nil : picked junk [] []
| picked_hit : forall x fs ws, picked junk fs ws -> picked junk (x :: fs) (x :: ws)
| picked_junk : forall x fs ws, junk x -> picked junk fs ws -> picked junk fs (x :: ws).

(** A stretch inside or across pieces none of which is a frame of length [L]. *)
Definition spurious (L : nat) (pieces : list (list Z)) (w : list Z) : Prop :=
  length w = L /\
  exists ps qs rs a b, pieces = ps ++ qs ++ rs /\ concat qs = a ++ w ++ b /\
    Forall (fun p => is_frame L p = false) qs.

(** Addressed to the PC with the given type. *)
Definition addressed (type : Z) (w : list Z) : bool := (frame_addr w =? 2) && (frame_func w =? type).

(** A log frame on the terminal: its characters, in red if the CRC is wrong. *)
Definition log_shown (w : list Z) : shown :=
  if crc_good w then LogText (frame_payload w) else LogTextRed (frame_payload w).

(** Plain text on the terminal, padding removed. *)
Definition plain_text (o : list shown) : list Z :=
  concat (map (fun x => match x with LogText t => filter (fun c => negb (c =? 0)) t | _ => [] end) o).

(** The names of the fields with ids 1 to 11 (fieldId.h:13-23). *)
Definition field_names : list (list Z) :=
  [str "SDC"; str "PDM"; str "BMS Max cell voltage"; str "BMS Max cell voltage ID";
   str "BMS Max cell temp"; str "BMS Max cell temp ID"; str "BMS DC current";
   str "BMS Pack voltage"; str "BMS SOC"; str "BMS Counter"; str "BMS Fault"].

(** The line expected for a state frame. *)
Definition state_shown (w : list Z) : shown :=
  let '(id, v) := pc_field w in
  match (if id =? 0 then None else nth_error field_names (Z.to_nat (id - 1))) with
  | Some name => StateUpdate name v
  | None => UnexpectedField id
  end.

(** A message of the variable-length decoder describes the frame [w]. A ten-byte
    message has no room for a type. *)
Definition describes (m : py_msg) (w : list Z) : Prop :=
  m_payload m = frame_payload w /\ m_addr m = frame_addr w /\ m_crc_correct m = true /\
  ((11 <= length w)%nat -> m_type m = frame_func w).
