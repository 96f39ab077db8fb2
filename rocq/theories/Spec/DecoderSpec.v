(** Histories of calls of the frame decoder, with what an observer sees. *)
From Verif.Model Require Import MsgFrame.

(** A receive call with some bytes, or a decode call (with the outcomes of the
    CRC mutex during it). *)
Inductive dec_op := Push (bytes : list Z) | Pull (locks : list bool).

(** What a decode call hands out: the msgLen bytes at data + *msgOffset. *)
Definition handed_out (m : mfdec) (r : option Z) : option (list (list Z)) :=
  match r with
  | None => Some []
  | Some off => w <- rd_block (d_data m) off (d_msgLen m) ;; Some [w]
  end.

(** Result: state, bytes accepted, frames handed out; [None]: undefined behaviour. *)
Fixpoint dec_run (m : mfdec) (ops : list dec_op) : option (mfdec * list Z * list (list Z)) :=
  match ops with
  | [] => Some (m, [], [])
  | Push b :: t =>
      '(ok, m1) <- MsgFrameDecode_RecvBytes m b ;;
      '(m2, got, out) <- dec_run m1 t ;;
      Some (m2, (if ok : bool then b else []) ++ got, out)
  | Pull locks :: t =>
      '(r, m1, _) <- MsgFrameDecode_RecvMsg locks m ;;
      f <- handed_out m1 r ;;
      '(m2, got, out) <- dec_run m1 t ;;
      Some (m2, got, f ++ out)
  end.

(** A freshly initialised decoder for frames of length [L]; the contents of the
    array are arbitrary. *)
Definition fresh (L : Z) (m : mfdec) : Prop :=
  exists m0, length (d_data m0) = Z.to_nat MSGFRAME_BUFFER_LEN /\ d_msgLen m0 = L /\
    MsgFrameDecode_Init m0 = (true, m).

Definition ops_ok (ops : list dec_op) : Prop :=
  Forall (fun o => match o with Push b => Forall is_byte b | Pull _ => True end) ops.
Definition locks_ok (ops : list dec_op) : Prop :=
  Forall (fun o => match o with Push _ => True | Pull l => Forall (eq true) l end) ops.

(** The use the header prescribes (msgframedecode.h:4-14): after each received
    chunk, decode until the decoder returns false. [None] also when a chunk is
    refused or more than [pulls] frames are found in one chunk. *)
Fixpoint pull_all (pulls : nat) (m : mfdec) : option (mfdec * list (list Z)) :=
  match pulls with
  | O => None
  | S n =>
      '(r, m1, _) <- MsgFrameDecode_RecvMsg [] m ;;
      match r with
      | None => Some (m1, [])
      | Some _ =>
          f <- handed_out m1 r ;;
          '(m2, out) <- pull_all n m1 ;;
          Some (m2, f ++ out)
      end
  end.

Fixpoint deliver (m : mfdec) (chunks : list (list Z)) : option (mfdec * list (list Z)) :=
  match chunks with
  | [] => Some (m, [])
  | c :: t =>
      '(ok, m1) <- MsgFrameDecode_RecvBytes m c ;;
      if (ok : bool) then
        '(m2, out) <- pull_all 200 m1 ;;
        '(m3, out') <- deliver m2 t ;;
        Some (m3, out ++ out')
      else None
  end.
