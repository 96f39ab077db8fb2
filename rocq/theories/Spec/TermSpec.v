(** What the debug terminal is meant to do with a text. *)
From Coq Require Import String.
From Coq Require Import List.
From Verif.Base Require Export Text.
From Verif.Model Require Import DebugTerm.
Open Scope Z_scope.

Definition blank (c : Z) : bool := (c =? 32) || (c =? 9).

(** The words of a line: maximal runs of non-blank characters. *)
Fixpoint words_from (cur s : list Z) : list (list Z) :=
  match s with
  | [] => match cur with [] => [] | _ => [cur] end
  | c :: t =>
      if blank c then match cur with [] => words_from [] t | _ => cur :: words_from [] t end
      else words_from (cur ++ [c]) t
  end.
Definition words (s : list Z) : list (list Z) := words_from [] s.

(** The complete lines of a text, and the unfinished rest. *)
Fixpoint lines_from (cur s : list Z) : list (list Z) * list Z :=
  match s with
  | [] => ([], cur)
  | c :: t =>
      if c =? NL then let '(ls, r) := lines_from [] t in (cur :: ls, r)
      else lines_from (cur ++ [c]) t
  end.
Definition lines (s : list Z) : list (list Z) * list Z := lines_from [] s.

(** A parameter is judged by its first character. *)
Definition flag (w : list Z) : option bool :=
  match w with
  | c :: _ => if c =? 48 then Some false else if c =? 49 then Some true else None
  | [] => None
  end.
Fixpoint flags (ws : list (list Z)) : option (list bool) :=
  match ws with
  | [] => Some []
  | w :: t => match flag w, flags t with Some b, Some l => Some (b :: l) | _, _ => None end
  end.

(** The actuator calls a command line asks for. *)
Fixpoint number (i : Z) (l : list bool) : list pc_call :=
  match l with [] => [] | b :: t => SetPowerChannel i b :: number (i + 1) t end.
Definition line_calls (ws : list (list Z)) : list pc_call :=
  match ws with
  | [] => []
  | name :: args =>
      if bytes_eqb name (str "setpdm") then
        match args, flags args with
        | [_; _; _; _; _; _], Some l => number 0 l
        | _, _ => []
        end
      else if bytes_eqb name (str "setsdc") then
        match args with
        | [a] => match flag a with Some b => [SetECUError b] | None => [] end
        | _ => []
        end
      else []
  end.

(** "help x" with a known x, or anything else. *)
Definition known_help (ws : list (list Z)) : Prop :=
  match ws with
  | [name; x] => name = str "help" -> x = str "help" \/ x = str "setpdm" \/ x = str "setsdc"
  | _ => True
  end.

(** A line the terminal treats as intended: no blank at either end, at most
    eight words. *)
Definition plain (s : list Z) : Prop :=
  (forall c t, s = c :: t -> blank c = false) /\ (forall c t, s = t ++ [c] -> blank c = false) /\
  (length (words s) <= 8)%nat /\ known_help (words s).

Definition calls (o : list term_out) : list pc_call :=
  flat_map (fun x => match x with Do c => [c] | Print _ => [] end) o.
Definition prints (o : list term_out) : list (list Z) :=
  flat_map (fun x => match x with Do _ => [] | Print t => [t] end) o.

(** The text in a payload: the characters before the first '\0'. *)
Definition text_of (payload : list Z) : list Z := cstr payload.

(** A sequence of payloads handed to the terminal. *)
Fixpoint term_run (t : term) (ps : list (list Z)) : option (term * list term_out) :=
  match ps with
  | [] => Some (t, [])
  | p :: ps' =>
      '(t1, o1) <- DebugTermRecv t p ;;
      '(t2, o2) <- term_run t1 ps' ;;
      Some (t2, o1 ++ o2)
  end.

(** No payload is refused for lack of room. [pend] is the unfinished line. *)
Fixpoint fits (pend : list Z) (ps : list (list Z)) : Prop :=
  match ps with
  | [] => True
  | p :: ps' => (length pend + length p <= 64)%nat /\ fits (snd (lines_from pend (text_of p))) ps'
  end.

(** ** Inputs the terminal survives *)
Fixpoint separators (s : list Z) : nat :=
  match s with
  | [] => 0
  | c :: t => if blank c || (c =? NL) then S (separators t) else separators t
  end.
(** At most eight separators, and "help" does not stand at the start of a line
    or of several lines taken together. *)
Definition tame_text (s : list Z) : Prop :=
  (separators s <= 8)%nat /\ forall a b, s = a ++ NL :: b -> firstn 4 a <> str "help".
(** The unfinished line after a payload; a payload without room clears it. *)
Definition pending_after (pend p : list Z) : list Z :=
  if (length pend + length p <=? 64)%nat then snd (lines_from pend (text_of p)) else [].
Fixpoint tame (pend : list Z) (ps : list (list Z)) : Prop :=
  match ps with
  | [] => True
  | p :: ps' =>
      ((length pend + length p <= 64)%nat -> tame_text (pend ++ text_of p)) /\ tame (pending_after pend p) ps'
  end.

(** A 16-bit number, low byte first. *)
Definition le16_bytes (n : Z) : list Z := [byte 0 n; byte 1 n].
(** The terminal as PCInterface_Init leaves it. *)
Definition term_fresh (t : term) : Prop := length (t_buf t) = 64%nat /\ t_next t = 0.

(** A word as the command handlers receive it: in a row of 65 bytes, padded with
    zeros; and the table of the words [W], eight rows. *)
Definition pad (w : list Z) : list Z := w ++ repeat 0 (65 - length w).
Definition table (W : list (list Z)) : list (list Z) := map pad (W ++ repeat [] (8 - length W)).

(** The two texts with which setpdm and setsdc refuse their parameters. *)
Definition PARAM_COUNT := line "Unexpected number of params".
Definition PARAM_VALUE := line "Param must be 0 or 1".
