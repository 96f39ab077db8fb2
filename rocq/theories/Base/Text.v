(** C strings as byte lists. *)
From Coq Require Import String Ascii.
From Verif.Base Require Export Words.

(** The characters of a literal. *)
Definition str (s : string) : list Z :=
  map (fun a => Z.of_nat (nat_of_ascii a)) (list_ascii_of_string s).

Arguments str s%string_scope.

(** A text literal followed by a newline, "...\n". *)
Definition NL : Z := 10.
Definition line (s : string) : list Z := str s ++ [NL].
Arguments line s%string_scope.

(** The string stored in a char array: up to the first '\0'. *)
Fixpoint cstr (l : list Z) : list Z :=
  match l with
  | [] => []
  | c :: t => if c =? 0 then [] else c :: cstr t
  end.

Fixpoint bytes_eqb (a b : list Z) : bool :=
  match a, b with
  | [], [] => true
  | x :: s, y :: t => (x =? y) && bytes_eqb s t
  | _, _ => false
  end.
