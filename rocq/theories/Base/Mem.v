(** C arrays as lists, with every access checked: [None] is an access outside
    the array, i.e. undefined behaviour. *)
From Verif.Base Require Export Words.

Notation "x <- e ;; k" := (match e with Some x => k | None => None end)
  (at level 61, e at next level, right associativity).
Notation "' p <- e ;; k" := (match e with Some p => k | None => None end)
  (at level 61, p pattern, e at next level, right associativity).

(** One element. *)
Definition rd {A} (l : list A) (i : Z) : option A :=
  if i <? Z.of_nat (length l) then get l i else None.
Definition wr {A} (l : list A) (i : Z) (x : A) : option (list A) :=
  if (0 <=? i) && (i <? Z.of_nat (length l)) then Some (upd l (Z.to_nat i) x) else None.

(** [n] elements from index [i] (the operand of a memcpy or of a block read). *)
Definition rd_block {A} (l : list A) (i n : Z) : option (list A) :=
  if (0 <=? i) && (0 <=? n) && (i + n <=? Z.of_nat (length l))
  then Some (firstn (Z.to_nat n) (skipn (Z.to_nat i) l)) else None.

(** memcpy / memset into an array. *)
Definition wr_block {A} (l : list A) (i : Z) (xs : list A) : option (list A) :=
  if (0 <=? i) && (i + Z.of_nat (length xs) <=? Z.of_nat (length l))
  then Some (firstn (Z.to_nat i) l ++ xs ++ skipn (Z.to_nat i + length xs) l) else None.
