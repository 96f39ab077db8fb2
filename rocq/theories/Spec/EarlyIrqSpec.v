(** When an interrupt during start-up does no harm. *)
From Verif.Model Require Import EarlyIrq.

(** However the interrupts fall among the stores of the initialisation, and
    after it, every handler run goes well. *)
Definition harmless {S I} (d : driver S I) : Prop :=
  forall tr, run_driver d tr <> None.

(** The number of stores done before the first interrupt; all of them if none
    comes. *)
Fixpoint stores_before_first {I} (tr : list (init_event I)) : nat :=
  match tr with
  | NextStore :: tl => S (stores_before_first tl)
  | _ => O
  end.
Definition has_interrupt {I} (tr : list (init_event I)) : Prop := exists i, In (Interrupt i) tr.
