(** What "holding a mutex" means, read off the trace of lock operations. *)
From Verif Require Import Model.Locks.

(** Task [a] has taken [l] and not given it back. *)
Definition holds_at (tr : list (nat * obs)) (a : nat) (l : lock) : Prop :=
  exists t1 t2, tr = t1 ++ (a, Took l) :: t2 /\ ~ In (a, Gave l) t2.

(** How often task [a] gets to run in a schedule. *)
Definition turns (a : nat) (sch : list (nat * nat)) : nat :=
  length (filter (fun e => fst e =? a) sch).

(** Going on from a state. *)
Definition continue (s : sys) (sch : list (nat * nat)) : sys := fold_left (sys_step tasks) sch s.
