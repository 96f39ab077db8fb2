(** Vocabulary for C99: who holds a mutex, read off what the calls returned. *)
From Verif.Model Require Import KMutex.

(** The tasks, the idle task among them, with priorities the kernel knows. *)
Definition setting (base : Z -> Z) (ids : list Z) : Prop :=
  NoDup ids /\ In IDLE ids /\ base IDLE = 0 /\ forall t, In t ids -> 0 <= base t < MAX_PRIORITIES.

(** Who took [m] last and has not given it back. *)
Definition holder_of (log : list (Z * act * Z)) (m : Z) : option Z :=
  fold_left (fun h e => match e with
    | (t, Took, x) => if x =? m then Some t else h
    | (_, Gave, x) => if x =? m then None else h
    | (_, Missed, _) => h end) log None.

(** Each mutex is taken only when nobody has it, and given only by the one who has it. *)
Definition exclusive (log : list (Z * act * Z)) : Prop :=
  forall a t c m b, log = a ++ (t, c, m) :: b ->
    match c with Took => holder_of a m = None | Gave => holder_of a m = Some t | Missed => True end.

(** Tasks take one mutex at a time and do not give what another task has. *)
Fixpoint one_at_a_time (base : Z -> Z) (k : km) (tr : list kevent) : Prop :=
  match tr with
  | [] => True
  | ev :: r =>
      match ev with
      | KTake _ _ => forall x, holder_of (k_log k) x <> Some (k_cur k)
      | KGive m => holder_of (k_log k) m = Some (k_cur k) \/ holder_of (k_log k) m = None
      | _ => True
      end /\
      match km_step base k ev with Some k' => one_at_a_time base k' r | None => True end
  end.

(** Neither asleep nor blocked elsewhere. *)
Definition able (p : pc) : bool := match p with Away => false | Asleep _ _ _ => false | _ => true end.
(** Asleep until [m] is given. *)
Definition waits (k : km) (t m : Z) : Prop := exists w inh, t_pc (k_task k t) = Asleep m w inh.
(** In the middle of a call for [m]. *)
Definition in_call (p : pc) (m : Z) : Prop :=
  match p with Out => False | Away => False | Try x _ _ => x = m | Check x _ _ => x = m | Asleep x _ _ => x = m | Late x _ _ => x = m | Undo x => x = m end.
