(** What C85 speaks about. *)
From Verif.Model Require Import GpioPorts.

Definition real_pin (p : pin) : Prop := 0 <= pn_num p < 16.

(** The level of a pin after some operations, from the operations on it alone. *)
Definition pin_beq (a b : pin) : bool := (pn_port a =? pn_port b) && (pn_num a =? pn_num b).
Definition effect (p : pin) (l : bool) (o : pin_op) : bool :=
  if pin_beq (op_pin o) p then match o with WritePin _ v => v | TogglePin _ => negb l end else l.
Definition level_after (p : pin) (l : bool) (ops : list pin_op) : bool := fold_left (effect p) ops l.

(** Only task [i] touches the pin. *)
Definition owner (progs : list (list pin_op)) (i : nat) (p : pin) : Prop :=
  forall j l o, j <> i -> nth_error progs j = Some l -> In o l -> op_pin o <> p.

(** The operations task [i] has finished. *)
Definition finished (progs : list (list pin_op)) (w : gworld) (i : nat) (ops : list pin_op) : Prop :=
  exists l t, nth_error progs i = Some l /\ nth_error (gw_tasks w) i = Some t /\ l = ops ++ gt_todo t.

(** What is left of a task list when every operation on another pin is taken out. *)
Definition on_pin (p : pin) (o : pin_op) : bool := pin_beq (op_pin o) p.
Definition only (p : pin) (progs : list (list pin_op)) : list (list pin_op) := map (filter (on_pin p)) progs.
