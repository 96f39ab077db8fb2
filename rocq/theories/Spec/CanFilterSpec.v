(** Which buses hear anything. *)
From Verif.Model Require Import CanFilter.

(** The device was configured. *)
Definition configured (l : list can_dev) (d : can_dev) : Prop := In d l.

(** The last configuration of one of the two buses that share filters was that of
    CAN2. *)
Definition can2_last (l : list can_dev) : Prop :=
  exists a b, l = a ++ DEV2 :: b /\ ~ In DEV1 b.

(** Every frame of the bus is received, no frame is. *)
Definition hears_all (s : cells) (d : can_dev) : Prop := forall f, to_fifo0 s d f = true.
Definition deaf (s : cells) (d : can_dev) : Prop := forall f, to_fifo0 s d f = false.
