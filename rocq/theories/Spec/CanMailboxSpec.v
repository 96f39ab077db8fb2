(** Frames handed to the driver, and frames waiting in mailboxes. *)
From Verif.Model Require Import CanMailbox.

(** An eight byte frame of the inverter's bus. *)
Definition full_frame (f : can_frame) : Prop :=
  fr_bus f = CAN_DEV1 /\ fr_dlc f = 8 /\ length (fr_data f) = 8%nat.

(** The task [i] asks for [f] to be sent. *)
Definition asked (sch : list bus_event) (i : nat) (f : can_frame) : Prop := In (Begin i f) sch.

Definition waiting (mb : list mbox) : list can_frame := map out_frame (filter m_req mb).

(** No two tasks can be inside the driver at once: all senders use the mutex, or
    there is only one. *)
Definition senders_exclusive (sch : list bus_event) : Prop :=
  (forall i f, asked sch i f -> locker i = true) \/
  (exists j, forall i f, asked sch i f -> i = j).

(** Identifier, length and the two halves of the data each come from a frame that
    some task asked to send, though perhaps not from the same one. *)
Definition mixed (sch : list bus_event) (g : can_frame) : Prop :=
  exists i1 f1 i2 f2 i3 f3 i4 f4,
    asked sch i1 f1 /\ asked sch i2 f2 /\ asked sch i3 f3 /\ asked sch i4 f4 /\
    g = mkFrame CAN_DEV1 (fr_id f1) (fr_dlc f2) (firstn 4 (fr_data f3) ++ skipn 4 (fr_data f4)).

(** [n] turns of task [i]. *)
Definition steps (i n : nat) : list bus_event := repeat (Go i) n.
