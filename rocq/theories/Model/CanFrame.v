(** can.h CAN_DataFrame_T: a received CAN frame. The data array always has
    eight elements; only the first [fr_dlc] of them were received. *)
From Verif.Base Require Export Words.

(** can.h:45-50 *)
Record can_frame := mkFrame { fr_bus : Z; fr_id : Z; fr_dlc : Z; fr_data : list Z }.

(** can.h CAN_Device_T. can.h:21 *)
Definition CAN_DEV1 : Z := 0.
(** can.h:22 *)
Definition CAN_DEV2 : Z := 1.
(** can.h:23 *)
Definition CAN_DEV3 : Z := 2.

(** data[i] of the eight-element array. can.h:49. *)
Definition dat (f : can_frame) (i : nat) : Z := nth i (fr_data f) 0.
