(** README.md:703-719: the physical value a BMS data field stands for. *)
From Coq Require Import Reals.
From Verif.Model Require Import CanFrame.
From Verif.Spec Require Import RxSpec.
Open Scope R_scope.

Definition doc_temperature (d : list Z) : R := IZR (raw_s16 0 d) / 10.
Definition doc_cell_voltage (d : list Z) : R := IZR (raw_s16 3 d) / 100.
Definition doc_current (d : list Z) : R := IZR (raw_s16 0 d) / 10.
Definition doc_pack_voltage (d : list Z) : R := IZR (raw_s16 2 d) / 10.
Definition doc_charge (d : list Z) : R := IZR (raw_u16 4 d) / 100.

(** A well-formed BMS frame of message [id] on bus [bus]. *)
Definition bms_frame (bus id : Z) (f : can_frame) : Prop :=
  fr_bus f = bus /\ fr_id f = id /\ fr_dlc f = 8%Z /\ frame_bytes f.
