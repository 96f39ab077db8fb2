(** Vocabulary for C104: while the car drives, every command follows the pedal. *)
From Verif.Model Require Import Vehicle.
From Verif.Spec Require Import VehicleSpec CommandSpec.

(** The machine is in ACTIVE_FORWARD and no control step under way leaves it. *)
Definition drives_on (s : vehicle) : Prop :=
  vm_state (e_vsm (vh_e s)) = StActiveForward /\
  forall cmds m', e_pend (vh_e s) = Some (cmds, m') -> vm_state m' = StActiveForward.

(** At every moment of [b], after [a]. *)
Definition drives_through (c : config) (tick : Z) (m0 : vsm) (a b : list veh_event) : Prop :=
  forall b1 b2, b = b1 ++ b2 -> drives_on (veh_run c tick m0 (a ++ b1)).

(** [t] is a frame of a request in [b], made after the part [b1]. *)
Definition command_at (c : config) (tick : Z) (m0 : vsm) (a b b1 : list veh_event) (t : tx) : Prop :=
  exists ev b2, b = b1 ++ ev :: b2 /\ is_request ev = true /\ In t (handed c tick (veh_run c tick m0 (a ++ b1)) ev).
