(** Vocabulary for C100: what the driver has done with the dashboard button. *)
From Verif.Model Require Import Vehicle.
From Verif.Spec Require Import InverterSpec EcuSpec VehicleSpec.

(** The button as the sensing task published it last; [None]: never yet. *)
Definition last_button (c : config) (tick : Z) (m0 : vsm) (tr : list veh_event) : option bool :=
  match f_last (vh_f (veh_run c tick m0 tr)) with
  | Some (_, cy) => Some (cy_button cy)
  | None => None
  end.

(** In the run [tr] the button was published in the positions [bs], one after the
    other; the latest comes first in [bs]. *)
Fixpoint button_went (c : config) (tick : Z) (m0 : vsm) (tr : list veh_event) (bs : list bool) : Prop :=
  match bs with
  | [] => True
  | b :: earlier =>
      exists before after, tr = before ++ after /\
        last_button c tick m0 before = Some b /\ button_went c tick m0 before earlier
  end.

(** Throughout [b], which follows [a], the button was last published as [p]. *)
Definition button_stays (c : config) (tick : Z) (m0 : vsm) (a b : list veh_event) (p : bool) : Prop :=
  forall b1 b2, b = b1 ++ b2 -> last_button c tick m0 (a ++ b1) = Some p.

(** During [b], which follows [a], the state manager, when it decides in
    ACTIVE_FORWARD, has had access to the button. *)
Definition looks_at_button (c : config) (tick : Z) (m0 : vsm) (a b : list veh_event) : Prop :=
  forall b1 b2, b = b1 ++ VDecide :: b2 ->
    vm_state (e_vsm (vh_e (veh_run c tick m0 (a ++ b1)))) = StActiveForward ->
    vh_live (veh_run c tick m0 (a ++ b1)) <> None.
