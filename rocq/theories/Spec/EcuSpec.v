(** Vocabulary for the whole-ECU properties (C13, C58). *)
From Verif.Model Require Import Ecu.
From Verif.Spec Require Import InverterSpec.

(** ** C13 *)

(** A CAN frame that asks the inverter for torque. *)
Definition asks_torque (t : tx) : bool := negb (frame_torque (tx_data t) =? 0).

(** The moments at which the vehicle may be driven: the machine is in
    ACTIVE_FORWARD; or it is in the last instants of the step that enters
    ACTIVE_FORWARD; or it has entered FAULT from ACTIVE_FORWARD and has not yet
    completed a control step there. *)
Definition driving (e : ecu) : Prop :=
  vm_state (e_vsm e) = StActiveForward \/
  (vm_state (e_vsm e) = StActiveNeutral /\
   exists m', e_pend e = Some ([], m') /\ vm_state m' = StActiveForward) \/
  (vm_state (e_vsm e) = StFault /\ e_from e = StActiveForward /\ e_since e = 0).

(** The setters of the throttle controller wait for their mutex without a time
    limit (throttleController.c:121, 136), so they never give up. *)
Definition waits (ev : ecu_event) : Prop :=
  match ev with EvCmd tlock _ _ _ => tlock = true | _ => True end.

(** Events of the state-manager task. *)
Definition is_vsm (ev : ecu_event) : bool :=
  match ev with EvVsm _ | EvCmd _ _ _ _ => true | _ => false end.

(** Frames the event [ev] adds to those sent before. *)
Definition sends (c : config) (tick : Z) (e : ecu) (ev : ecu_event) (t : tx) : Prop :=
  exists l, e_sent (ecu_step c tick e ev) = e_sent e ++ l /\ In t l.

(** ** C58 *)

Definition is_pc (ev : ecu_event) : bool :=
  match ev with EvPcEcu _ => true | _ => false end.

(** High voltage has been requested and no fault was seen since. *)
Definition hv_state (s : vsm_st) : Prop :=
  s = StHvActive \/ s = StHvCharging \/ s = StActiveNeutral \/ s = StActiveForward.

(** A pedal reading that is some 32-bit float, NaN and infinities included. *)
Definition pedal_ok (ev : ecu_event) : Prop :=
  match ev with EvPedal live => f_ok (accelOf live) = true | _ => True end.

(** ** C69 *)

(** [pedal_event es es1 live es2]: in the schedule [es] the activation of the
    throttle task that is still under way began, after [es1], by reading [live]. *)
Definition pedal_event (c : config) (tick : Z) (m0 : vsm) (es es1 : list ecu_event)
           (live : option vstate) (es2 : list ecu_event) : Prop :=
  es = es1 ++ EvPedal live :: es2 /\ e_tpc (ecu_run c tick m0 es1) = TIdle /\
  forall a b, es2 = a ++ b -> e_tpc (ecu_run c tick m0 (es1 ++ EvPedal live :: a)) <> TIdle.

(** The accelerator position in the vehicle state. *)
Definition accel_in (d : vstate) : f32 := i_accel (vs_inputs d).

(** One activation of the throttle task that nobody interferes with. *)
Definition activation (live : option vstate) (lock ok : bool) : list ecu_event :=
  [EvPedal live; EvReadEnabled; EvReadDir; EvReadDir2; EvRequest lock ok].
