(** C69: the torque frames on the bus follow the accelerator pedal. *)
From Coq Require Import Reals Psatz.
From Coq Require Import Floats.SpecFloat.
From Verif.Base Require Import F32Real.
From Verif.Model Require Import Ecu.
From Verif.Spec Require Import VsmSpec InverterSpec EcuSpec TorqueSpec.
From Verif.Proof Require Import EcuProof EcuPedal.
From Verif.Props Require Import FaultProps VsmProps EcuProps.
Open Scope Z_scope.

(** Under every schedule, a frame that asks for torque goes back to a reading of
    the vehicle state made by the throttle task in the same activation, and asks
    for what the calibrated curve gives at the pedal position in that reading. In
    particular a frame whose activation could not read the pedal asks for none. *)
Theorem C69_frame_follows_pedal :
  forall c tick m0 es ev t, vsm_init c tick = Some m0 -> Forall pedal_ok es ->
    sends c tick (ecu_run c tick m0 es) ev t -> asks_torque t = true ->
    exists es1 d es2 y, pedal_event c tick m0 es es1 (Some d) es2 /\
      pedal_torque (accel_in d) y /\ stands_for (frame_torque (tx_data t)) y.
Proof. exact frame_pedal. Qed.
Print Assumptions C69_frame_follows_pedal.

(** In ACTIVE_FORWARD, between control steps and with the inverter enabled, every
    activation that is not interrupted and obtains the inverter mutex sends exactly
    one frame, enabled and forwards, with the torque of the pedal. *)
Theorem C69_pedal_reaches_inverter :
  forall c tick m0 es d ok, vsm_init c tick = Some m0 -> Forall waits es ->
    let e := ecu_run c tick m0 es in
    vm_state (e_vsm e) = StActiveForward -> e_pend e = None -> e_tpc e = TIdle ->
    ic_enabled (e_inv e) = true -> f_ok (accel_in d) = true ->
    exists t y, e_sent (ecu_run c tick m0 (es ++ activation (Some d) true ok)) = e_sent e ++ [t] /\
      frame_enable (tx_data t) = true /\ frame_direction (tx_data t) = 1 /\
      pedal_torque (accel_in d) y /\ stands_for (frame_torque (tx_data t)) y.
Proof. exact pedal_reaches. Qed.
Print Assumptions C69_pedal_reaches_inverter.

(** Outside driving such an activation asks for no torque, whatever the pedal. *)
Theorem C69_no_torque_when_not_driving :
  forall c tick m0 es live lock ok, vsm_init c tick = Some m0 -> Forall waits es ->
    let e := ecu_run c tick m0 es in
    ~ driving e -> e_tpc e = TIdle ->
    exists l, e_sent (ecu_run c tick m0 (es ++ activation live lock ok)) = e_sent e ++ l /\
      Forall (fun t => frame_torque (tx_data t) = 0) l.
Proof. exact not_driving_quiet. Qed.
Print Assumptions C69_no_torque_when_not_driving.

(** Half pedal and full pedal on the concrete drive, in neutral and in forward. *)
Example C69_nonvacuous :
  ic_enabled (e_inv (now drive)) = true /\ e_tpc (now drive) = TIdle /\
  map (fun x => new_torques (drive ++ firstn 4 (pedal x)) (EvRequest true true))
      [f_zero; f_lit 5 10; f_one] = [[0]; [1000]; [5000]].
Proof. vm_compute. auto. Qed.
