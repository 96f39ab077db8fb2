(** What the inverter sees: the command frame as documented in
    firmware/src/vcu/device/inverter/cInverterCAN.h:152-164, and sequences of
    driver calls. Nothing here refers to how the driver builds a frame. *)
From Coq Require Import Reals.
From Verif.Base Require Import F32Real.
From Verif.Model Require Import InverterCmd.
Open Scope Z_scope.

(** Fields of an eight byte command frame. *)
Definition frame_torque (d : list Z) : Z := s16 (le16 (nth 0 d 0) (nth 1 d 0)).
Definition frame_speed (d : list Z) : Z := s16 (le16 (nth 2 d 0) (nth 3 d 0)).
Definition frame_direction (d : list Z) : Z := nth 4 d 0.
Definition frame_enable (d : list Z) : bool := Z.testbit (nth 5 d 0) 0.
Definition frame_discharge (d : list Z) : bool := Z.testbit (nth 5 d 0) 1.
Definition frame_speed_mode (d : list Z) : bool := Z.testbit (nth 5 d 0) 2.
Definition frame_torque_limit (d : list Z) : Z := s16 (le16 (nth 6 d 0) (nth 7 d 0)).

(** A frame that releases the inverter's enable lock-out. *)
Definition lockout_release (d : list Z) : Prop :=
  frame_enable d = false /\ frame_discharge d = false /\ frame_torque d = 0.

(** The three driver calls and the environment of a call: is the driver lock
    obtained, does CAN take the first / the second frame. *)
Inductive inv_call := CTorque (torque : f32) (dir : Z) | CEnable (on : bool) | CDischarge (on : bool).
Record inv_env := mkEnv { e_lock : bool; e_can1 : bool; e_can2 : bool }.

Definition inv_exec (c : inv_cmd) (k : inv_call) (e : inv_env) : option inv_res :=
  match k with
  | CTorque t d => SendTorqueCommand (e_lock e) (e_can1 e) c t d
  | CEnable on => Some (SendInverterEnabled (e_lock e) (e_can1 e) (e_can2 e) c on)
  | CDischarge on => Some (SendInverterDischarge (e_lock e) (e_can1 e) c on)
  end.

(** [inv_run c h = Some (c', trace)]: the calls of [h], made one after the other,
    have the results in [trace]. *)
Fixpoint inv_run (c : inv_cmd) (h : list (inv_call * inv_env))
  : option (inv_cmd * list (inv_call * inv_res)) :=
  match h with
  | [] => Some (c, [])
  | (k, e) :: rest =>
      match inv_exec c k e with
      | None => None
      | Some r =>
          match inv_run (ir_cmd r) rest with
          | None => None
          | Some (c', tr) => Some (c', (k, r) :: tr)
          end
      end
  end.

(** All frames of a trace that the driver tried to send, and those that CAN took. *)
Definition frames (tr : list (inv_call * inv_res)) : list (list Z) :=
  flat_map (fun x => map tx_data (ir_tx (snd x))) tr.
Definition delivered (tr : list (inv_call * inv_res)) : list (list Z) :=
  flat_map (fun x => map tx_data (filter tx_ok (ir_tx (snd x)))) tr.

(** The mode the caller has asked for and been granted, from the calls and the
    returned codes alone: (driving, discharging). A CAN error does not revoke
    the request. *)
Definition granted (s : inv_status) : bool :=
  match s with INV_OK | INV_ERROR_CAN => true | _ => false end.
Definition mode_step (m : bool * bool) (x : inv_call * inv_res) : bool * bool :=
  let '(drive, disch) := m in
  if granted (ir_status (snd x)) then
    match fst x with
    | CTorque _ _ => m
    | CEnable on => (on, disch)
    | CDischarge on => (drive, on)
    end
  else m.
Definition mode_of (tr : list (inv_call * inv_res)) : bool * bool :=
  fold_left mode_step tr (false, false).
Definition driving tr := fst (mode_of tr).
Definition discharging tr := snd (mode_of tr).

(** A torque the driver accepts: 0 to the largest torque of the inverter. *)
Definition in_range (t : f32) : Prop := (0 <= FR t <= FR INVERTER_MAX_TORQUE)%R.
