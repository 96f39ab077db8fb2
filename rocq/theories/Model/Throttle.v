(** vcu/vehicleLogic/throttleController/{torqueMap,throttleController}.c *)
From Verif.Model Require Export VehicleState.

(** torqueMap.h:13-19: five table points. *)
Record torque_map := mkTorqueMap { tm_accel : list f32; tm_torque : list f32 }.

(** torqueMap.c:10-14 *)
Definition TorqueMap_Default : torque_map := mkTorqueMap
  [f_zero; f_lit 1 10; f_lit 1 2; f_lit 7 10; f_one]
  [f_zero; f_zero; f_of_Z 100; f_of_Z 200; f_of_Z 500].

(** torqueMap.c:15-19 *)
Definition TorqueMap_DefaultReverse : torque_map := mkTorqueMap
  [f_zero; f_lit 1 10; f_lit 1 2; f_lit 7 10; f_one]
  [f_zero; f_zero; f_of_Z 20; f_of_Z 75; f_of_Z 75].

(** torqueMap.h:13 *)
Definition TORQUEMAP_LENGTH : nat := 5.

(** Array access in torqueMap.c:27-42; the indices are below 5. *)
Definition fnth (l : list f32) (i : nat) : f32 := nth i l f_zero.

(** torqueMap.c:23-32: the last bucket that contains [accel] wins; [None] is
    idxLower == idxUpper == 0. *)
Definition find_bucket (m : torque_map) (accel : f32) : option nat :=
  fold_left
    (fun acc i => if fge accel (fnth (tm_accel m) i) &&
                     fle accel (fnth (tm_accel m) (S i)) then Some i else acc)
    (seq 0 (TORQUEMAP_LENGTH - 1)) None.

(** torqueMap.c:21-46 *)
Definition TorqueMap_Interpolate (m : torque_map) (accel : f32) : f32 :=
  match find_bucket m accel with
  | None => f_zero
  | Some i =>
      let accel0 := fnth (tm_accel m) i in
      let accel1 := fnth (tm_accel m) (S i) in
      let torque0 := fnth (tm_torque m) i in
      let torque1 := fnth (tm_torque m) (S i) in
      let t := fdiv (fsub accel accel0) (fsub accel1 accel0) in
      fadd (fmul (fsub f_one t) torque0) (fmul t torque1)
  end.

(** throttleController.h:37-60 (internal fields) *)
Record throttle := mkThrottle {
  th_fwd : torque_map; th_rev : torque_map; th_enabled : bool; th_dir : Z }.

(** throttleController.c:87-90 *)
Definition throttle_init : throttle :=
  mkThrottle TorqueMap_Default TorqueMap_DefaultReverse false DIR_FORWARD.

(** throttleController.c:117-130: unchanged when the mutex is not obtained;
    the result is whether the call reported success. *)
Definition SetTorqueEnabled (lock : bool) (t : throttle) (en : bool) : throttle * bool :=
  if lock then (mkThrottle (th_fwd t) (th_rev t) en (th_dir t), true) else (t, false).

(** throttleController.c:132-145 *)
Definition SetMotorDirection (lock : bool) (t : throttle) (d : Z) : throttle * bool :=
  if lock then (mkThrottle (th_fwd t) (th_rev t) (th_enabled t) d, true) else (t, false).

(** throttleController.c:20-41, as a function of the two unprotected reads:
    [en] at line 24 and [dir] at lines 30/32. *)
Definition getTorqueMagnitude (t : throttle) (en : bool) (dir : Z) (accel : f32) : f32 :=
  if negb en then f_zero
  else if dir =? DIR_FORWARD then TorqueMap_Interpolate (th_fwd t) accel
  else if dir =? DIR_REVERSE then TorqueMap_Interpolate (th_rev t) accel
  else f_zero.

(** throttleController.c:49-54: 0.0f when the vehicle state is not obtained. *)
Definition accelOf (live : option vstate) : f32 :=
  match live with Some d => i_accel (vs_inputs d) | None => f_zero end.
