(** The calibrated pedal curve: the polygon through the table points, over the
    real numbers. *)
From Coq Require Import Reals.
From Verif.Base Require Import F32Real.
From Verif.Model Require Import Throttle.
Open Scope R_scope.

Definition point_accel (m : torque_map) (i : nat) : R := FR (nth i (tm_accel m) f_zero).
Definition point_torque (m : torque_map) (i : nat) : R := FR (nth i (tm_torque m) f_zero).

(** [(x, y)] lies on the polygon. *)
Definition on_polygon (m : torque_map) (x y : R) : Prop :=
  exists i, (i < 4)%nat /\
    point_accel m i <= x <= point_accel m (S i) /\
    y = point_torque m i + (point_torque m (S i) - point_torque m i)
          * ((x - point_accel m i) / (point_accel m (S i) - point_accel m i)).

(** The two calibrations the firmware ships. *)
Definition shipped (m : torque_map) : Prop := m = TorqueMap_Default \/ m = TorqueMap_DefaultReverse.

(** The largest table entry. *)
Definition peak (m : torque_map) : R :=
  fold_right Rmax 0 (map FR (tm_torque m)).

(** Torque (Nm) the forward calibration gives for the pedal value [x]: the polygon
    over 0..1, nothing outside and nothing for NaN or infinity. *)
Definition pedal_torque (x : f32) (y : R) : Prop :=
  (f_isfin x = true /\ 0 <= FR x <= 1 /\ on_polygon TorqueMap_Default (FR x) y) \/
  ((f_isfin x = false \/ FR x < 0 \/ 1 < FR x) /\ y = 0).

(** A request of [n] tenths of a Nm stands for [y] Nm: rounded down, up to the
    rounding error of the float arithmetic. *)
Definition stands_for (n : Z) (y : R) : Prop :=
  10 * y - 1 - / 200 < IZR n <= 10 * y + / 200.

(** The throttle controller after any calls of its two setters. *)
Inductive after_setters : throttle -> Prop :=
| as_start : after_setters throttle_init
| as_enable t lock en : after_setters t -> after_setters (fst (SetTorqueEnabled lock t en))
| as_direction t lock d : after_setters t -> after_setters (fst (SetMotorDirection lock t d)).
