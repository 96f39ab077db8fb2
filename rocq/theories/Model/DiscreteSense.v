(** vcu/device/discretesense/discretesense.c: pedal, brake and button sampling. *)
From Verif.Base Require Export Words F32.
From Verif.Model Require Export VehicleState Adc.

(** The four scalings of DiscreteSense_T (discretesense.h), filled from the
    configuration with saturation on (initialize.c:353-372). *)
Record ds_scaling := mkDs {
  ds_accelA : scaling_t; ds_accelB : scaling_t;
  ds_brakeFront : scaling_t; ds_brakeRear : scaling_t }.

(** One scaling from its configuration, initialize.c:353-372. *)
Definition of_cal (c : adccal_t) : scaling_t := mkScaling (c_rawLower c) (c_rawUpper c) true.

(** initialize.c:353-372 *)
Definition ds_from_config (c : config) : ds_scaling :=
  mkDs (of_cal (ci_calA (cf_inputs c))) (of_cal (ci_calB (cf_inputs c)))
       (of_cal (ci_brakeFront (cf_inputs c))) (of_cal (ci_brakeRear (cf_inputs c))).

(** What one activation of the task meets: status and value of the four ADC_Get
    calls (29-32), the button pin (41), and whether the vehicle state could be
    locked (43). discretesense.c:29-43. *)
Record ds_cycle := mkCycle {
  cy_A : Z * Z; cy_B : Z * Z; cy_front : Z * Z; cy_rear : Z * Z;
  cy_button : bool; cy_lock : bool }.

(** discretesense.c:46, 50, 54, 59, 63. *)
Definition ok (r : Z * Z) : bool := fst r =? ADC_STATUS_OK.

(** 0.5f, discretesense.c:39. *)
Definition f_half : f32 := f_lit 1 2.

(** discretesense.c:46-49 *)
Definition put_A (v : f32) (r : Z * Z) (i : inputs_t) : inputs_t :=
  if ok r then
    mkInputs (i_accel i) v (i_accelB i) (snd r) (i_accelRawB i) (i_accelValid i)
             (i_brakePresFront i) (i_brakePresRear i) (i_brakeRawFront i) (i_brakeRawRear i)
  else i.
(** discretesense.c:50-53 *)
Definition put_B (v : f32) (r : Z * Z) (i : inputs_t) : inputs_t :=
  if ok r then
    mkInputs (i_accel i) (i_accelA i) v (i_accelRawA i) (snd r) (i_accelValid i)
             (i_brakePresFront i) (i_brakePresRear i) (i_brakeRawFront i) (i_brakeRawRear i)
  else i.
(** discretesense.c:54-57 *)
Definition put_accel (v : f32) (rA rB : Z * Z) (i : inputs_t) : inputs_t :=
  if ok rA && ok rB then
    mkInputs v (i_accelA i) (i_accelB i) (i_accelRawA i) (i_accelRawB i) true
             (i_brakePresFront i) (i_brakePresRear i) (i_brakeRawFront i) (i_brakeRawRear i)
  else i.
(** discretesense.c:59-62 *)
Definition put_front (v : f32) (r : Z * Z) (i : inputs_t) : inputs_t :=
  if ok r then
    mkInputs (i_accel i) (i_accelA i) (i_accelB i) (i_accelRawA i) (i_accelRawB i) (i_accelValid i)
             v (i_brakePresRear i) (snd r) (i_brakeRawRear i)
  else i.
(** discretesense.c:63-66 *)
Definition put_rear (v : f32) (r : Z * Z) (i : inputs_t) : inputs_t :=
  if ok r then
    mkInputs (i_accel i) (i_accelA i) (i_accelB i) (i_accelRawA i) (i_accelRawB i) (i_accelValid i)
             (i_brakePresFront i) v (i_brakeRawFront i) (snd r)
  else i.

(** discretesense.c:22-71 (the part after a notification; without one the task
    does nothing). The release at line 71 has no effect on the data. *)
Definition ds_step (d : ds_scaling) (s : vstate) (c : ds_cycle) : vstate :=
  let accelA := ADC_ApplyScaling (ds_accelA d) (snd (cy_A c)) in
  let accelB := ADC_ApplyScaling (ds_accelB d) (snd (cy_B c)) in
  let brakeFront := ADC_ApplyScaling (ds_brakeFront d) (snd (cy_front c)) in
  let brakeRear := ADC_ApplyScaling (ds_brakeRear d) (snd (cy_rear c)) in
  let accel := fmul f_half (fadd accelA accelB) in
  if cy_lock c then
    let i := put_rear brakeRear (cy_rear c)
            (put_front brakeFront (cy_front c)
            (put_accel accel (cy_A c) (cy_B c)
            (put_B accelB (cy_B c)
            (put_A accelA (cy_A c) (vs_inputs s))))) in
    set_dash (set_inputs s i) (mkDash (cy_button c) (d_ledOn (vs_dash s)))   (* 68 *)
  else s.

(** A history of activations. The task's loop around discretesense.c:17-73. *)
Definition ds_run (d : ds_scaling) (s : vstate) (h : list ds_cycle) : vstate :=
  fold_left (ds_step d) h s.
