(** Vocabulary for C92: how old the readings are that the control tasks use. *)
From Verif.Model Require Import Fresh.

(** [v] shows what cycle [cy] measured: every channel whose reading succeeded, the
    average when both pedal readings did, and the button. *)
Definition shows_cycle (d : ds_scaling) (cy : ds_cycle) (v : vstate) : Prop :=
  let i := vs_inputs v in
  let good (r : Z * Z) := fst r = ADC_STATUS_OK in
  let A := ADC_ApplyScaling (ds_accelA d) (snd (cy_A cy)) in
  let B := ADC_ApplyScaling (ds_accelB d) (snd (cy_B cy)) in
  (good (cy_A cy) -> i_accelA i = A /\ i_accelRawA i = snd (cy_A cy)) /\
  (good (cy_B cy) -> i_accelB i = B /\ i_accelRawB i = snd (cy_B cy)) /\
  (good (cy_A cy) -> good (cy_B cy) ->
     i_accel i = fmul f_half (fadd A B) /\ i_accelValid i = true) /\
  (good (cy_front cy) ->
     i_brakePresFront i = ADC_ApplyScaling (ds_brakeFront d) (snd (cy_front cy)) /\
     i_brakeRawFront i = snd (cy_front cy)) /\
  (good (cy_rear cy) ->
     i_brakePresRear i = ADC_ApplyScaling (ds_brakeRear d) (snd (cy_rear cy)) /\
     i_brakeRawRear i = snd (cy_rear cy)) /\
  d_buttonPressed (vs_dash v) = cy_button cy.

(** At no point of the run have 2^32 ticks (497 days) passed since the sensing
    task last ran. *)
Definition not_starved (d : ds_scaling) (v : vstate) (tr : list f_event) : Prop :=
  forall a b, tr = a ++ b -> f_wait (fresh_run d v a) < 4294967296.

(** Timer ticks so far. *)
Definition ticks (tr : list f_event) : Z := Z.of_nat (length (filter (fun ev => match ev with FTick => true | _ => false end) tr)).
