(** Vocabulary for C94: from the pedal sensors to the torque requests. *)
From Verif.Model Require Import Vehicle.
From Verif.Spec Require Import FaultSpec FreshSpec SenseSpec InverterSpec EcuSpec.

(** The event puts frame [t] on the list of frames sent. *)
Definition veh_sends (c : config) (tick : Z) (s : vehicle) (ev : veh_event) (t : tx) : Prop :=
  exists l, e_sent (vh_e (veh_step c tick (ds_from_config c) s ev)) = e_sent (vh_e s) ++ l /\ In t l.

(** In the run [tr] the sensing task published the cycle [cy], in an activation
    that began after [n] ticks of the timer. *)
Definition published (c : config) (tick : Z) (m0 : vsm) (tr : list veh_event) (n : Z)
           (cy : ds_cycle) : Prop :=
  exists a b, tr = a ++ b /\ f_last (vh_f (veh_run c tick m0 a)) = Some (n, cy).

(** At no point of the run have 2^32 ticks (497 days) passed since the sensing
    task last ran. *)
Definition veh_not_starved (c : config) (tick : Z) (m0 : vsm) (tr : list veh_event) : Prop :=
  forall a b, tr = a ++ b -> f_wait (vh_f (veh_run c tick m0 a)) < 4294967296.

(** Both pedal channels were read in [cy]. *)
Definition both_read (cy : ds_cycle) : Prop :=
  fst (cy_A cy) = ADC_STATUS_OK /\ fst (cy_B cy) = ADC_STATUS_OK.

(** A channel that could be read once can be read in every later cycle: the driver
    is without data only until the first scan is complete. *)
Definition stays_readable (c : config) (tick : Z) (m0 : vsm) (tr : list veh_event) : Prop :=
  forall a b e n1 cy1 n2 cy2, tr = a ++ b ++ e ->
    f_last (vh_f (veh_run c tick m0 a)) = Some (n1, cy1) ->
    f_last (vh_f (veh_run c tick m0 (a ++ b))) = Some (n2, cy2) ->
    (fst (cy_A cy1) = ADC_STATUS_OK -> fst (cy_A cy2) = ADC_STATUS_OK) /\
    (fst (cy_B cy1) = ADC_STATUS_OK -> fst (cy_B cy2) = ADC_STATUS_OK).

(** The pedal position that [cy] measured, 0 to 1: the average of both channels. *)
Definition pedal_of (c : config) (cy : ds_cycle) : f32 :=
  let scaled cal raw := ADC_ApplyScaling (mkScaling (c_rawLower cal) (c_rawUpper cal) true) raw in
  fmul (f_lit 1 2) (fadd (scaled (ci_calA (cf_inputs c)) (snd (cy_A cy)))
                         (scaled (ci_calB (cf_inputs c)) (snd (cy_B cy)))).

(** [cy] read both channels and the pedal is below a tenth of its travel. *)
Definition released (c : config) (cy : ds_cycle) : Prop :=
  both_read cy /\ flt (pedal_of c cy) (f_lit 1 10) = true.

(** Calibrations of the pedal sensors that make sense (cf. C26). *)
Definition calibrated (c : config) : Prop :=
  Forall (fun cal => is_u16 (c_rawLower cal) /\ is_u16 (c_rawUpper cal) /\ c_rawLower cal <> c_rawUpper cal)
         [ci_calA (cf_inputs c); ci_calB (cf_inputs c)].

(** The readings are 16-bit values. *)
Definition readings_u16 (c : config) (tick : Z) (m0 : vsm) (tr : list veh_event) : Prop :=
  forall n cy, published c tick m0 tr n cy -> cycle_u16 cy.

(** [cy] shows the fault condition [k]: it holds in every vehicle state that holds
    the readings of [cy]. *)
Definition cycle_shows (c : config) (k : fault_kind) (cy : ds_cycle) : Prop :=
  forall v, shows_cycle (ds_from_config c) cy v -> fault_cond c k v = true.

(** Both control tasks have finished and wait for the timer. *)
Definition veh_idle (s : vehicle) : Prop :=
  forall t, In t [T_THROTTLE; T_VSM] -> f_stage (vh_f s) t = Waiting /\ f_note (vh_f s) t = 0.

(** After [a], during [b], each tick finds both control tasks idle. *)
Definition veh_keeps_up (c : config) (tick : Z) (m0 : vsm) (a b : list veh_event) : Prop :=
  forall b1 b2, b = b1 ++ VTick :: b2 -> veh_idle (veh_run c tick m0 (a ++ b1)).

(** Timer ticks in a run. *)
Fixpoint veh_ticks (tr : list veh_event) : Z :=
  match tr with
  | [] => 0
  | VTick :: t => 1 + veh_ticks t
  | _ :: t => veh_ticks t
  end.

(** The setters of the throttle controller wait without limit (see [waits]). *)
Definition veh_waits (ev : veh_event) : Prop :=
  match ev with VWork e => waits e | _ => True end.

(** No command from the PC or the debug terminal sets the error output. *)
Definition veh_no_pc (ev : veh_event) : Prop :=
  match ev with VWork e => is_pc e = false | _ => True end.
