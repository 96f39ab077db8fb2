(** Vocabulary for C93: what the ECU powers and shows. *)
From Verif.Model Require Import Outputs.
From Verif.Spec Require Import IoSpec.

(** The requests for power channels that came from the PC, and how often the
    watchdog task ran. *)
Definition power_request (ev : car_event) : list (Z * bool * bool) :=
  match ev with CarPc (SetPowerChannel ch on) lock => [(ch, on, lock)] | _ => [] end.
Definition power_requests (es : list car_event) : list (Z * bool * bool) := flat_map power_request es.
Definition blinks (es : list car_event) : Z :=
  Z.of_nat (length (filter (fun ev => match ev with CarBlink => true | _ => false end) es)).

(** The events of the two control tasks and of the PC as the ECU model has them. *)
Definition ecu_part (ev : car_event) : list ecu_event :=
  match ev with
  | CarEcu x => [x]
  | CarPc (SetECUError on) _ => [EvPcEcu on]
  | _ => []
  end.

(** Nothing comes from a PC. *)
Definition pc_free (es : list car_event) : Prop :=
  forall ev, In ev es ->
    match ev with CarPc _ _ => False | CarEcu (EvPcEcu _) => False | _ => True end.

(** A channel number is an uint8_t. *)
Definition real_channels (es : list car_event) : Prop :=
  Forall (fun c => 0 <= fst (fst c)) (power_requests es).

(** The wiring of the board (main.h): port (0 is A) and number of the pins that
    switch the power channels 1 to 6 (PB9, PE0 to PE4), of the status LED (PA12) and
    of the ECU error output (PD4). *)
Definition switch_pins : list (Z * Z) := [(1, 9); (4, 0); (4, 1); (4, 2); (4, 3); (4, 4)].
Definition led_wire : Z * Z := (0, 12).
Definition error_wire : Z * Z := (3, 4).

(** Level of power channel [ch] (0 is channel 1 of the README), of the LED and of
    the error output. *)
Definition power (k : car) (ch : Z) : bool := pw_gpio (k_out k) (nth (Z.to_nat ch) switch_pins (0, 0)).
Definition led (k : car) : bool := pw_gpio (k_out k) led_wire.
Definition error_output (k : car) : bool := pw_gpio (k_out k) error_wire.
(** Channel 3 of the README supplies the inverter. *)
Definition inverter_channel : Z := 2.
Definition state_of (k : car) : vsm_st := vm_state (e_vsm (k_ecu k)).
