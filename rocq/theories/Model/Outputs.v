(** Everything the ECU drives by pin: the six power channels, the dashboard LED and
    the ECU error output, with the tasks that write them. *)
From Verif.Base Require Import Mem.
From Verif.Base Require Export Gpio.
From Verif.Model Require Export Ecu Pdm Watchdog PcRequests.
From Verif.Model Require GpioPorts.

(** A GPIO_T of deviceMapping.c:15-64 as port and pin number. *)
Definition pin_of (p : GpioPorts.pin) : pin := (GpioPorts.pn_port p, GpioPorts.pn_num p).
(** deviceMapping.c:15-31 and initialize.c:82-86 *)
Definition car_channels : list pin := map pin_of GpioPorts.pdm_pins.
(** initialize.c:82-86, deviceMapping.c:15-31 *)
Definition car_pdm : pdm_cfg := mkPdm (Some car_channels) 6.
(** deviceMapping.c:38-40, 62-64 *)
Definition car_debug_pin : pin := pin_of GpioPorts.debug_pin.
(** deviceMapping.c:62-64 *)
Definition car_error_pin : pin := pin_of GpioPorts.ecu_error_pin.

(** The ECU of Ecu.v; the pins and glv.pdmChState; the counter of the watchdog task.
    The fields are those of stateMachine.h:32-49, vehicleStateTypes.h:54-58 and
    watchdogTrigger.h:36. *)
Record car := mkCar { k_ecu : ecu; k_out : pdm_world; k_count : Z }.

(** Every output is low after main.c:909-931, as is the LED after dashboard_output.c:16;
    the vehicle state starts as zeros (vehicleState.c:24). *)
Definition car_init (m0 : vsm) : car :=
  mkCar (ecu_init m0)
        (mkPw (GPIO_WritePin (fun _ => false) shipped_dash false) (repeat false 8)) 0.

(** Work of the state manager or the throttle task; a call made for the PC (frame
    or terminal line), with the answer of the vehicle-state mutex; an activation of
    the watchdog task; the PC task toggles its debug pin (pcinterface.c:79). *)
Inductive car_event :=
| CarEcu (ev : ecu_event)
| CarPc (call : pc_call) (lock : bool)
| CarBlink
| CarDebug.

(** Replaces the pin levels (GPIO_WritePin in system-lib, gpio.c:13-26). No code of
    its own. *)
Definition set_pins (w : pdm_world) (g : gpio) : pdm_world := mkPw g (pw_state w).

(** VehicleControl_SetECUError drives the pin (sdc.c:103-107); Ecu.v keeps its level. *)
Definition with_ecu (k : car) (e : ecu) : car :=
  mkCar e (set_pins (k_out k) (GPIO_WritePin (pw_gpio (k_out k)) car_error_pin (e_pin e))) (k_count k).

(** [None]: an access outside an array. *)
Definition car_step (c : config) (tick : Z) (k : car) (ev : car_event) : option car :=
  match ev with
  | CarEcu x => Some (with_ecu k (ecu_step c tick (k_ecu k) x))
  (** requests.c:42, debugtermcommands.c:130, vehicleControl.c:62-67 *)
  | CarPc (SetECUError on) _ => Some (with_ecu k (ecu_step c tick (k_ecu k) (EvPcEcu on)))
  (** requests.c:66, debugtermcommands.c:98, vehicleControl.c:55-60 *)
  | CarPc (SetPowerChannel ch on) lock =>
      '(w, _) <- PDM_SetOutputEnabled car_pdm (k_out k) ch on lock ;;
      Some (mkCar (k_ecu k) w (k_count k))
  | CarPc (TermRecv _) _ => Some k
  (** watchdogTrigger.c:17-31 *)
  | CarBlink =>
      let w := WatchdogTrigger shipped_blink (mkLed (k_count k) (pw_gpio (k_out k))) in
      Some (mkCar (k_ecu k) (set_pins (k_out k) (lw_pins w)) (lw_counter w))
  | CarDebug =>
      Some (mkCar (k_ecu k) (set_pins (k_out k) (GPIO_TogglePin (pw_gpio (k_out k)) car_debug_pin))
                  (k_count k))
  end.

(** A history of events. No code of its own (drives stateMachine.c:187-238,
    pdm.c:37-57, watchdogTrigger.c:17-31). *)
Fixpoint car_from (c : config) (tick : Z) (k : car) (es : list car_event) : option car :=
  match es with
  | [] => Some k
  | ev :: es => k' <- car_step c tick k ev ;; car_from c tick k' es
  end.
(** The same from the start (initialize.c:225-420). *)
Definition car_run (c : config) (tick : Z) (m0 : vsm) (es : list car_event) : option car :=
  car_from c tick (car_init m0) es.
