(** vehicleLogic/watchdogTrigger/watchdogTrigger.c and
    device/dashboard_output/dashboard_output.c: two users of LED pins. *)
From Verif.Base Require Export Words Gpio.

(** watchdogTrigger.h:36: the counter (uint16_t) and the pin levels. *)
Record led_world := mkLed { lw_counter : Z; lw_pins : gpio }.

(** watchdogTrigger.c:17-31 after a notification; [led] is blinkLED. *)
Definition WatchdogTrigger (led : pin) (w : led_world) : led_world :=
  let c := u16 (lw_counter w + 1) in
  if 100 =? c then mkLed 0 (GPIO_TogglePin (lw_pins w) led) else mkLed c (lw_pins w).

(** watchdogTrigger.c:54 *)
Definition WatchdogTrigger_Init (w : led_world) : led_world := mkLed 0 (lw_pins w).

(** dashboard_output.c:16 *)
Definition DashboardOut_Init (out : pin) (w : led_world) : led_world :=
  mkLed (lw_counter w) (GPIO_WritePin (lw_pins w) out false).

(** dashboard_output.c:23-27 *)
Definition DashboardOut_Set (out : pin) (w : led_world) (on : bool) : led_world :=
  mkLed (lw_counter w) (GPIO_WritePin (lw_pins w) out on).

(** watchdogTrigger.c:17-31, dashboard_output.c:23-27. *)
Inductive led_event := LedTick | LedDash (on : bool).

(** [blink] and [out] are the pins given to the two modules. Drives
    watchdogTrigger.c:17-31 and dashboard_output.c:23-27. *)
Definition led_step (blink out : pin) (w : led_world) (e : led_event) : led_world :=
  match e with
  | LedTick => WatchdogTrigger blink w
  | LedDash on => DashboardOut_Set out w on
  end.

(** A history of these events (watchdogTrigger.c:17-31, dashboard_output.c:23-27).
    *)
Definition led_run (blink out : pin) (w : led_world) (es : list led_event) : led_world :=
  fold_left (led_step blink out) es w.

(** Boot order: dashboard, then watchdog (initialize.c:374, 393). *)
Definition led_boot (out : pin) (g : gpio) : led_world :=
  WatchdogTrigger_Init (DashboardOut_Init out (mkLed 0 g)).

(** STATUS_LED: port A pin 12 (main.h:130-131, deviceMapping.c:35-37). The same
    pin is output_pin (initialize.c:124) and blinkLED (initialize.c:139). *)
Definition Mapping_GPO_LED : pin := (0, 12).
(** initialize.c:139 *)
Definition shipped_blink : pin := Mapping_GPO_LED.
(** initialize.c:124 *)
Definition shipped_dash : pin := Mapping_GPO_LED.
