(** What a periodic timer service should do (C49), and the blinking LED (C56). *)
From Verif.Model Require Export TaskTimer Watchdog.

(** The service as its users see it: a list of at most 16 tasks, in order of
    registration. There is one frequency, number 0. *)
Fixpoint timer_spec (inst : Z) (tasks : list Z) (es : list tt_event) : list tt_answer :=
  match es with
  | [] => []
  | TtRegister t timer :: es =>
      if timer =? 0 then
        if (length tasks <? 16)%nat then AStatus TT_OK :: timer_spec inst (tasks ++ [t]) es
        else AStatus TT_FULL :: timer_spec inst tasks es
      else AStatus TT_INVALID :: timer_spec inst tasks es
  | TtTick i :: es =>
      AWoken (if i =? inst then tasks else []) :: timer_spec inst tasks es
  end.

(** Registrations name a timer by an unsigned number. *)
Definition timers_unsigned (es : list tt_event) : Prop :=
  forall t k, In (TtRegister t k) es -> 0 <= k.

(** ** LEDs *)
Fixpoint ticks (es : list led_event) : Z :=
  match es with
  | [] => 0
  | LedTick :: es => 1 + ticks es
  | LedDash _ :: es => ticks es
  end.

(** The value last requested for the dashboard, off at first. *)
Definition last_request (es : list led_event) : bool :=
  fold_left (fun on e => match e with LedTick => on | LedDash b => b end) es false.
