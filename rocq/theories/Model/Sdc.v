(** vcu/device/sdc/sdc.c: shutdown-circuit inputs and the ECU error output. *)
From Verif.Base Require Export Words Gpio.
From Verif.Model Require Export VehicleState.

(** The levels at the pins pinBMS, pinBSPD, pinIMD, pinSDCOut; mSDCInputs (29);
    the task's notification count; the place of the task in its copy of
    mSDCInputs (0: waiting at line 34; 1-4: about to copy that member, line 39);
    vehicle.sdc in the vehicle state. *)
Record sdc_world := mkSw {
  sw_pins : sdc_t; sw_inputs : sdc_t; sw_notified : Z; sw_pc : Z; sw_pub : sdc_t }.

(** sdc.c:75-101; the pins are not read here. *)
Definition sdc_init (pins : sdc_t) : sdc_world :=
  mkSw pins (mkSdc false false false false) 0 0 zero_sdc.

(** sdc.c:63-72: (new value, changed). *)
Definition updateSdcInputIRQ (current new : bool) : bool * bool :=
  if negb (Bool.eqb current new) then (new, true) else (current, false).

(** sdc.c:109-123. The handler runs to completion before any task; a level that
    changes while it runs is modelled as changing just after, and raises its own
    interrupt. *)
Definition SDC_IRQHandler (w : sdc_world) : sdc_world :=
  let i := sw_inputs w in
  let p := sw_pins w in
  let (bms, n1) := updateSdcInputIRQ (s_bms i) (s_bms p) in
  let (bspd, n2) := updateSdcInputIRQ (s_bspd i) (s_bspd p) in
  let (imd, n3) := updateSdcInputIRQ (s_imd i) (s_imd p) in
  let (out, n4) := updateSdcInputIRQ (s_out i) (s_out p) in
  let notify := n1 || n2 || n3 || n4 in
  mkSw p (mkSdc bms bspd imd out) (if notify then sw_notified w + 1 else sw_notified w)
       (sw_pc w) (sw_pub w).

(** sdc.c:34-42, one memory access at a time, so that an interrupt can come in
    between. Taking the notification clears the count (pdTRUE). [lock] is the
    answer of VehicleState_AccessAcquire. *)
Definition SDC_TaskStep (w : sdc_world) (lock : bool) : sdc_world :=
  let i := sw_inputs w in
  let p := sw_pub w in
  if sw_pc w =? 0 then
    if sw_notified w >? 0 then
      mkSw (sw_pins w) i 0 (if lock then 1 else 0) p
    else w
  else if sw_pc w =? 1 then
    mkSw (sw_pins w) i (sw_notified w) 2 (mkSdc (s_bms i) (s_bspd p) (s_imd p) (s_out p))
  else if sw_pc w =? 2 then
    mkSw (sw_pins w) i (sw_notified w) 3 (mkSdc (s_bms p) (s_bspd i) (s_imd p) (s_out p))
  else if sw_pc w =? 3 then
    mkSw (sw_pins w) i (sw_notified w) 4 (mkSdc (s_bms p) (s_bspd p) (s_imd i) (s_out p))
  else
    mkSw (sw_pins w) i (sw_notified w) 0 (mkSdc (s_bms p) (s_bspd p) (s_imd p) (s_out i)).

(** sdc.c:31-43 (task) and 109-123 (interrupt); the levels are the environment's. *)
Inductive sdc_event := SdcPins (levels : sdc_t) | SdcIrq | SdcTask (lock : bool).

(** No code of its own; drives sdc.c:31-43, 109-123. *)
Definition sdc_step (w : sdc_world) (e : sdc_event) : sdc_world :=
  match e with
  | SdcPins l => mkSw l (sw_inputs w) (sw_notified w) (sw_pc w) (sw_pub w)
  | SdcIrq => SDC_IRQHandler w
  | SdcTask lock => SDC_TaskStep w lock
  end.

(** A history of these events (sdc.c:31-43, 109-123). *)
Definition sdc_run (w : sdc_world) (tr : list sdc_event) : sdc_world := fold_left sdc_step tr w.

(** sdc.c:103-107 *)
Definition SDC_AssertECUFault (pinECUError : pin) (g : gpio) (fault : bool) : gpio :=
  GPIO_WritePin g pinECUError fault.
