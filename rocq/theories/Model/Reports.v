(** The receiving side of the CAN buses joined to Vehicle.v: the receive interrupt
    fills the queues of the battery and the inverter task; these tasks empty their
    queue in the activations the kernel gives them and write what the frames say
    into the vehicle state, inside its mutex. *)
From Verif.Base Require Import Words.
From Verif.Model Require Export Vehicle CanDriver Bms InverterRx.

(** deviceMapping.h:75, CAN_DEV2 of can.h:18-24 *)
Definition BMS_BUS : Z := 1.
(** deviceMapping.h:80, CAN_DEV1 of can.h:18-24 *)
Definition INVERTER_BUS : Z := 0.
(** orionBmsCAN.h:13 *)
Definition BMS_CAN_DEVICEID : Z := 0x300.
(** cInverter.h:28 *)
Definition INVERTER_CAN_DEVICEID : Z := 0.
(** orionBmsCAN.h:14, cInverter.h:29 *)
Definition DEVICEIDMASK : Z := 0xF00.
(** bms.h:23, cInverter.h:25 *)
Definition RX_QUEUE_LENGTH : nat := 256.

(** The tasks that receive frames: orionBms.c:145-177, cInverter.c:297-348. *)
Definition is_rx_task (t : Z) : bool := (t =? T_BMS) || (t =? T_INV).

(** The bus given to the task's device, initialize.c:106, 110. *)
Definition rx_bus (t : Z) : Z := if t =? T_BMS then BMS_BUS else INVERTER_BUS.

(** The interrupt puts the frame into the queue of task [t]: registrations of
    orionBms.c:222-226 and cInverter.c:399-403, test of can.c:101-103. *)
Definition rx_accepts (t : Z) (f : can_frame) : bool :=
  (fr_bus f =? rx_bus t) &&
  (Z.land (fr_id f) DEVICEIDMASK =? (if t =? T_BMS then BMS_CAN_DEVICEID else INVERTER_CAN_DEVICEID)).

(** The messages with a handler: orionBms.c:158-170, cInverter.c:309-342. *)
Definition rx_ids (t : Z) : list Z :=
  if t =? T_BMS
  then [BMS_CAN_ID_MAXCELLSTATE; BMS_CAN_ID_MINCELLSTATE; BMS_CAN_ID_PACKSTATE; BMS_CAN_ID_STATUS]
  else [CINVERTER_CAN_ID_TEMPERATURES1; CINVERTER_CAN_ID_TEMPERATURES2; CINVERTER_CAN_ID_TEMPERATURES3;
        CINVERTER_CAN_ID_MOTOR_POS_INFO; CINVERTER_CAN_ID_CURRENT_INFO; CINVERTER_CAN_ID_VOLTAGE_INFO;
        CINVERTER_CAN_ID_FLUX_INFO; CINVERTER_CAN_ID_INTERNAL_STATES; CINVERTER_CAN_ID_FAULT_CODES;
        CINVERTER_CAN_ID_TORQUE_TIMER; CINVERTER_CAN_ID_FLUX_WEAKENING].

(** The frame leads to an access to the vehicle state: right bus, known message,
    eight bytes. orionBms.c:153-170 and e.g. 31; cInverter.c:304-342 and e.g. 56. *)
Definition rx_writes (t : Z) (f : can_frame) : bool :=
  (fr_bus f =? rx_bus t) && existsb (Z.eqb (fr_id f)) (rx_ids t) && (fr_dlc f =? 8).

(** What that access writes: orionBms.c:29-143, cInverter.c:54-295. The mutex is
    waited for without limit (vehicleState.c:51). *)
Definition rx_apply (t : Z) (f : can_frame) (v : vstate) : vstate :=
  if t =? T_BMS then bms_handle (rx_bus t) v (f, true) else inv_handle (rx_bus t) v (f, true).

(** Where a receiving task is inside its loop (orionBms.c:152-174,
    cInverter.c:303-346): at xQueueReceive; with a frame to write; the frame is
    written; the queue was empty. *)
Inductive rx_pc := RxLoop | RxGot (f : can_frame) | RxWrote | RxEmpty.

(** [rp_q]: the receive queues by task (bms.h:38-41, cInverter.h:55-58); [rp_pc]:
    the two loops. *)
Record reports := mkRp { rp_v : vehicle; rp_q : Z -> list can_frame; rp_pc : Z -> rx_pc }.

(** After initialisation the queues are empty (orionBms.c:199-203,
    cInverter.c:372-376). *)
Definition rp_init (m0 : vsm) : reports := mkRp (veh_init m0) (fun _ => []) (fun _ => RxLoop).

(** Events. An event of Vehicle.v; the receive interrupt takes one frame with a
    standard identifier out of the controller (can.c:88-111); a receiving task calls
    xQueueReceive (orionBms.c:152, cInverter.c:303); it writes the fields of the
    frame (orionBms.c:47-143, cInverter.c:69-295). *)
Inductive rp_event :=
| RVeh (ev : veh_event)
| RFrame (f : can_frame)
| RReceive (t : Z)
| RWrite (t : Z).

(** The order of the steps of a receiving task: it asks for the mutex with a frame
    in hand, leaves it when the fields are written, and goes back to the top when
    the queue was empty (orionBms.c:152-174, cInverter.c:303-346). *)
Definition rx_may (pc : rx_pc) (a : action) : bool :=
  match a, pc with
  | ACall, RxGot _ => true
  | AGive, RxWrote => true
  | ADone, RxEmpty => true
  | ACall, _ | AGive, _ | ADone, _ | AWrite _, _ => false
  | _, _ => true
  end.

(** The other tasks write neither the battery nor the motor nor the inverter: the
    only writers of those are orionBms.c:47-143 and cInverter.c:69-295. *)
Definition keep_reports (v old : vstate) : vstate :=
  set_inverter (set_motor (set_battery v (vs_battery old)) (vs_motor old)) (vs_inverter old).

(** The vehicle moves on (Vehicle.v, which cites stateMachine.c:187-237 and
    throttleController.c:43-66). *)
Definition rp_veh (c : config) (tick : Z) (s : reports) (ev : veh_event) (pc : Z -> rx_pc) : reports :=
  mkRp (veh_step c tick (ds_from_config c) (rp_v s) ev) (rp_q s) pc.

(** The task leaves the mutex or goes back to the top of its loop; both take effect
    only where act_step allows them (orionBms.c:152-174, cInverter.c:303-346). *)
Definition rx_after (s : reports) (t : Z) (a : action) : rx_pc :=
  let f := vh_f (rp_v s) in
  if kernel_allows f t then
    match a, f_stage f t with
    | AGive, Inside _ => RxLoop
    | ADone, Running _ => RxLoop
    | _, _ => rp_pc s t
    end
  else rp_pc s t.

(** One event; one that is not possible does nothing. can.c:99-110 for the frame:
    a full queue drops it. *)
Definition rp_step (c : config) (tick : Z) (s : reports) (ev : rp_event) : reports :=
  let f := vh_f (rp_v s) in
  match ev with
  | RVeh (VRun t a) =>
      if is_rx_task t then
        if rx_may (rp_pc s t) a
        then rp_veh c tick s (VRun t a) (put (rp_pc s) t (rx_after s t a))
        else s
      else
        let a' := match a with AWrite v => AWrite (keep_reports v (f_vs f)) | _ => a end in
        rp_veh c tick s (VRun t a') (rp_pc s)
  | RVeh ev => rp_veh c tick s ev (rp_pc s)
  | RFrame fr =>
      mkRp (rp_v s)
           (fun t => if is_rx_task t && rx_accepts t fr
                     then queue_push RX_QUEUE_LENGTH (rp_q s t) fr else rp_q s t)
           (rp_pc s)
  | RReceive t =>
      if is_rx_task t && is_running (f_stage f t) && kernel_allows f t then
        match rp_pc s t, rp_q s t with
        | RxLoop, [] => mkRp (rp_v s) (rp_q s) (put (rp_pc s) t RxEmpty)
        | RxLoop, fr :: q =>
            mkRp (rp_v s) (put (rp_q s) t q)
                 (put (rp_pc s) t (if rx_writes t fr then RxGot fr else RxLoop))
        | _, _ => s
        end
      else s
  | RWrite t =>
      if is_rx_task t && is_inside (f_stage f t) && kernel_allows f t then
        match rp_pc s t with
        | RxGot fr => rp_veh c tick s (VRun t (AWrite (rx_apply t fr (f_vs f)))) (put (rp_pc s) t RxWrote)
        | _ => s
        end
      else s
  end.

(** A history of events. No code of its own (drives can.c:88-111,
    orionBms.c:145-177, cInverter.c:297-348 and Vehicle.v). *)
Definition rp_run (c : config) (tick : Z) (m0 : vsm) (tr : list rp_event) : reports :=
  fold_left (rp_step c tick) tr (rp_init m0).
