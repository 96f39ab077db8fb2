(** Vocabulary for C95 and C96: what the battery reports on its CAN bus, and how the
    drive reacts to it. *)
From Verif.Model Require Import Reports.
From Verif.Spec Require Import FaultSpec FreshSpec RxSpec InverterSpec EcuSpec VehicleSpec.

(** The message of the battery that carries the quantity of a fault condition. *)
Definition report_id (k : fault_kind) : Z :=
  match k with
  | CellOverTemp | CellOverVoltage => 0x301
  | PackOverCurrent | LowCharge => 0x303
  | _ => -1
  end.

(** Fault conditions on what the battery reports. *)
Definition of_battery (k : fault_kind) : Prop :=
  In k [CellOverTemp; PackOverCurrent; CellOverVoltage; LowCharge].

(** [f] is that message, on the battery's bus and of the right length. *)
Definition is_report (k : fault_kind) (f : can_frame) : Prop :=
  fr_bus f = BMS_BUS /\ fr_id f = report_id k /\ fr_dlc f = 8.

(** The values in [f] meet fault condition [k]. *)
Definition reports_fault (c : config) (k : fault_kind) (f : can_frame) : Prop :=
  forall v, fault_cond c k (set_battery v (battery_after BMS_BUS [(f, true)] (vs_battery v))) = true.

(** The frames the controllers receive in a run. *)
Fixpoint frames_in (tr : list rp_event) : list can_frame :=
  match tr with
  | [] => []
  | RFrame f :: t => f :: frames_in t
  | _ :: t => frames_in t
  end.

(** Those on the battery's bus. *)
Definition on_bms (l : list can_frame) : list can_frame := filter (fun g => fr_bus g =? BMS_BUS) l.

(** Timer ticks in a run. *)
Fixpoint rp_ticks (tr : list rp_event) : Z :=
  match tr with
  | [] => 0
  | RVeh VTick :: t => 1 + rp_ticks t
  | _ :: t => rp_ticks t
  end.

(** The control tasks and the battery task have finished and wait for the timer. *)
Definition rp_idle (s : reports) : Prop :=
  forall t, In t [T_THROTTLE; T_VSM; T_BMS] ->
    f_stage (vh_f (rp_v s)) t = Waiting /\ f_note (vh_f (rp_v s)) t = 0.

(** After [a], during [b], each tick finds these tasks idle. *)
Definition rp_keeps_up (c : config) (tick : Z) (m0 : vsm) (a b : list rp_event) : Prop :=
  forall b1 b2, b = b1 ++ RVeh VTick :: b2 -> rp_idle (rp_run c tick m0 (a ++ b1)).

(** The setters of the throttle controller wait without limit (see [waits]). *)
Definition rp_waits (ev : rp_event) : Prop := match ev with RVeh e => veh_waits e | _ => True end.

(** No command from the PC or the debug terminal sets the error output. *)
Definition rp_no_pc (ev : rp_event) : Prop := match ev with RVeh e => veh_no_pc e | _ => True end.

(** The event puts frame [t] on the list of frames sent. *)
Definition rp_sends (c : config) (tick : Z) (s : reports) (ev : rp_event) (t : tx) : Prop :=
  exists l, e_sent (vh_e (rp_v (rp_step c tick s ev))) = e_sent (vh_e (rp_v s)) ++ l /\ In t l.

(** In the run [tr] the sensing task published the cycle [cy], in an activation
    that began after [n] ticks of the timer. *)
Definition rp_published (c : config) (tick : Z) (m0 : vsm) (tr : list rp_event) (n : Z)
           (cy : ds_cycle) : Prop :=
  exists a b, tr = a ++ b /\ f_last (vh_f (rp_v (rp_run c tick m0 a))) = Some (n, cy).

(** At no point of the run have 2^32 ticks (497 days) passed since the sensing
    task last ran. *)
Definition rp_not_starved (c : config) (tick : Z) (m0 : vsm) (tr : list rp_event) : Prop :=
  forall a b, tr = a ++ b -> f_wait (vh_f (rp_v (rp_run c tick m0 a))) < 4294967296.

(** No frame of the battery arrives: what arrives on its bus has other identifiers. *)
Definition battery_silent (tr : list rp_event) : Prop :=
  forall f, In f (frames_in tr) -> fr_bus f = BMS_BUS ->
    0 <= fr_id f < 0x300 \/ 0x400 <= fr_id f < 0x800.

(** The battery task has handled every frame it was sent. *)
Definition battery_handled (s : reports) : Prop :=
  rp_q s T_BMS = [] /\ f_stage (vh_f (rp_v s)) T_BMS = Waiting.

(** [cy] shows no fault condition of the pedals, and the button is not pressed. *)
Definition cycle_clear (c : config) (cy : ds_cycle) : Prop :=
  cy_button cy = false /\
  forall v k, shows_cycle (ds_from_config c) cy v ->
    In k [AccelRange; AccelDisagree; BrakeRange; PedalAbuse] -> fault_cond c k v = false.
