(** Vocabulary for C103: one torque command in each period of the timer. *)
From Verif.Model Require Import Vehicle.
From Verif.Spec Require Import InverterSpec EcuSpec VehicleSpec.

(** The frames that the event [ev] hands to the CAN driver. *)
Definition handed (c : config) (tick : Z) (s : vehicle) (ev : veh_event) : list tx :=
  skipn (length (e_sent (vh_e s))) (e_sent (vh_e (veh_step c tick (ds_from_config c) s ev))).

(** The event is a torque request of the throttle task. *)
Definition is_request (ev : veh_event) : bool :=
  match ev with VWork (EvRequest _ _) => true | _ => false end.

(** The frames of the torque requests in the events [b], from the state [s]. *)
Fixpoint commands_from (c : config) (tick : Z) (s : vehicle) (b : list veh_event) : list tx :=
  match b with
  | [] => []
  | ev :: t =>
      (if is_request ev then handed c tick s ev else []) ++
      commands_from c tick (veh_step c tick (ds_from_config c) s ev) t
  end.

(** The same, after the run [a]. *)
Definition commands (c : config) (tick : Z) (m0 : vsm) (a b : list veh_event) : list tx :=
  commands_from c tick (veh_run c tick m0 a) b.

(** The inverter has been sent a frame that enables it. *)
Definition switched_on (s : vehicle) : Prop :=
  exists t, In t (e_sent (vh_e s)) /\ frame_enable (tx_data t) = true.

(** The throttle task waits for the timer. *)
Definition thr_idle (s : vehicle) : Prop :=
  f_stage (vh_f s) T_THROTTLE = Waiting /\ f_note (vh_f s) T_THROTTLE = 0.

(** After [a], during [b], the throttle task has finished whenever the timer ticks,
    and at both ends. *)
Definition thr_on_time (c : config) (tick : Z) (m0 : vsm) (a b : list veh_event) : Prop :=
  thr_idle (veh_run c tick m0 a) /\ thr_idle (veh_run c tick m0 (a ++ b)) /\
  forall b1 b2, b = b1 ++ VTick :: b2 -> thr_idle (veh_run c tick m0 (a ++ b1)).

(** A request waits for the mutex of the inverter commands without limit
    (cInverter.c:422), so it obtains it. *)
Definition request_waits (ev : veh_event) : Prop :=
  match ev with VWork (EvRequest lock _) => lock = true | _ => True end.

(** A command frame that keeps the inverter enabled, asks for 0 to 500 Nm forward
    and does not discharge it. *)
Definition keeps_on (t : tx) : Prop :=
  tx_id t = 0x0C0 /\ frame_enable (tx_data t) = true /\ frame_discharge (tx_data t) = false /\
  frame_direction (tx_data t) = DIR_FORWARD /\ 0 <= frame_torque (tx_data t) <= 5000.

(** The CAN driver takes the frames of the event. *)
Definition all_accepted (ev : veh_event) : Prop :=
  match ev with
  | VWork (EvRequest _ ok) => ok = true
  | VWork (EvCmd _ _ ok1 ok2) => ok1 = true /\ ok2 = true
  | _ => True
  end.
