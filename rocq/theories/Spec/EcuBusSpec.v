(** What C89 and C90 speak about. *)
From Verif.Model Require Export EcuBus.
From Verif.Spec Require Import InverterSpec EcuSpec CanDriverSpec.

(** A frame as the bus sees it. *)
Definition on_wire (t : tx) : Z * list Z := (tx_id t, tx_data t).
Definition wire (d : CanDriver.can_tx) : list (Z * list Z) :=
  map (fun it => (ti_id it, ti_data it)) (tx_bus d).
Definition bus_of (b : board) : list (Z * list Z) := wire (bd_tx b).

(** The commands the driver took, oldest first. *)
Definition accepted_commands (e : ecu) : list (Z * list Z) := map on_wire (filter tx_ok (e_sent e)).

(** A bus that keeps up: after each piece of work of the processor the frames
    (never more than two) go out before the next one. *)
Definition keeps_up (es : list ecu_event) : list board_event :=
  flat_map (fun ev => [BEcu ev; BStart; BDone true; BStart; BDone true]) es.

(** The same events with every frame taken by the driver. *)
Definition all_taken (ev : ecu_event) : ecu_event :=
  match ev with
  | EvRequest il _ => EvRequest il true
  | EvCmd tl il _ _ => EvCmd tl il true true
  | _ => ev
  end.

(** What the inverter was told last: torque in tenths of a newton metre. *)
Definition told_torque (b : board) : option Z :=
  match rev (bus_of b) with [] => None | (_, d) :: _ => Some (frame_torque d) end.

(** Events of the throttle task. *)
Definition is_throttle (ev : ecu_event) : bool :=
  match ev with EvPedal _ | EvReadEnabled | EvReadDir | EvReadDir2 | EvRequest _ _ => true | _ => false end.

(** The schedule's events of the processor are as in [P]. *)
Definition cpu_events (P : ecu_event -> Prop) (bs : list board_event) : Prop :=
  Forall (fun b => match b with BEcu ev => P ev | _ => True end) bs.
