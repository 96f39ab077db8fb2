(** The sensing task, the kernel and the vehicle-state mutex (Fresh.v) together with
    the state manager, the throttle task and the inverter commands (Ecu.v): the
    two control tasks read the vehicle state inside the mutex, in the activations
    the kernel gives them. *)
From Verif.Base Require Import Words.
From Verif.Model Require Export Fresh Ecu.

(** [vh_read]: the throttle task has read the pedal in its present activation
    (throttleController.c:52). [vh_snap]: the copy of the vehicle state the state
    manager took in its present activation (faultManager.c:225, vehicleState.c:42);
    [vh_live]: what it read in a later access (stateMachine.c:44-48, 85-89, 116-120,
    144-148); [vh_decided]: it has run the handler of the state. *)
Record vehicle := mkVeh {
  vh_f : fresh; vh_e : ecu; vh_read : bool;
  vh_snap : option vstate; vh_live : option vstate; vh_decided : bool }.

(** After initialisation: the vehicle state is all zero (static storage,
    initialize.c:68; vehicleState.c:24-27 only makes the mutex). *)
Definition veh_init (m0 : vsm) : vehicle :=
  mkVeh (fresh_init zero_vstate) (ecu_init m0) false None None false.

Inductive veh_event :=
| VTick                     (* the 100 Hz timer, tasktimer.c:116-124 *)
| VNotify (t : Z)           (* a notification from elsewhere *)
| VRun (t : Z) (a : action) (* a task takes notifications, enters or leaves the mutex, writes *)
| VPedal                    (* the throttle task reads the pedal, throttleController.c:52 *)
| VCopy                     (* the state manager copies the state, vehicleState.c:42 *)
| VLook                     (* it reads the state once more, e.g. stateMachine.c:46 *)
| VDecide                   (* it runs the handler of its state, stateMachine.c:187-228 *)
| VWork (ev : ecu_event).   (* the rest of both activations; the PC sets the output *)

(** In the loop head of the task (throttleController.c:46,
    vehicleStateManager.c:21). *)
Definition is_waiting (g : stage) : bool := match g with Waiting => true | _ => false end.
(** Outside the mutex. (throttleController.c:57-64, stateMachine.c:193-236.) *)
Definition is_running (g : stage) : bool := match g with Running _ => true | _ => false end.
(** Holding the mutex, between vehicleState.c:37 or 51 and 44 or 58. *)
Definition is_inside (g : stage) : bool := match g with Inside _ => true | _ => false end.
(** A value is present. No code of its own (of [vh_snap], vehicleState.c:42). *)
Definition is_some {A} (o : option A) : bool := match o with Some _ => true | None => false end.

(** The order of the steps in one activation. Throttle task
    (throttleController.c:46-64): one access to the vehicle state, in which it reads
    the pedal, and back to the top only when the request was made. State manager
    (vehicleStateManager.c:21-25, stateMachine.c:187-237): the copy first, further
    accesses before the handler is through, back to the top when all its calls
    were made. Neither writes the vehicle state. Other tasks: any order. *)
Definition may (s : vehicle) (t : Z) (a : action) : bool :=
  if t =? T_THROTTLE then
    match a with
    | ACall => negb (vh_read s)
    | AGive => vh_read s
    | ADone => vh_read s && match e_tpc (vh_e s) with TIdle => true | _ => false end
    | AWrite _ => false
    | _ => true
    end
  else if t =? T_VSM then
    match a with
    | ACall => negb (vh_decided s)
    | AGive => is_some (vh_snap s)
    | ADone => vh_decided s && negb (is_some (e_pend (vh_e s)))
    | AWrite _ => false
    | _ => true
    end
  else true.

(** The kernel's part moves on; what a task knew of its activation ends with it
    (local variables: throttleController.c:49, faultManager.c:224). *)
Definition with_f (s : vehicle) (f : fresh) : vehicle :=
  let thr := is_waiting (f_stage f T_THROTTLE) in
  let sm := is_waiting (f_stage f T_VSM) in
  mkVeh f (vh_e s) (if thr then false else vh_read s)
        (if sm then None else vh_snap s) (if sm then None else vh_live s)
        (if sm then false else vh_decided s).

(** The tasks' own work (throttleController.c:57-64, stateMachine.c:193-236). *)
Definition with_e (s : vehicle) (e : ecu) : vehicle :=
  mkVeh (vh_f s) e (vh_read s) (vh_snap s) (vh_live s) (vh_decided s).

(** One event; one that is not possible does nothing. The tasks on the timer are
    notified by it alone (tasktimer.c:116-124). Simplification: the state
    manager's handler is taken together after its accesses, as it makes its calls
    only after the last of them (stateMachine.c:50-56, 91-103, 122-131, 150-158). *)
Definition veh_step (c : config) (tick : Z) (d : ds_scaling) (s : vehicle) (ev : veh_event) : vehicle :=
  let f := vh_f s in
  let thr := f_stage f T_THROTTLE in
  let sm := f_stage f T_VSM in
  match ev with
  | VTick => with_f s (fresh_step d f FTick)
  | VNotify t => if on_timer t then s else with_f s (fresh_step d f (FNotify t))
  | VRun t a => if may s t a then with_f s (fresh_step d f (FRun t a)) else s
  | VPedal =>
      if is_inside thr && kernel_allows f T_THROTTLE && negb (vh_read s) then
        mkVeh f (ecu_step c tick (vh_e s) (EvPedal (Some (f_vs f)))) true
              (vh_snap s) (vh_live s) (vh_decided s)
      else s
  | VCopy =>
      if is_inside sm && kernel_allows f T_VSM && negb (is_some (vh_snap s)) then
        mkVeh f (vh_e s) (vh_read s) (Some (f_vs f)) (vh_live s) (vh_decided s)
      else s
  | VLook =>
      if is_inside sm && kernel_allows f T_VSM && is_some (vh_snap s) then
        mkVeh f (vh_e s) (vh_read s) (vh_snap s) (Some (f_vs f)) (vh_decided s)
      else s
  | VDecide =>
      if is_running sm && kernel_allows f T_VSM && is_some (vh_snap s) && negb (vh_decided s) then
        mkVeh f (ecu_step c tick (vh_e s) (EvVsm (mkVsmIn (vh_snap s) (vh_live s)))) (vh_read s)
              (vh_snap s) (vh_live s) true
      else s
  | VWork ev =>
      let ok :=
        match ev with
        | EvVsm _ | EvPedal _ => false
        | EvReadEnabled | EvReadDir | EvReadDir2 | EvRequest _ _ =>
            is_running thr && kernel_allows f T_THROTTLE && vh_read s
        | EvCmd _ _ _ _ => is_running sm && kernel_allows f T_VSM && vh_decided s
        | EvPcEcu _ => true
        end in
      if ok then with_e s (ecu_step c tick (vh_e s) ev) else s
  end.

(** A history of events. No code of its own (drives tasktimer.c:116-124,
    discretesense.c:20-73, throttleController.c:43-66, stateMachine.c:187-237). *)
Definition veh_run (c : config) (tick : Z) (m0 : vsm) (tr : list veh_event) : vehicle :=
  fold_left (veh_step c tick (ds_from_config c)) tr (veh_init m0).
