(** vcu/vehicleLogic/stateManager/stateMachine.{h,c} *)
From Verif.Model Require Export FaultManager.

(** stateMachine.h:20-30 VSM_State_T. The "default" branch of the switch
    (stateMachine.c:226-227) is unreachable: the variable only ever receives
    one of these eight enumerators. *)
Inductive vsm_st :=
  StInit | StFault | StLvStartup | StLvReady
| StHvActive | StHvCharging | StActiveNeutral | StActiveForward.

(** Comparison of two VSM_State_T (stateMachine.c:187-238). *)
Definition vsm_st_eqb (a b : vsm_st) : bool :=
  match a, b with
  | StInit, StInit | StFault, StFault | StLvStartup, StLvStartup
  | StLvReady, StLvReady | StHvActive, StHvActive
  | StHvCharging, StHvCharging | StActiveNeutral, StActiveNeutral
  | StActiveForward, StActiveForward => true
  | _, _ => false
  end.

(** Calls the machine makes on VehicleControl / ThrottleController, in program
    order. Their effects are in Throttle.v, InverterCmd.v, Sdc.v; the machine
    ignores every result (the "TODO check result" comments). *)
Inductive vsm_cmd :=
| CmdEcuError (on : bool)            (* VehicleControl_SetECUError *)
| CmdEnableInverter                  (* VehicleControl_EnableInverter *)
| CmdMotorDirection (d : Z)          (* ThrottleController_SetMotorDirection *)
| CmdTorqueEnabled (en : bool).      (* ThrottleController_SetTorqueEnabled *)

(** stateMachine.h:32-49 (internal fields) *)
Record vsm := mkVsm {
  vm_state : vsm_st; vm_next : vsm_st; vm_ticks : Z; vm_prevBtn : bool;
  vm_fm : fm_state }.

(** What one step observes. [vi_snap]: result of VehicleState_CopyState in the fault
    manager. [vi_live]: the vehicle state under VehicleState_AccessAcquire later in
    the same step, [None] when the lock was not obtained. The two may differ because
    other tasks can run in between. faultManager.c (through stateMachine.c:190) and
    stateMachine.c:33-105. *)
Record vsm_in := mkVsmIn { vi_snap : option vstate; vi_live : option vstate }.

(** The part of the machine a state handler may change, plus the calls made.
    stateMachine.h:32-49. *)
Record hres := mkHres { h_next : vsm_st; h_prev : bool; h_cmds : list vsm_cmd }.

(** The comparison with FAULT_NOFAULT in stateMachine.c:33-170. *)
Definition is_no_fault (f : fault_status) : bool :=
  match f with FS_NoFault => true | _ => false end.

(** stateMachine.c:15-22 *)
Definition stateInit (m : vsm) : hres :=
  mkHres StLvStartup (vm_prevBtn m) [CmdEcuError true].

(** stateMachine.c:24-31 *)
Definition stateLvStartup (m : vsm) (f : fault_status) : hres :=
  mkHres (match f with
          | FS_Fault => StFault
          | FS_NoFault => StLvReady
          | FS_LvError => vm_next m
          end) (vm_prevBtn m) [].

(** stateMachine.c:33-58 *)
Definition stateLvReady (m : vsm) (f : fault_status) (live : option vstate) : hres :=
  if is_no_fault f then
    match live with
    | Some d =>
        let btn := d_buttonPressed (vs_dash d) in
        if btn && negb (vm_prevBtn m)
        then mkHres StHvActive btn [CmdEcuError false]
        else mkHres (vm_next m) btn []
    | None => mkHres (vm_next m) (vm_prevBtn m) []
    end
  else mkHres StFault (vm_prevBtn m) [].

(** tickRateMs * ticksInState in uint32_t: stateMachine.c:68, 98 *)
Definition stateMs (tick : Z) (m : vsm) : Z := u32 (tick * vm_ticks m).

(** stateMachine.c:60-74 *)
Definition stateHvActive (c : config) (tick : Z) (m : vsm) (f : fault_status) : hres :=
  if is_no_fault f then
    if stateMs tick m >=? cf_hvActiveStateWait c
    then mkHres StHvCharging (vm_prevBtn m) [CmdEnableInverter]
    else mkHres (vm_next m) (vm_prevBtn m) []
  else mkHres StFault (vm_prevBtn m) [].

(** stateMachine.c:76-105 *)
Definition stateHvCharging (c : config) (tick : Z) (m : vsm) (f : fault_status)
           (live : option vstate) : hres :=
  if is_no_fault f then
    match live with
    | Some d =>
        if v_vsmState (vs_inverter d) =? INV_VSM_READY
        then mkHres StActiveNeutral (vm_prevBtn m) []
        else if stateMs tick m >? cf_hvChargeTimeout c
        then mkHres StFault (vm_prevBtn m) []
        else mkHres (vm_next m) (vm_prevBtn m) []
    | None => mkHres (vm_next m) (vm_prevBtn m) []
    end
  else mkHres StFault (vm_prevBtn m) [].

(** stateMachine.c:107-133 *)
Definition stateActiveNeutral (m : vsm) (f : fault_status) (live : option vstate) : hres :=
  if is_no_fault f then
    match live with
    | Some d =>
        let btn := d_buttonPressed (vs_dash d) in
        if btn && negb (vm_prevBtn m)
        then mkHres StActiveForward btn
                    [CmdMotorDirection DIR_FORWARD; CmdTorqueEnabled true]
        else mkHres (vm_next m) btn []
    | None => mkHres (vm_next m) (vm_prevBtn m) []
    end
  else mkHres StFault (vm_prevBtn m) [].

(** stateMachine.c:135-160 *)
Definition stateActiveForward (m : vsm) (f : fault_status) (live : option vstate) : hres :=
  if is_no_fault f then
    match live with
    | Some d =>
        let btn := d_buttonPressed (vs_dash d) in
        if btn && negb (vm_prevBtn m)
        then mkHres StActiveNeutral btn [CmdTorqueEnabled false]
        else mkHres (vm_next m) btn []
    | None => mkHres (vm_next m) (vm_prevBtn m) []
    end
  else mkHres StFault (vm_prevBtn m) [].

(** stateMachine.c:162-167 *)
Definition stateFault (m : vsm) : hres :=
  mkHres (vm_next m) (vm_prevBtn m)
         [CmdMotorDirection DIR_FORWARD; CmdTorqueEnabled false; CmdEcuError true].

(** stateMachine.c:170-185; [None]: division by zero in the fault manager. *)
Definition vsm_init (c : config) (tick : Z) : option vsm :=
  match fm_init c tick with
  | Some fm => Some (mkVsm StInit StInit 0 false fm)
  | None => None
  end.

(** stateMachine.c:193-228, the switch *)
Definition vsm_handle (c : config) (tick : Z) (m : vsm) (f : fault_status)
           (live : option vstate) : hres :=
  match vm_state m with
  | StInit => stateInit m
  | StLvStartup => stateLvStartup m f
  | StLvReady => stateLvReady m f live
  | StHvActive => stateHvActive c tick m f
  | StHvCharging => stateHvCharging c tick m f live
  | StActiveNeutral => stateActiveNeutral m f live
  | StActiveForward => stateActiveForward m f live
  | StFault => stateFault m
  end.

(** stateMachine.c:187-237 *)
Definition vsm_step (c : config) (tick : Z) (m : vsm) (i : vsm_in)
  : vsm * list vsm_cmd :=
  let '(fm, f) := fm_step c (vm_fm m) (vi_snap i) in
  let h := vsm_handle c tick m f (vi_live i) in
  let t := u32 (vm_ticks m + 1) in
  let changed := negb (vsm_st_eqb (vm_state m) (h_next h)) in
  (mkVsm (if changed then h_next h else vm_state m) (h_next h)
         (if changed then 0 else t) (h_prev h) fm, h_cmds h).

(** A history of steps from a given machine. Drives stateMachine.c:187-238. *)
Fixpoint vsm_run (c : config) (tick : Z) (m : vsm) (h : list vsm_in) : vsm :=
  match h with
  | [] => m
  | i :: t => vsm_run c tick (fst (vsm_step c tick m i)) t
  end.
