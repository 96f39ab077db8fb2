(** The state-manager task (vehicleLogic/stateManager), the throttle task
    (vehicleLogic/throttleController), the inverter command path and the ECU
    error output running together, for every schedule.

    One event is one uninterruptible piece of work. The two tasks have the same
    priority (3: vehicleStateManager.h:33, throttleController.h:35) and the
    kernel time-slices between them (FreeRTOSConfig.h:58, FreeRTOS.h:777-778),
    so any order of events is possible. *)
From Verif.Model Require Export StateMachine Throttle InverterCmd.

(** Where the throttle task is inside throttleController.c:43-65. *)
Inductive thr_pc :=
| TIdle                              (* line 46: waiting for its notification *)
| TPedal (accel : f32)               (* line 57: pedal read, [enabled] not yet *)
| TOn (accel : f32)                  (* line 28: saw [enabled] true *)
| TTorque (torque : f32)             (* line 60: magnitude known *)
| TRequest (torque : f32) (dir : Z). (* inside VehicleControl_RequestMotorTorque *)

(** [e_vsm]: the machine as last committed (stateMachine.c:233-236).
    [e_pend]: a control step under way: the calls it has still to make and the
    machine it will commit. [e_pin]: level of the ECU error output.
    [e_sent]: every frame handed to the CAN driver, oldest first.
    [e_bad]: an undefined float conversion was executed.
    [e_from], [e_since] are observers only: the state held before the last change
    of state, and how many control steps were completed since then. *)
Record ecu := mkEcu {
  e_vsm : vsm; e_pend : option (list vsm_cmd * vsm); e_thr : throttle; e_tpc : thr_pc;
  e_inv : inv_cmd; e_pin : bool; e_sent : list tx; e_bad : bool;
  e_from : vsm_st; e_since : Z }.

(** Power-up: the pin is driven low by main.c:924 and only written again through
    SDC_AssertECUFault. *)
Definition ecu_init (m0 : vsm) : ecu :=
  mkEcu m0 None throttle_init TIdle inv_cmd_init false [] false (vm_state m0) 0.

Inductive ecu_event :=
| EvVsm (i : vsm_in)                       (* the state-manager task starts a step *)
| EvCmd (tlock ilock ok1 ok2 : bool)       (* it makes its next call, or commits *)
| EvPedal (live : option vstate)           (* the throttle task wakes, reads the pedal *)
| EvReadEnabled                            (* ... reads [enabled] *)
| EvReadDir                                (* ... reads [direction], computes *)
| EvReadDir2                               (* ... reads [direction] again *)
| EvRequest (ilock canOk : bool)           (* ... sends the request *)
| EvPcEcu (on : bool).                     (* PC or debug terminal sets the output *)

(** stateMachine.c:193-228: one call made by a handler. ThrottleController_* are
    throttleController.c:117-145; VehicleControl_EnableInverter is
    vehicleControl.c:13-19; VehicleControl_SetECUError is vehicleControl.c:62-67
    and sdc.c:103-107. [tlock], [ilock]: whether the throttle and the inverter
    mutex were obtained; [ok1], [ok2]: whether the CAN driver took the frames. *)
Definition ecu_call (e : ecu) (rest : list vsm_cmd) (m' : vsm) (cmd : vsm_cmd)
           (tlock ilock ok1 ok2 : bool) : ecu :=
  let p := Some (rest, m') in
  match cmd with
  | CmdEcuError on =>
      mkEcu (e_vsm e) p (e_thr e) (e_tpc e) (e_inv e) on (e_sent e) (e_bad e)
            (e_from e) (e_since e)
  | CmdEnableInverter =>
      let r := SendInverterEnabled ilock ok1 ok2 (e_inv e) true in
      mkEcu (e_vsm e) p (e_thr e) (e_tpc e) (ir_cmd r) (e_pin e) (e_sent e ++ ir_tx r)
            (e_bad e) (e_from e) (e_since e)
  | CmdMotorDirection d =>
      mkEcu (e_vsm e) p (fst (SetMotorDirection tlock (e_thr e) d)) (e_tpc e) (e_inv e)
            (e_pin e) (e_sent e) (e_bad e) (e_from e) (e_since e)
  | CmdTorqueEnabled en =>
      mkEcu (e_vsm e) p (fst (SetTorqueEnabled tlock (e_thr e) en)) (e_tpc e) (e_inv e)
            (e_pin e) (e_sent e) (e_bad e) (e_from e) (e_since e)
  end.

(** stateMachine.c:230-236 *)
Definition ecu_commit (e : ecu) (m' : vsm) : ecu :=
  let same := vsm_st_eqb (vm_state (e_vsm e)) (vm_state m') in
  mkEcu m' None (e_thr e) (e_tpc e) (e_inv e) (e_pin e) (e_sent e) (e_bad e)
        (if same then e_from e else vm_state (e_vsm e))
        (if same then e_since e + 1 else 0).

(** The throttle task goes on to another point of throttleController.c:43-66. *)
Definition set_tpc (e : ecu) (pc : thr_pc) : ecu :=
  mkEcu (e_vsm e) (e_pend e) (e_thr e) pc (e_inv e) (e_pin e) (e_sent e) (e_bad e)
        (e_from e) (e_since e).

(** One event; an event that is not possible in the present state does nothing.
    The second read of [direction] in lines 30/32 is taken together with the
    first: only DIR_FORWARD is ever stored there by the state machine. *)
Definition ecu_step (c : config) (tick : Z) (e : ecu) (ev : ecu_event) : ecu :=
  match ev with
  | EvVsm i =>
      match e_pend e with
      | Some _ => e
      | None =>
          let (m', cmds) := vsm_step c tick (e_vsm e) i in
          mkEcu (e_vsm e) (Some (cmds, m')) (e_thr e) (e_tpc e) (e_inv e) (e_pin e)
                (e_sent e) (e_bad e) (e_from e) (e_since e)
      end
  | EvCmd tlock ilock ok1 ok2 =>
      match e_pend e with
      | None => e
      | Some ([], m') => ecu_commit e m'
      | Some (cmd :: rest, m') => ecu_call e rest m' cmd tlock ilock ok1 ok2
      end
  | EvPedal live => match e_tpc e with TIdle => set_tpc e (TPedal (accelOf live)) | _ => e end
  | EvReadEnabled =>
      match e_tpc e with
      | TPedal a =>
          set_tpc e (if th_enabled (e_thr e) then TOn a
                     else TTorque (getTorqueMagnitude (e_thr e) false (th_dir (e_thr e)) a))
      | _ => e
      end
  | EvReadDir =>
      match e_tpc e with
      | TOn a => set_tpc e (TTorque (getTorqueMagnitude (e_thr e) true (th_dir (e_thr e)) a))
      | _ => e
      end
  | EvReadDir2 =>
      match e_tpc e with TTorque q => set_tpc e (TRequest q (th_dir (e_thr e))) | _ => e end
  | EvRequest ilock canOk =>
      match e_tpc e with
      | TRequest q d =>
          match SendTorqueCommand ilock canOk (e_inv e) q d with
          | Some r =>
              mkEcu (e_vsm e) (e_pend e) (e_thr e) TIdle (ir_cmd r) (e_pin e)
                    (e_sent e ++ ir_tx r) (e_bad e) (e_from e) (e_since e)
          | None =>
              mkEcu (e_vsm e) (e_pend e) (e_thr e) TIdle (e_inv e) (e_pin e)
                    (e_sent e) true (e_from e) (e_since e)
          end
      | _ => e
      end
  | EvPcEcu on =>
      mkEcu (e_vsm e) (e_pend e) (e_thr e) (e_tpc e) (e_inv e) on (e_sent e) (e_bad e)
            (e_from e) (e_since e)
  end.

(** A history of events from power-up. No code of its own (drives
    stateMachine.c:187-237, throttleController.c:43-66, cInverter.c:413-486). *)
Definition ecu_run (c : config) (tick : Z) (m0 : vsm) (es : list ecu_event) : ecu :=
  fold_left (ecu_step c tick) es (ecu_init m0).
