(** Mutexes and who takes them: every task of the VCU as a program over lock
    operations, run by a preemptive scheduler.

    What a task computes is left out; each decision that depends on data is a
    [Pick]. Waiting for a notification ends a round ([Idle]). Bounded waits on
    queues and streams, and hardware accesses, are [Work]. *)
From Coq Require Export List ZArith Bool Lia.
Export ListNotations.
Open Scope nat_scope.

(** The mutexes: VehicleState_T.mutex (vehicleState.c:27), ThrottleController_T.mutex
    (throttleController.c:121), CInverter_T.commandData.mutex (cInverter.c:422),
    CRC_T.mutex (crc.c:34), Logging_T.mutex (logging.c:32). Each guards the data of
    the structure it is in (CRC_T: the CRC unit). The mutexes of the I2C and SPI
    drivers are in I2c.v and Spi.v; no task of the VCU uses those drivers.
    PCInterface_T.mutex is created and never used. *)
Inductive lock := VS | THR | INV | CRCU | LOG.

(** Equality of the mutexes above. No code of its own (vehicleState.c:27 and the
    others). *)
Definition lock_eqb (a b : lock) : bool :=
  match a, b with
  | VS, VS | THR, THR | INV, INV | CRCU, CRCU | LOG, LOG => true
  | _, _ => false
  end.

(** Take, Give: xSemaphoreTake and xSemaphoreGive, queue.c:1414-1600 and 747-955. *)
Inductive prog :=
| Idle
| Take (l : lock) (forever : bool) (k : bool -> prog)  (* xSemaphoreTake; portMAX_DELAY? *)
| Give (l : lock) (k : prog)                           (* xSemaphoreGive *)
| Touch (l : lock) (k : prog)                          (* one access to the data [l] guards *)
| Work (k : prog)
| Pick (k : nat -> prog).

(** ** The kernel *)
(** What a step shows: the mutex taken, not obtained in time, given
    (queue.c:747-955, 1414-1600), the data used. *)
Inductive obs := Took (l : lock) | Missed (l : lock) | Gave (l : lock) | Accessed (l : lock).

(** [s_owner]: the mutex holder. [s_halt]: a kernel assertion failed. [s_trace]: who
    did what, oldest first. Kernel: queue.c:747-955, 1414-1600. *)
Record sys := mkSys {
  s_prog : list prog; s_owner : lock -> option nat; s_halt : bool;
  s_trace : list (nat * obs) }.

(** The holder changes, queue.c:1466 and tasks.c:4038-4049. *)
Definition upd (o : lock -> option nat) (l : lock) (v : option nat) : lock -> option nat :=
  fun x => if lock_eqb x l then v else o x.

(** Task [i] goes on. No code of its own (the scheduler is tasks.c:2947). *)
Fixpoint set_nth (i : nat) (p : prog) (ps : list prog) : list prog :=
  match ps, i with
  | [], _ => []
  | _ :: t, O => p :: t
  | q :: t, S i => q :: set_nth i p t
  end.

(** One step of task [i]; [n] settles what is left open: the branch of a [Pick],
    and for a mutex that is not free whether a bounded wait ends ([n] > 0).
    queue.c:1414-1600 (xQueueSemaphoreTake): a free mutex is taken; otherwise the
    task waits, for ever with portMAX_DELAY (INCLUDE_vTaskSuspend is 1,
    FreeRTOSConfig.h:89). queue.c:747-955 with prvCopyDataToQueue (2070), tasks.c:4038-4049
    (xTaskPriorityDisinherit): giving a mutex that is free has no effect; giving
    one that another task holds fails configASSERT, which stops the system
    (FreeRTOSConfig.h:122). [bodies]: what each task runs when it is notified. *)
Definition sys_step (bodies : list prog) (s : sys) (e : nat * nat) : sys :=
  let (i, n) := e in
  if s_halt s then s else
  match nth_error (s_prog s) i with
  | None => s
  | Some p =>
      let go q := set_nth i q (s_prog s) in
      let tr o := s_trace s ++ [(i, o)] in
      match p with
      | Idle => mkSys (go (nth i bodies Idle)) (s_owner s) false (s_trace s)
      | Work k => mkSys (go k) (s_owner s) false (s_trace s)
      | Pick k => mkSys (go (k n)) (s_owner s) false (s_trace s)
      | Touch l k => mkSys (go k) (s_owner s) false (tr (Accessed l))
      | Take l forever k =>
          match s_owner s l with
          | None => mkSys (go (k true)) (upd (s_owner s) l (Some i)) false (tr (Took l))
          | Some _ =>
              if negb forever && (0 <? n)
              then mkSys (go (k false)) (s_owner s) false (tr (Missed l))
              else s
          end
      | Give l k =>
          match s_owner s l with
          | None => mkSys (go k) (s_owner s) false (s_trace s)
          | Some j =>
              if j =? i then mkSys (go k) (upd (s_owner s) l None) false (tr (Gave l))
              else mkSys (s_prog s) (s_owner s) true (s_trace s)
          end
      end
  end.

(** All mutexes free after creation (queue.c:473-491), all tasks waiting. *)
Definition sys_init (bodies : list prog) : sys :=
  mkSys (map (fun _ => Idle) bodies) (fun _ => None) false [].

(** A schedule. No code of its own (the scheduler is tasks.c:2947). *)
Definition sys_run (bodies : list prog) (sch : list (nat * nat)) : sys :=
  fold_left (sys_step bodies) sch (sys_init bodies).

(** ** Notation for bodies *)
(** A decision that depends on data, e.g. cInverter.c:428. *)
Definition either (a b : prog) : prog := Pick (fun n => match n with O => a | S _ => b end).
(** A loop that is left after any number of turns. E.g. cInverter.c:303. *)
Definition loop (body : prog -> prog) (k : prog) : prog := Pick (fun n => Nat.iter n body k).
(** [n] accesses in a row. E.g. cInverter.c:70-73. *)
Definition touches (l : lock) (n : nat) (k : prog) : prog := Nat.iter n (Touch l) k.

(** ** The functions that use a mutex *)

(** vehicleState.c:35-46; the memcpy as one access per member of the structure. *)
Definition CopyState (k : bool -> prog) : prog :=
  Take VS true (fun ok => if ok then touches VS 7 (Give VS (k true)) else k false).

(** "if (acquire) { n accesses }; release": bms, inverter, gps, discretesense and
    stateMachine.c:44-48, 85-89, 116-120, 144-148. *)
Definition update_release (n : nat) (k : bool -> prog) : prog :=
  Take VS true (fun ok => if ok then touches VS n (Give VS (k true)) else Give VS (k false)).

(** "if (acquire) { n accesses; release }": throttleController.c:50-54, sdc.c:38-41,
    wheelspeed.c:134-137, pdm.c:47-51. *)
Definition update_if (n : nat) (k : bool -> prog) : prog :=
  Take VS true (fun ok => if ok then touches VS n (Give VS (k true)) else k false).

(** logging.c:70-91: the two flags, the stream handle and the stream. *)
Definition Log_Print (k : prog) : prog :=
  Take LOG false (fun ok => if ok then touches LOG 4 (Give LOG k) else k).
(** logging.c:41-53 *)
Definition Log_SetSerialStream (k : prog) : prog :=
  Take LOG false (fun ok => if ok then touches LOG 2 (Give LOG k) else k).
(** crc.c:27-44; the time limit is that of the callers (msgframeencode.c:53-58, msgframedecode.c:34-39). *)
Definition CRC_Calculate (k : prog) : prog :=
  Take CRCU false (fun ok => if ok then Touch CRCU (Give CRCU k) else k).

(** throttleController.c:117-130, 132-145 *)
Definition SetTorqueEnabled (k : prog) : prog :=
  Take THR true (fun ok => if ok then Touch THR (Give THR k) else k).
(** throttleController.c:132-145 *)
Definition SetMotorDirection (k : prog) : prog :=
  Take THR true (fun ok => if ok then Touch THR (Give THR k) else k).

(** can.c:302-344: at most 10 ticks. *)
Definition CAN_SendMessage (k : prog) : prog := Work k.

(** cInverter.c:413-444 *)
Definition SendTorqueCommand (k : prog) : prog :=
  either k
    (Take INV true (fun ok =>
       if ok then Touch INV (either (Give INV k) (CAN_SendMessage (Give INV k))) else k)).
(** cInverter.c:446-486 *)
Definition SendInverterEnabled (k : prog) : prog :=
  Take INV true (fun ok =>
    if ok then
      Touch INV (either (Give INV k)
        (Touch INV (either (CAN_SendMessage (Touch INV (CAN_SendMessage (Give INV k))))
                           (Touch INV (CAN_SendMessage (Give INV k))))))
    else k).
(** pdm.c:37-57 *)
Definition SetOutputEnabled (k : prog) : prog :=
  either k (update_if 1 (fun ok => if ok then Work k else k)).

(** ** The tasks, one round each *)

(** throttleController.c:43-66: [enabled] and [direction] are read without the mutex. *)
Definition throttle_task : prog :=
  update_if 1 (fun _ =>
    Touch THR (either (Touch THR (SendTorqueCommand Idle))
                      (touches THR 3 (SendTorqueCommand Idle)))).

(** stateMachine.c:187-237 with faultManager.c:220-245 *)
Definition sm_task : prog :=
  CopyState (fun _ => Pick (fun st =>
    match st with
    | 0 => Work Idle                                                  (* stateInit *)
    | 1 => Idle                                                       (* stateLvStartup *)
    | 2 => either Idle (update_release 1 (fun _ => either Idle (Work Idle)))  (* stateLvReady *)
    | 3 => either Idle (either Idle (SendInverterEnabled Idle))       (* stateHvActive *)
    | 4 => either Idle (update_release 1 (fun _ => Idle))             (* stateHvCharging *)
    | 5 => either Idle (update_release 1 (fun _ =>
             either Idle (SetMotorDirection (SetTorqueEnabled Idle))))  (* stateActiveNeutral *)
    | 6 => either Idle (update_release 1 (fun _ => either Idle (SetTorqueEnabled Idle)))
                                                                      (* stateActiveForward *)
    | _ => SetMotorDirection (SetTorqueEnabled (Work Idle))           (* stateFault *)
    end)).

(** orionBms.c:145-177: messages that are not known, or of another length, are
    thrown away; the others make 3 or 4 accesses. *)
Definition bms_task : prog :=
  loop (fun k => Pick (fun m => match m with
     | 0 => k | 1 | 2 => update_release 4 (fun _ => k) | _ => update_release 3 (fun _ => k) end)) Idle.

(** cInverter.c:297-350: eleven messages, 1 to 5 accesses each (cInverter.c:54-295). *)
Definition inverter_task : prog :=
  loop (fun k => Pick (fun m => match m with
     | 0 => k | 1 => update_release 1 (fun _ => k) | 2 => update_release 2 (fun _ => k)
     | 3 => update_release 3 (fun _ => k) | 4 => update_release 4 (fun _ => k)
     | _ => update_release 5 (fun _ => k) end)) Idle.

(** sdc.c:32-43 *)
Definition sdc_task : prog := update_if 1 (fun _ => Idle).
(** wheelspeed.c:113-143 *)
Definition wheelspeed_task : prog := either Idle (either Idle (update_if 1 (fun _ => Idle))).
(** gps.c:39-93, 24-37 *)
Definition gps_task : prog :=
  either Idle (loop (fun k => either k (update_release 7 (fun _ => k))) Idle).
(** discretesense.c:17-73: up to 11 accesses, depending on the ADC results. *)
Definition discretesense_task : prog :=
  Pick (fun n => update_release (1 + Nat.min n 10) (fun _ => Idle)).
(** watchdogTrigger.c:17-31 *)
Definition watchdog_task : prog := either Idle (Work Idle).

(** debugtermlib.h:28-59: frame, CRC, two UARTs. *)
Definition DebugPrint (k : prog) : prog := Work (CRC_Calculate (Work k)).
(** debugterm.c:135-157 with debugtermcommands.c:33-135: any sequence of prints,
    output changes and pin writes, a superset of what the commands do. *)
Definition term_commands (k : prog) : prog :=
  loop (fun k => Pick (fun n => match n with
     | 0 => DebugPrint k | 1 => SetOutputEnabled k | _ => Work k end)) k.
(** requests.c:32-72 *)
Definition handleMsgTestSdc (k : prog) : prog := Work (Log_Print k).
(** requests.c:50-72 *)
Definition handleMsgTestPdm (k : prog) : prog :=
  Log_Print (Nat.iter 6 (fun k => SetOutputEnabled (Log_Print k)) k).
(** requests.c:74-118 *)
Definition handleMessage (k : prog) : prog :=
  Pick (fun n => match n with
    | 0 => k | 1 => term_commands k | 2 => handleMsgTestSdc k | _ => handleMsgTestPdm k end).
(** requests.c:120-149 with msgframedecode.c:34: a CRC per candidate frame. *)
Definition HandleRequests (k : prog) : prog :=
  loop (fun k => Work (loop CRC_Calculate (either k (handleMessage k)))) k.
(** periodicupdates.c:168-190, 28-60 *)
Definition HandlePeriodic (k : prog) : prog :=
  either k (CopyState (fun ok =>
    if ok then Nat.iter 11 (fun k => CRC_Calculate (Work (Work k))) k else k)).
(** pcinterface.c:46-68 *)
Definition periodicCanDebug (k : prog) : prog :=
  either k (CAN_SendMessage (either k (either k (Log_Print k)))).
(** pcinterface.c:30-44: the stream is read without the log mutex; FreeRTOS
    allows one reader beside the writer. *)
Definition flushLogMessage (k : prog) : prog :=
  loop (fun k => Work (CRC_Calculate (Work (Work k)))) k.
(** pcinterface.c:70-86 *)
Definition pcinterface_task : prog :=
  HandleRequests (HandlePeriodic (Work (periodicCanDebug (flushLogMessage Idle)))).

(** initialize.c:245-268: log messages and, in pcinterface.c:176, the stream. The
    vehicle state is cleared (vehicleState.c:24) before any task that uses it is
    created; that access is not part of this model. *)
Definition init_task : prog :=
  loop Log_Print (Log_SetSerialStream (loop Log_Print Idle)).

(** Created at the lines listed in EarlyIrq.v for tt_register_stores, at sdc.c:89,
    gps.c:124 and initialize.c:231. *)
Definition tasks : list prog :=
  [throttle_task; sm_task; bms_task; inverter_task; sdc_task; wheelspeed_task;
   gps_task; discretesense_task; watchdog_task; pcinterface_task; init_task].
