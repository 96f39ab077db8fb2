(** The start-up task of vcu/startup/initialize.c with the messages it prints
    (system-lib/logging/logging.c), the tasks it creates, and the scheduler that
    decides when the other tasks get to run. *)
From Coq Require Import String.
From Verif.Base Require Export Words Stream Text.
From Verif.Model Require Export Boot PcPeriodic.
Open Scope Z_scope.

(** ** The log *)
(** logging.c:94-104. [mem]: memory from the pointer on; None: the loop reads
    outside of it. *)
Fixpoint strnlen_from (mem : list Z) (max len : nat) {struct max} : option nat :=
  match max with
  | O => Some len
  | S max => match mem with
             | [] => None
             | c :: mem => if c =? 0 then Some len else strnlen_from mem max (S len)
             end
  end.
(** logging.c:94-104 *)
Definition strnlen (mem : list Z) (max : nat) : option nat := strnlen_from mem max 0.

(** printf("%s"): the string up to its terminator; None: there is none in [mem].
    (Called at logging.c:82.) *)
Fixpoint printf_s (mem : list Z) : option (list Z) :=
  match mem with
  | [] => None
  | c :: mem => if c =? 0 then Some [] else t <- printf_s mem ;; Some (c :: t)
  end.

(** Logging_T (logging.h): the two enable flags, the serial stream, and what has
    gone out on SWO. (logging.h:32-45, logging.c:17-27.) *)
Record logger := mkLogger { lg_serial : bool; lg_swo : bool; lg_stream : list Z; lg_swo_out : list Z }.

(** logging.c:70-91. None: undefined behaviour, or the controller stops. *)
Definition Log_Print_mem (lock : bool) (l : logger) (msg : list Z) : option logger :=
  if negb lock then Some l else
  len <- strnlen msg LOGGING_MAX_MSG_LEN ;;
  swo <- (if lg_swo l then
            if (len =? LOGGING_MAX_MSG_LEN)%nat then Some (line "[Skipping truncated message on SWO]")
            else printf_s msg
          else Some []) ;;
  s <- (if lg_serial l then stream_send_checked LOG_STREAM_CAP (lg_stream l) (firstn len msg)
        else Some (lg_stream l)) ;;
  Some (mkLogger (lg_serial l) (lg_swo l) s (lg_swo_out l ++ swo)).

(** logging.c:30-38, 41-53, 56-67. The stream is the one of pcinterface.c:152-156,
    which is empty when it is created. *)
Definition Log_Init : logger := mkLogger false false [] [].
(** logging.c:41-53 *)
Definition Log_SetSerialStream (lock : bool) (l : logger) : logger :=
  if lock then mkLogger true (lg_swo l) (lg_stream l) (lg_swo_out l) else l.
(** logging.c:56-67 *)
Definition Log_EnableSWO (lock : bool) (l : logger) : logger :=
  if lock then mkLogger (lg_serial l) true (lg_stream l) (lg_swo_out l) else l.

(** ** Tasks and priorities *)
(** initialize.c:231 (start-up task), sdc.c:89, gps.c:124. *)
Definition T_INIT : Z := 0. Definition T_SDC : Z := 9. Definition T_GPS : Z := 10.

(** The priorities asked for: initialize.c:44, pcinterface.h:41, wheelspeed.h:38,
    cInverter.h:24, bms.h:22, discretesense.h:35, watchdogTrigger.h:29,
    throttleController.h:35, vehicleStateManager.h:33, sdc.h:44, gps.h:33. *)
Definition asked_priority (t : Z) : Z :=
  if t =? T_INIT then 15 else if t =? T_PC then 3 else if t =? T_WHEEL then 6
  else if t =? T_INV then 10 else if t =? T_BMS then 10 else if t =? T_SENSE then 10
  else if t =? T_WDT then 8 else if t =? T_THROTTLE then 3 else if t =? T_VSM then 3
  else if t =? T_SDC then 4 else if t =? T_GPS then 4 else 0.

(** FreeRTOSConfig.h:65; tasks.c:921-924: higher ones are cut down. *)
Definition configMAX_PRIORITIES : Z := 7.
(** tasks.c:921-924: the priority the kernel uses. *)
Definition priority (t : Z) : Z :=
  if asked_priority t >=? configMAX_PRIORITIES then configMAX_PRIORITIES - 1 else asked_priority t.

(** ** The start-up task *)
(** What an action of Boot.v does besides: print a text, switch the serial output
    on, create a task (before the next action). (logging.c:70;
    pcinterface.c:175-179; the xTaskCreateStatic calls cited below.) *)
Inductive effect := EText (t : list Z) | ESerial | ECreate (t : Z).

(** An action with its effects if it succeeds and if it is refused. No code of its
    own; an entry of the lists below, which cite the lines. *)
Record act := mkAct { a_do : instr; a_ok : list effect; a_fail : list effect }.

(** An action without further effect; notation for the lists below
    (initialize.c:271-396). *)
Definition q (i : instr) : act := mkAct i [] [].
(** An action that prints a text (Log_Print, logging.c:70); notation for the lists
    below. *)
Definition says (i : instr) (t : list Z) : act := mkAct i [EText t] [].
(** An action before which a task is created (tasks.c, xTaskCreateStatic); notation
    for the lists below. *)
Definition creates (i : instr) (t : Z) : act := mkAct i [ECreate t] [].

(** The methods of Boot.v again, action by action, with the texts of the lines cited
    there. (initialize.c:271-396 calls them.) *)
Definition acts_init (m : modname) : list act :=
  match m with
  | MLog => map q (init_prog MLog)
  | MTimer => says IPrint (line "TaskTimer_Init begin") ::
      map q [IDepend MLog; ITimerClear; ITimerSet; ITimerReady; ICheck; IRegister MTimer] ++
      [says IPrint (line "TaskTimer_Init complete")]
  | MUart => [says IPrint (line "UART_Init begin"); q (IDepend MLog); q (IRegister MUart);
      says IPrint (line "UART_Init complete")]
  (* crc.c:16, 23 *)
  | MCrc => [says IPrint (line "CRC_Init begin"); q (IDepend MLog); q (IRegister MCrc);
      says IPrint (line "complete begin")]
  (* pcinterface.c:143 check, 159-166 task, 169 timer, 175-179 log stream *)
  | MPc => [says IPrint (line "PCInterface_Init begin"); q (IDepend MLog); q (IDepend MUart);
      q (IDepend MTimer); creates ICheck T_PC; q (ITimerTask T_PC); mkAct ICheck [ESerial] [];
      q ICheck; q ICheck; q (IRegister MPc); says IPrint (line "PCInterface_Init complete")]
  | MCan => [says IPrint (line "CAN_Init begin"); q (IDepend MLog); q (IRegister MCan);
      says IPrint (line "CAN_Init complete")]
  (* adc.c:86, 91, 95, 99, 130 *)
  | MAdc => [says IPrint (line "ADC_Init begin"); q (IDepend MLog); q ICheck;
      mkAct ICheck [] [EText (line "ADC_Init number of channels does not match hardware settings")];
      mkAct ICheck [] [EText (line "ADC_Init hardware setting ContinuousConvMode required")];
      mkAct ICheck [] [EText (line "ADC_Init hardware setting DataAlign must be aligned right")];
      q ICheck; q (IRegister MAdc); says IPrint (line "ADC_Init complete")]
  | MState => [says IPrint (line "VehicleState_Init begin"); q (IDepend MTimer); q (IRegister MState);
      says IPrint (line "VehicleState_Init complete")]
  (* gps.c:117 check, which stands here for that of line 138 too, 124-131 task *)
  | MGps => [says IPrint (line "GPS_Init begin"); q (IDepend MLog); q (IDepend MState);
      creates (IDepend MUart) T_GPS; q ICheck; q (IRegister MGps); says IPrint (line "GPS_Init complete")]
  | MWheel => [q (IDepend MLog); says IPrint (line "Wheelspeed_Init begin"); q (IDepend MState);
      creates (IDepend MTimer) T_WHEEL; q (ITimerTask T_WHEEL); q IWheelReady; q (IRegister MWheel);
      says IPrint (line "Wheelspeed_Init complete")]
  | MSdc => [says IPrint (line "SDC_Init begin"); q (IDepend MLog); q (IDepend MState); q ISdcConfig;
      creates ISdcTask T_SDC; q (IRegister MSdc); says IPrint (line "SDC_Init complete")]
  | MPdm => [says IPrint (line "PDM_Init begin"); q (IDepend MLog); q (IDepend MState); q ICheck; q ICheck;
      q (IRegister MPdm); says IPrint (line "PDM_Init complete")]
  | MInv => [says IPrint (line "CInverter_Init begin"); q (IDepend MLog); creates (IDepend MCan) T_INV;
      q (ITimerTask T_INV); q ICheck; q (IRegister MInv); says IPrint (line "CInverter_Init complete")]
  | MBms => [says IPrint (line "BMS_Init begin"); q (IDepend MLog); creates (IDepend MCan) T_BMS;
      q (ITimerTask T_BMS); q ICheck; q (IRegister MBms); says IPrint (line "BMS_Init complete")]
  | MSense => [says IPrint (line "DiscreteSense_Init begin"); q (IDepend MLog); q (IDepend MState);
      q (IDepend MAdc); q (IDepend MTimer); creates ICheck T_SENSE; q (ITimerTask T_SENSE);
      q (IRegister MSense); says IPrint (line "DiscreteSense_Init complete")]
  | MDash => [q (IDepend MLog); q (IDepend MState); says IPrint (line "DashboardOut_Init begin");
      q (IRegister MDash); says IPrint (line "DashboardOut_Init complete")]
  | MControl => [says IPrint (line "VehicleControl_Init begin"); q (IDepend MSdc); q (IDepend MInv);
      q (IDepend MPdm); q (IDepend MDash); q (IRegister MControl);
      says IPrint (line "VehicleControl_Init complete")]
  | MWdt => [says IPrint (line "WatchdogTrigger_Init begin"); q (IDepend MLog);
      creates (IDepend MTimer) T_WDT; q (ITimerTask T_WDT); q (IRegister MWdt);
      says IPrint (line "WatchdogTrigger_Init complete")]
  | MThrottle => [says IPrint (line "ThrottleController_Init begin"); creates (IDepend MTimer) T_THROTTLE;
      q (ITimerTask T_THROTTLE); q (IRegister MThrottle);
      says IPrint (line "ThrottleController_Init complete")]
  (* with stateMachine.c:173, 184 and faultManager.c:200, 218 *)
  | MVsm => [says IPrint (line "VehicleStateManager_Init begin"); q (IDepend MTimer);
      says IPrint (line "VSM_Init begin"); says IPrint (line "FaultManager_Init begin");
      says IPrint (line "FaultManager_Init complete");
      mkAct IPrint [EText (line "VSM_Init complete"); ECreate T_VSM] [];
      q (ITimerTask T_VSM); q (IRegister MVsm); says IPrint (line "VehicleStateManager_Init complete")]
  end.

(** uart.c:168-204; can.c:217-273 *)
Definition acts_uart : list act :=
  [says (IPrintVia MUart) (line "UART_Config begin"); q (IDepend MUart); q ICheck; q ICheck; q ICheck;
   says (IPrintVia MUart) (line "UART_Config complete")].
(** can.c:217-273 *)
Definition acts_can (bus : string) : list act :=
  [says (IPrintVia MCan) (str "CAN_Config begin "); q (IDepend MCan); says (IPrintVia MCan) (line bus);
   q ICheck; q ICheck; q ICheck; says (IPrintVia MCan) (line "CAN_Config complete")].

(** A line of initialize.c: print a message; or call a method and, if it answers
    with an error, stop with the message [err]. (initialize.c:211-225, 245-396.) *)
Inductive bstep := SSay (t : list Z) | SCall (p : list act) (err : list Z).

(** TRY_INIT (initialize.c:211-214): the name of the module is not used. *)
Definition TRY_INIT (p : list act) : bstep := SCall p (line "Watchdog Trigger initialization error").

(** welcomemsg.c:3-15 *)
Definition welcomeMsg : list Z :=
  line "####################################" ++
  line "#     ___                          #" ++
  line "#    /   \                         #" ++
  line "#   |] _ [|           DFEA         #" ++
  line "#   |_/ \_|          RACING        #" ++
  line "#   / \_/ \                        #" ++
  line "#  ||     ||                       #" ++
  line "#  ||     ||      QUACKIN QUICK    #" ++
  line "#   \_____/                        #" ++
  line "#   __   __                        #" ++
  line "#                                  #" ++
  line "####################################".

(** initialize.c:245-268 with 271-396. The first line is Log_Init. *)
Definition init_script : list bstep :=
  [ TRY_INIT (acts_init MLog);
    SSay (line "###### ECU_Init_System ######");
    TRY_INIT (acts_init MTimer); TRY_INIT (acts_init MUart); TRY_INIT acts_uart; TRY_INIT acts_uart;
    TRY_INIT (acts_init MCrc); TRY_INIT (acts_init MPc);
    SSay [NL; NL; NL]; SSay welcomeMsg;
    SSay (line "###### ECU_Init_BoardPeriph ######");
    TRY_INIT (acts_init MCan); TRY_INIT (acts_can "CAN1"); TRY_INIT (acts_can "CAN2"); TRY_INIT (acts_can "CAN3");
    TRY_INIT (acts_init MAdc);
    SSay (line "###### ECU_Init_BoardDevs ######");
    SSay (line "###### ECU_Init_VehicleInterface1 ######");
    TRY_INIT (acts_init MState);
    SCall (map q (call_prog CSetState)) (line "PCInterface_SetVehicleState failed");
    SSay (line "###### ECU_Init_VehicleDevices ######");
    TRY_INIT acts_uart; TRY_INIT (acts_init MGps); TRY_INIT (acts_init MWheel); TRY_INIT (acts_init MSdc);
    TRY_INIT (acts_init MPdm); TRY_INIT (acts_init MInv); TRY_INIT (acts_init MBms);
    TRY_INIT (acts_init MSense); TRY_INIT (acts_init MDash);
    SSay (line "###### ECU_Init_VehicleInterface2 ######");
    TRY_INIT (acts_init MControl);
    SCall (map q (call_prog CSetControl)) (line "PCInterface_SetVehicleControl error");
    SSay (line "###### ECU_Init_VehicleProccesses ######");
    TRY_INIT (acts_init MWdt); TRY_INIT (acts_init MThrottle); TRY_INIT (acts_init MVsm);
    SSay (line "ECU_Init complete"); SSay (line "ECU_Init deleting init task") ].

(** What the start-up task has done so far: the state of Boot.v, the log, every
    message handed to Log_Print, the tasks created. The log mutex is free: until the
    start-up task is deleted no other task prints (only the PC interface task does,
    and C73 shows that it does not run). (initialize.c:245-268.) *)
Record prep := mkPrep { pr_boot : boot; pr_log : logger; pr_said : list (list Z); pr_tasks : list Z }.

(** Log_Print (logging.c:70-91) of a text with its terminator. *)
Definition say (p : prep) (t : list Z) : option prep :=
  l <- Log_Print_mem true (pr_log p) (t ++ [0]) ;;
  Some (mkPrep (pr_boot p) l (pr_said p ++ [t]) (pr_tasks p)).

(** One effect: logging.c:70-91, logging.c:41-53, or xTaskCreateStatic. *)
Definition do_effect (p : option prep) (e : effect) : option prep :=
  p <- p ;;
  match e with
  | EText t => say p t
  | ESerial => Some (mkPrep (pr_boot p) (Log_SetSerialStream true (pr_log p)) (pr_said p) (pr_tasks p))
  | ECreate t => Some (mkPrep (pr_boot p) (pr_log p) (pr_said p) (pr_tasks p ++ [t]))
  end.

(** Update of the part modelled in Boot.v (depends.c, tasktimer.c). *)
Definition with_boot (p : prep) (b : boot) : prep := mkPrep b (pr_log p) (pr_said p) (pr_tasks p).

(** One method: true with the new state, or false if it answered with an error.
    [oracle] answers the checks, as in Boot.v. (TRY_INIT, initialize.c:211-214.) *)
Fixpoint run_acts (p : prep) (oracle : list bool) (acts : list act) : option (bool * prep * list bool) :=
  match acts with
  | [] => Some (true, p, oracle)
  | a :: acts =>
      let '(ok, rest) := match a_do a, oracle with
                         | ICheck, o :: os => (o, os)
                         | _, _ => (true, oracle)
                         end in
      match exec ok (pr_boot p) (a_do a) with
      | Go b => p' <- fold_left do_effect (a_ok a) (Some (with_boot p b)) ;; run_acts p' rest acts
      | Refuse b => p' <- fold_left do_effect (a_fail a) (Some (with_boot p b)) ;; Some (false, p', rest)
      | Crash => None
      end
  end.

(** The start-up task: at a line of the script, in the endless loop of
    ECU_Init_Error (initialize.c:217-225), or deleted (267). *)
Inductive init_task := At (oracle : list bool) (script : list bstep) | Spin | Deleted.

(** One line. The message before Log_Init has run would be undefined behaviour.
    (initialize.c:217-225, 245-268.) *)
Definition init_turn (i : init_task) (p : prep) : option (init_task * prep) :=
  match i with
  | At _ [] => Some (Deleted, p)
  | At os (SSay t :: script) =>
      if bt_log (pr_boot p) then p' <- say p t ;; Some (At os script, p') else None
  | At os (SCall acts err :: script) =>
      '(ok, p', os') <- run_acts p os acts ;;
      if ok then Some (At os' script, p')
      else p1 <- say p' err ;; p2 <- say p1 (line "ECU Failed to initialize") ;; Some (Spin, p2)
  | Spin => Some (Spin, p)
  | Deleted => Some (Deleted, p)
  end.

(** ** The scheduler *)
(** The controller: start-up task, its work, the frame buffer of the PC interface
    task, what left on the serial ports, and which tasks ran, in order.
    (initialize.c:231-241, pcinterface.c:30-44.) *)
Record mcu := mkMcu { mc_init : init_task; mc_prep : prep; mc_buf : list Z;
                      mc_out : list uart_out; mc_ran : list Z }.

(** Before the start-up task has run (initialize.c:228-242). *)
Definition prep_reset : prep := mkPrep boot_reset Log_Init [] [].
(** initialize.c:228-242: the start-up task exists, the scheduler is started. *)
Definition mcu_reset (oracle : list bool) : mcu :=
  mkMcu (At oracle init_script) prep_reset (repeat 0 43) [] [].

(** Which tasks can run at a moment: the start-up task unless deleted (it never
    waits), and of the tasks created so far those in [awake], the ones that do not
    wait for anything. (tasks.c: the ready lists; initialize.c:245-268 calls nothing
    that waits.) *)
Definition ready (m : mcu) (awake : list Z) (t : Z) : bool :=
  if t =? T_INIT then match mc_init m with Deleted => false | _ => true end
  else existsb (Z.eqb t) awake && existsb (Z.eqb t) (pr_tasks (mc_prep m)).

(** The kernel runs a ready task of the highest priority; among equals any of
    them (time slicing, FreeRTOS.h:778, FreeRTOSConfig.h:58). *)
Definition may_run (m : mcu) (awake : list Z) (t : Z) : bool :=
  ready m awake t &&
  forallb (fun u => negb (ready m awake u) || (priority u <=? priority t)) (T_INIT :: awake).

(** A turn. The PC interface task sends the log text (pcinterface.c:30-44); the
    other tasks neither print nor send to the PC. The messages of the PC interface
    task itself are left out. *)
Record mturn := mkTurn { tu_awake : list Z; tu_task : Z; tu_locks : list bool }.

(** A turn of task [tu_task]; ignored when the kernel would not run it
    (tasks.c:2947-3010, vTaskSwitchContext). *)
Definition mcu_step (m : mcu) (u : mturn) : option mcu :=
  if negb (may_run m (tu_awake u) (tu_task u)) then Some m else
  let ran := mc_ran m ++ [tu_task u] in
  if tu_task u =? T_INIT then
    '(i, p) <- init_turn (mc_init m) (mc_prep m) ;;
    Some (mkMcu i p (mc_buf m) (mc_out m) ran)
  else if tu_task u =? T_PC then
    let p := mc_prep m in let l := pr_log p in
    '(b, s, o) <- flushLogMessage 64 (tu_locks u) (mc_buf m) (lg_stream l) ;;
    Some (mkMcu (mc_init m) (mkPrep (pr_boot p) (mkLogger (lg_serial l) (lg_swo l) s (lg_swo_out l))
            (pr_said p) (pr_tasks p)) b (mc_out m ++ o) ran)
  else Some (mkMcu (mc_init m) (mc_prep m) (mc_buf m) (mc_out m) ran).

(** A history of turns. No code of its own. *)
Fixpoint mcu_run (m : mcu) (us : list mturn) : option mcu :=
  match us with
  | [] => Some m
  | u :: us => m' <- mcu_step m u ;; mcu_run m' us
  end.
