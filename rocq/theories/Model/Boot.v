(** system-lib/depends/depends.c and the boot sequence of
    vcu/startup/initialize.c: registration of modules, their initialisation
    methods as far as dependencies, logging, the task timer and interrupts are
    concerned, and the shipped order. *)
From Verif.Base Require Export Words Mem.
From Verif.Model Require Export TaskTimer FaultManager.

(** One name per registered object (each is a static object of initialize.c or a
    static module). (initialize.c:54-151; static modules: tasktimer.c, uart.c,
    can.c, adc.c with REGISTERED_MODULE_STATIC_DEF, depends.h:34.) *)
Inductive modname :=
| MLog | MTimer | MUart | MCrc | MPc | MCan | MAdc | MState | MGps | MWheel | MSdc
| MPdm | MInv | MBms | MSense | MDash | MControl | MWdt | MThrottle | MVsm.

(** Comparison of names; no code. Objects are told apart by their compRegId
    (depends.h:22). *)
Definition mod_eqb (a b : modname) : bool :=
  match a, b with
  | MLog, MLog | MTimer, MTimer | MUart, MUart | MCrc, MCrc | MPc, MPc | MCan, MCan
  | MAdc, MAdc | MState, MState | MGps, MGps | MWheel, MWheel | MSdc, MSdc | MPdm, MPdm
  | MInv, MInv | MBms, MBms | MSense, MSense | MDash, MDash | MControl, MControl
  | MWdt, MWdt | MThrottle, MThrottle | MVsm, MVsm => true
  | _, _ => false
  end.

(** nModules (depends.c:12); compRegId of every object, zero at first (static
    storage); whether the logger's mutex exists; the task timer; whether SDC's
    mConfig and task handle are set; isInitialized of the wheel-speed sensor;
    the pointer the fault manager reads the vehicle state through
    (faultManager.h:44), None = NULL; the level of the ECU error output
    (main.c:924 drives it low before ECU_Init). *)
Record boot := mkBoot {
  bt_n : Z; bt_ids : modname -> Z; bt_log : bool; bt_timer : tasktimer;
  bt_sdc_cfg : bool; bt_sdc_task : bool; bt_wheel : bool;
  bt_fault_data : option modname; bt_ecu_error : bool }.

(** At reset: nModules is 1 (depends.c:12), static storage is zero
    (initialize.c:54-151). *)
Definition boot_reset : boot :=
  mkBoot 1 (fun _ => 0) false tt_zero false false false None false.

(** depends.c:14-23 for a valid pointer; the counter is a uint32_t. *)
Definition RegisterModule (b : boot) (m : modname) : boot :=
  mkBoot (u32 (bt_n b + 1)) (fun x => if mod_eqb x m then bt_n b else bt_ids b x)
    (bt_log b) (bt_timer b) (bt_sdc_cfg b) (bt_sdc_task b) (bt_wheel b) (bt_fault_data b) (bt_ecu_error b).

(** depends.c:25-34 *)
Definition DependOn (b : boot) (m : modname) : bool :=
  (bt_ids b m >? 0) && (bt_ids b m <? bt_n b).

(** Update of the task timer's variables (tasktimer.c:20-38). *)
Definition with_timer (b : boot) (t : tasktimer) : boot :=
  mkBoot (bt_n b) (bt_ids b) (bt_log b) t (bt_sdc_cfg b) (bt_sdc_task b) (bt_wheel b) (bt_fault_data b) (bt_ecu_error b).

(** The observable actions of an initialisation method. *)
Inductive instr :=
| ILogMutex                (* logging.c:32 *)
| IPrint                   (* Log_Print, logging.c:70-91 *)
| IPrintVia (m : modname)  (* Log_Print through the logger pointer stored by m's init *)
| IDepend (m : modname)    (* DEPEND_ON / DEPEND_ON_STATIC, depends.h:67-85 *)
| ICheck                   (* a HAL call or configuration test that may fail *)
| ITimerClear | ITimerSet | ITimerReady   (* tasktimer.c:49-53 *)
| ITimerTask (task : Z)    (* TaskTimer_RegisterTask of a task created just before *)
| ISdcConfig | ISdcTask    (* sdc.c:86, 89-96 *)
| IWheelReady              (* wheelspeed.c:195 *)
| IRegister (m : modname). (* REGISTER / REGISTER_STATIC, depends.h:43-58 *)

(** timer instance 100 Hz: htim2 (deviceMapping.h:129) *)
Definition TIMER_100HZ : Z := 2.

(** Outcome of one action: go on, return an error, or undefined behaviour. DEPEND_ON
    and REGISTER return the error of their caller (depends.h:43-85). *)
Inductive outcome := Go (b : boot) | Refuse (b : boot) | Crash.

(** [ok] answers the ICheck actions. Log_Print dereferences the logger and takes its
    mutex: undefined unless Log_Init has created it. A task timer registration
    checks DEPEND_ON_STATIC(TASKTIMER). The pointer of IPrintVia is NULL until the
    init method ran; since the boot stops at the first refusal, that is the same as
    not being registered. (depends.c:14-34, logging.c:70-91, tasktimer.c:41-98.) *)
Definition exec (ok : bool) (b : boot) (i : instr) : outcome :=
  match i with
  | ILogMutex => Go (mkBoot (bt_n b) (bt_ids b) true (bt_timer b) (bt_sdc_cfg b) (bt_sdc_task b) (bt_wheel b) (bt_fault_data b) (bt_ecu_error b))
  | IPrint => if bt_log b then Go b else Crash
  | IPrintVia m => if bt_log b && negb (bt_ids b m =? 0) then Go b else Crash
  | IDepend m => if DependOn b m then Go b else Refuse b
  | ICheck => if ok then Go b else Refuse b
  | ITimerClear => Go (with_timer b (tt_clear (bt_timer b)))
  | ITimerSet => Go (with_timer b (tt_set_timer (bt_timer b) (Some TIMER_100HZ)))
  | ITimerReady => Go (with_timer b (tt_ready (bt_timer b)))
  | ITimerTask task =>
      match TaskTimer_RegisterTask (DependOn b MTimer) (bt_timer b) task 0 with
      | Some (t, TT_OK) => Go (with_timer b t)
      | Some (t, _) => Refuse b
      | None => Crash
      end
  | ISdcConfig => Go (mkBoot (bt_n b) (bt_ids b) (bt_log b) (bt_timer b) true (bt_sdc_task b) (bt_wheel b) (bt_fault_data b) (bt_ecu_error b))
  | ISdcTask => Go (mkBoot (bt_n b) (bt_ids b) (bt_log b) (bt_timer b) (bt_sdc_cfg b) true (bt_wheel b) (bt_fault_data b) (bt_ecu_error b))
  | IWheelReady => Go (mkBoot (bt_n b) (bt_ids b) (bt_log b) (bt_timer b) (bt_sdc_cfg b) (bt_sdc_task b) true (bt_fault_data b) (bt_ecu_error b))
  | IRegister m => Go (RegisterModule b m)
  end.

(** The task numbers used below. (One task each: pcinterface.c:159,
    wheelspeed.c:177, cInverter.c:383.) *)
Definition T_PC : Z := 1.  Definition T_WHEEL : Z := 2. Definition T_INV : Z := 3.
(** orionBms.c:206, discretesense.c:101, watchdogTrigger.c:60. *)
Definition T_BMS : Z := 4. Definition T_SENSE : Z := 5. Definition T_WDT : Z := 6.
(** throttleController.c:96, vehicleStateManager.c:54. *)
Definition T_THROTTLE : Z := 7. Definition T_VSM : Z := 8.

(** The initialisation methods called by initialize.c, with their object
    pointers wired as in initialize.c:54-151 (none of them is NULL). *)
Inductive call :=
| CInit (m : modname) | CUartConfig | CCanConfig | CSetState | CSetControl.

(** The methods, cited line by line (logging.c:30 to vehicleStateManager.c:72). *)
Definition init_prog (m : modname) : list instr :=
  match m with
  (* logging.c:30-38 *)
  | MLog => [ILogMutex; IRegister MLog]
  (* tasktimer.c:41-65 *)
  | MTimer => [IPrint; IDepend MLog; ITimerClear; ITimerSet; ITimerReady; ICheck; IRegister MTimer; IPrint]
  (* uart.c:153-165 *)
  | MUart => [IPrint; IDepend MLog; IRegister MUart; IPrint]
  (* crc.c:13-25 *)
  | MCrc => [IPrint; IDepend MLog; IRegister MCrc; IPrint]
  (* pcinterface.c:99-197 *)
  | MPc => [IPrint; IDepend MLog; IDepend MUart; IDepend MTimer; ICheck; ITimerTask T_PC;
            ICheck; ICheck; ICheck; IRegister MPc; IPrint]
  (* can.c:193-214 *)
  | MCan => [IPrint; IDepend MLog; IRegister MCan; IPrint]
  (* adc.c:79-138 *)
  | MAdc => [IPrint; IDepend MLog; ICheck; ICheck; ICheck; ICheck; ICheck; IRegister MAdc; IPrint]
  (* vehicleState.c:18-32 *)
  | MState => [IPrint; IDepend MTimer; IRegister MState; IPrint]
  (* gps.c:107-146 *)
  | MGps => [IPrint; IDepend MLog; IDepend MState; IDepend MUart; ICheck; IRegister MGps; IPrint]
  (* wheelspeed.c:157-200 *)
  | MWheel => [IDepend MLog; IPrint; IDepend MState; IDepend MTimer; ITimerTask T_WHEEL;
               IWheelReady; IRegister MWheel; IPrint]
  (* sdc.c:75-101 *)
  | MSdc => [IPrint; IDepend MLog; IDepend MState; ISdcConfig; ISdcTask; IRegister MSdc; IPrint]
  (* pdm.c:14-35 *)
  | MPdm => [IPrint; IDepend MLog; IDepend MState; ICheck; ICheck; IRegister MPdm; IPrint]
  (* cInverter.c:364-411 *)
  | MInv => [IPrint; IDepend MLog; IDepend MCan; ITimerTask T_INV; ICheck; IRegister MInv; IPrint]
  (* orionBms.c:191-234 *)
  | MBms => [IPrint; IDepend MLog; IDepend MCan; ITimerTask T_BMS; ICheck; IRegister MBms; IPrint]
  (* discretesense.c:87-121 *)
  | MSense => [IPrint; IDepend MLog; IDepend MState; IDepend MAdc; IDepend MTimer; ICheck;
               ITimerTask T_SENSE; IRegister MSense; IPrint]
  (* dashboard_output.c:10-21 *)
  | MDash => [IDepend MLog; IDepend MState; IPrint; IRegister MDash; IPrint]
  (* vehicleControl.c:18-32 *)
  | MControl => [IPrint; IDepend MSdc; IDepend MInv; IDepend MPdm; IDepend MDash; IRegister MControl; IPrint]
  (* watchdogTrigger.c:45-78 *)
  | MWdt => [IPrint; IDepend MLog; IDepend MTimer; ITimerTask T_WDT; IRegister MWdt; IPrint]
  (* throttleController.c:79-114 *)
  | MThrottle => [IPrint; IDepend MTimer; ITimerTask T_THROTTLE; IRegister MThrottle; IPrint]
  (* vehicleStateManager.c:40-72, with VSM_Init (stateMachine.c:170-185) and
     FaultManager_Init (faultManager.c:197-219): neither writes
     faultMgr.vehicleData *)
  | MVsm => [IPrint; IDepend MTimer; IPrint; IPrint; IPrint; IPrint; ITimerTask T_VSM; IRegister MVsm; IPrint]
  end.

(** One call of initialize.c:271-396. *)
Definition call_prog (c : call) : list instr :=
  match c with
  | CInit m => init_prog m
  (* uart.c:168-204; mLog is the pointer stored by UART_Init *)
  | CUartConfig => [IPrintVia MUart; IDepend MUart; ICheck; ICheck; ICheck; IPrintVia MUart]
  (* can.c:217-273 for one of the three buses *)
  | CCanConfig => [IPrintVia MCan; IDepend MCan; IPrintVia MCan; ICheck; ICheck; ICheck; IPrintVia MCan]
  (* pcinterface.c:199-209 *)
  | CSetState => [IDepend MState]
  (* pcinterface.c:211-221 *)
  | CSetControl => [IDepend MControl]
  end.

(** Run a method; [oracle] answers its checks, one after the other. No code of its
    own: statements of a method run in order. *)
Fixpoint exec_prog (b : boot) (oracle : list bool) (p : list instr) : outcome * list bool :=
  match p with
  | [] => (Go b, oracle)
  | i :: p =>
      let '(ok, rest) := match i, oracle with
                         | ICheck, o :: os => (o, os)
                         | _, _ => (true, oracle)
                         end in
      match exec ok b i with
      | Go b' => exec_prog b' rest p
      | r => (r, rest)
      end
  end.

(** ECU_Init_Task (initialize.c:245-268): TRY_INIT (211-214) stops in
    ECU_Init_Error (217-225), an endless loop (who still runs then: BootRun.v). *)
Inductive boot_result := Booted (b : boot) | Halted (b : boot) | Crashed.

(** initialize.c:252-263: the calls in order, up to the first refusal (211-214). *)
Fixpoint boot_run (b : boot) (oracle : list bool) (cs : list call) : boot_result :=
  match cs with
  | [] => Booted b
  | c :: cs => match exec_prog b oracle (call_prog c) with
               | (Go b', os) => boot_run b' os cs
               | (Refuse b', _) => Halted b'
               | (Crash, _) => Crashed
               end
  end.

(** initialize.c:271-396, in order. *)
Definition shipped_boot : list call :=
  [ CInit MLog; CInit MTimer; CInit MUart; CUartConfig; CUartConfig; CInit MCrc; CInit MPc;
    CInit MCan; CCanConfig; CCanConfig; CCanConfig; CInit MAdc;
    CInit MState; CSetState;
    CUartConfig; CInit MGps; CInit MWheel; CInit MSdc; CInit MPdm; CInit MInv; CInit MBms;
    CInit MSense; CInit MDash;
    CInit MControl; CSetControl;
    CInit MWdt; CInit MThrottle; CInit MVsm ].

(** ** Interrupts *)
(** startup/interrupts.c:22-29 for the timer [inst]: the tasks woken. None:
    undefined behaviour. The wheel-speed handler (wheelspeed.c:202-231) does
    nothing before IWheelReady; afterwards it only uses pins and a stream set up
    before that. *)
Definition TIM_IRQHandler (b : boot) (inst : Z) : option (list Z) :=
  TaskTimer_TIM_PeriodElapsedCallback (bt_timer b) inst.

(** startup/interrupts.c:17-20, sdc.c:109-123: the pins are read through mConfig
    (NULL pointers before ISdcConfig); if some level differs from the stored one
    ([changed]) the task is notified through its handle (NULL before ISdcTask). *)
Definition EXTI_Handler (b : boot) (changed : bool) : option unit :=
  if negb (bt_sdc_cfg b) then None
  else if changed && negb (bt_sdc_task b) then None
  else Some tt.

(** ** The fault monitor's view of the vehicle state *)
(** faultManager.c:221-228 with vehicleState.c:35-46: the snapshot is copied
    through faultMgr.vehicleData. [objs] is the vehicle-state data behind each
    object, [lock] the answer of the mutex. None: NULL pointer (or an object that
    is no vehicle state). *)
Definition FaultManager_Step_through (b : boot) (objs : modname -> option vstate) (lock : bool)
    (c : config) (s : fm_state) : option (fm_state * fault_status) :=
  m <- bt_fault_data b ;;
  d <- objs m ;;
  Some (fm_step c s (if lock then Some d else None)).
