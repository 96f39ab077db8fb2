(** The start-up messages (C70) and who may run during start-up (C73). *)
From Coq Require Import String.
From Verif.Base Require Import Stream Text.
From Verif.Model Require Import BootRun.
From Verif.Spec Require Export BootSpec PcPeriodicSpec.
Open Scope Z_scope.

(** The messages before the serial output exists ... *)
Definition early_messages : list (list Z) :=
  [ line "###### ECU_Init_System ######";
    line "TaskTimer_Init begin"; line "TaskTimer_Init complete";
    line "UART_Init begin"; line "UART_Init complete";
    line "UART_Config begin"; line "UART_Config complete";
    line "UART_Config begin"; line "UART_Config complete";
    line "CRC_Init begin"; line "complete begin"; line "PCInterface_Init begin" ].

Definition pair_of (name : string) : list (list Z) :=
  [str name ++ str "_Init begin" ++ [NL]; str name ++ str "_Init complete" ++ [NL]].

(** ... and those after. *)
Definition late_messages : list (list Z) :=
  [ line "PCInterface_Init complete"; [NL; NL; NL]; welcomeMsg;
    line "###### ECU_Init_BoardPeriph ######" ] ++ pair_of "CAN" ++
  [ str "CAN_Config begin "; line "CAN1"; line "CAN_Config complete";
    str "CAN_Config begin "; line "CAN2"; line "CAN_Config complete";
    str "CAN_Config begin "; line "CAN3"; line "CAN_Config complete" ] ++ pair_of "ADC" ++
  [ line "###### ECU_Init_BoardDevs ######"; line "###### ECU_Init_VehicleInterface1 ######" ] ++
  pair_of "VehicleState" ++
  [ line "###### ECU_Init_VehicleDevices ######"; line "UART_Config begin"; line "UART_Config complete" ] ++
  pair_of "GPS" ++ pair_of "Wheelspeed" ++ pair_of "SDC" ++ pair_of "PDM" ++ pair_of "CInverter" ++
  pair_of "BMS" ++ pair_of "DiscreteSense" ++ pair_of "DashboardOut" ++
  [ line "###### ECU_Init_VehicleInterface2 ######" ] ++ pair_of "VehicleControl" ++
  [ line "###### ECU_Init_VehicleProccesses ######" ] ++ pair_of "WatchdogTrigger" ++
  pair_of "ThrottleController" ++
  [ line "VehicleStateManager_Init begin"; line "VSM_Init begin"; line "FaultManager_Init begin";
    line "FaultManager_Init complete"; line "VSM_Init complete"; line "VehicleStateManager_Init complete";
    line "ECU_Init complete"; line "ECU_Init deleting init task" ].

(** The two messages of a start-up that stopped. *)
Definition failure_messages : list (list Z) :=
  [ line "Watchdog Trigger initialization error"; line "ECU Failed to initialize" ].

(** The state [m] is reached from reset when the hardware answers the checks of the
    start-up sequence with [oracle], under some schedule. *)
Definition reaches (oracle : list bool) (m : mcu) : Prop :=
  exists us, mcu_run (mcu_reset oracle) us = Some m.

(** Log text that has left on a port. *)
Definition sent (m : mcu) (p : uart_port) : list Z := log_text (on_port p (mc_out m)).

(** What is printed for a message of [len] characters on SWO. *)
Definition swo_text (msg : list Z) : list Z :=
  if (length (cstr msg) <? 512)%nat then cstr msg else line "[Skipping truncated message on SWO]".

(** The tasks of the finished system, in the order of their creation. *)
Definition all_tasks : list Z :=
  [T_PC; T_GPS; T_WHEEL; T_SDC; T_INV; T_BMS; T_SENSE; T_WDT; T_THROTTLE; T_VSM].
