(** The shared vehicle state and the configuration record.
    vehicleStateTypes.h, configData.h, configDataDefault.h, vehicleState.c. *)
From Verif.Base Require Export Words F32.

(** vehicleStateTypes.h:24-37 VehicleState_InputSensors_T *)
Record inputs_t := mkInputs {
  i_accel : f32; i_accelA : f32; i_accelB : f32;
  i_accelRawA : Z; i_accelRawB : Z; i_accelValid : bool;
  i_brakePresFront : f32; i_brakePresRear : f32;
  i_brakeRawFront : Z; i_brakeRawRear : Z }.

(** vehicleStateTypes.h:39-43 *)
Record dash_t := mkDash { d_buttonPressed : bool; d_ledOn : bool }.

(** nmeatypes.h:15-21 NmeaUTCTime_T *)
Record utc_t := mkUtc { t_hours : Z; t_minutes : Z; t_seconds : Z; t_millis : Z }.

(** vehicleStateTypes.h:60-69; the two char[11] texts are byte lists. *)
Record gps_t := mkGps {
  g_utcTime : utc_t; g_latitude : list Z; g_ns : Z; g_longitude : list Z;
  g_ew : Z; g_positionFix : Z; g_nSatellites : Z }.

(** vehicleStateTypes.h:45-52 *)
Record sdc_t := mkSdc { s_bms : bool; s_bspd : bool; s_imd : bool; s_out : bool }.

(** vehicleStateTypes.h:71-78 *)
Record wheel_t := mkWheel {
  w_speedFront : Z; w_speedRear : Z; w_countFront : Z; w_countRear : Z }.

(** vehicleStateTypes.h:89-106 *)
Record battery_t := mkBattery {
  b_maxCellVoltage : f32; b_maxCellTemperature : f32;
  b_minCellVoltage : f32; b_minCellTemperature : f32;
  b_maxCellVoltageCellID : Z; b_maxCellTemperatureCellID : Z;
  b_minCellVoltageCellID : Z; b_minCellTemperatureCellID : Z;
  b_dcCurrent : f32; b_dcVoltage : f32; b_stateOfCharge : f32;
  b_faultIndicator : bool; b_populatedCells : Z; b_counter : Z;
  b_failsafeStatus : Z }.

(** vehicleStateTypes.h:108-117 *)
Record motor_t := mkMotor {
  m_temperature : f32; m_angle : f32; m_speed : Z;
  m_phaseACurrent : f32; m_phaseBCurrent : f32; m_phaseCCurrent : f32;
  m_calculatedTorque : f32 }.

(** vehicleStateTypes.h:162-194; the enum fields hold the received number,
    because the decoder casts it unchecked (cInverter.c:217-221). *)
Record inverter_t := mkInverter {
  v_moduleATemp : f32; v_moduleBTemp : f32; v_moduleCTemp : f32;
  v_gateDriverTemp : f32; v_controlBoardTemp : f32; v_outputFrequency : f32;
  v_dcBusCurrent : f32; v_dcBusVoltage : f32; v_outputVoltage : f32;
  v_vd : f32; v_vq : f32; v_fluxCommand : f32; v_fluxFeedback : f32;
  v_idFeedback : f32; v_iqFeedback : f32; v_idCommand : f32; v_iqCommand : f32;
  v_commandedTorque : f32; v_modulationIndex : f32; v_fluxWeakening : f32;
  v_vsmState : Z; v_inverterState : Z; v_dischargeState : Z;
  v_enabled : Z; v_direction : Z;
  v_timerCounts : Z; v_runFaults : Z; v_postFaults : Z }.

(** vehicleStateTypes.h:196-205, with vehicle.{gps,sdc,wheelspeed} flattened.
    glv.pdmChState (line 57) is a list of 8 booleans. *)
Record vstate := mkVState {
  vs_inputs : inputs_t; vs_dash : dash_t; vs_gps : gps_t; vs_sdc : sdc_t;
  vs_wheel : wheel_t; vs_glv : list bool; vs_battery : battery_t;
  vs_motor : motor_t; vs_inverter : inverter_t }.

(** Assignment to data.inputs (vehicleStateTypes.h:196-205). *)
Definition set_inputs (s : vstate) (x : inputs_t) : vstate :=
  mkVState x (vs_dash s) (vs_gps s) (vs_sdc s) (vs_wheel s) (vs_glv s)
           (vs_battery s) (vs_motor s) (vs_inverter s).
(** Assignment to data.dash (vehicleStateTypes.h:196-205). *)
Definition set_dash (s : vstate) (x : dash_t) : vstate :=
  mkVState (vs_inputs s) x (vs_gps s) (vs_sdc s) (vs_wheel s) (vs_glv s)
           (vs_battery s) (vs_motor s) (vs_inverter s).
(** Assignment to data.vehicle.gps (vehicleStateTypes.h:196-205). *)
Definition set_gps (s : vstate) (x : gps_t) : vstate :=
  mkVState (vs_inputs s) (vs_dash s) x (vs_sdc s) (vs_wheel s) (vs_glv s)
           (vs_battery s) (vs_motor s) (vs_inverter s).
(** Assignment to data.vehicle.sdc (vehicleStateTypes.h:196-205). *)
Definition set_sdc (s : vstate) (x : sdc_t) : vstate :=
  mkVState (vs_inputs s) (vs_dash s) (vs_gps s) x (vs_wheel s) (vs_glv s)
           (vs_battery s) (vs_motor s) (vs_inverter s).
(** Assignment to data.vehicle.wheelspeed (vehicleStateTypes.h:196-205). *)
Definition set_wheel (s : vstate) (x : wheel_t) : vstate :=
  mkVState (vs_inputs s) (vs_dash s) (vs_gps s) (vs_sdc s) x (vs_glv s)
           (vs_battery s) (vs_motor s) (vs_inverter s).
(** Assignment to data.glv.pdmChState (vehicleStateTypes.h:196-205). *)
Definition set_glv (s : vstate) (x : list bool) : vstate :=
  mkVState (vs_inputs s) (vs_dash s) (vs_gps s) (vs_sdc s) (vs_wheel s) x
           (vs_battery s) (vs_motor s) (vs_inverter s).
(** Assignment to data.battery (vehicleStateTypes.h:196-205). *)
Definition set_battery (s : vstate) (x : battery_t) : vstate :=
  mkVState (vs_inputs s) (vs_dash s) (vs_gps s) (vs_sdc s) (vs_wheel s)
           (vs_glv s) x (vs_motor s) (vs_inverter s).
(** Assignment to data.motor (vehicleStateTypes.h:196-205). *)
Definition set_motor (s : vstate) (x : motor_t) : vstate :=
  mkVState (vs_inputs s) (vs_dash s) (vs_gps s) (vs_sdc s) (vs_wheel s)
           (vs_glv s) (vs_battery s) x (vs_inverter s).
(** Assignment to data.inverter (vehicleStateTypes.h:196-205). *)
Definition set_inverter (s : vstate) (x : inverter_t) : vstate :=
  mkVState (vs_inputs s) (vs_dash s) (vs_gps s) (vs_sdc s) (vs_wheel s)
           (vs_glv s) (vs_battery s) (vs_motor s) x.

(** vehicleState.c:24: memset of the whole record to zero. *)
Definition zero_inputs : inputs_t :=
  mkInputs f_zero f_zero f_zero 0 0 false f_zero f_zero 0 0.
(** vehicleState.c:24 *)
Definition zero_dash : dash_t := mkDash false false.
(** vehicleState.c:24 *)
Definition zero_gps : gps_t :=
  mkGps (mkUtc 0 0 0 0) (repeat 0 11) 0 (repeat 0 11) 0 0 0.
(** vehicleState.c:24 *)
Definition zero_sdc : sdc_t := mkSdc false false false false.
(** vehicleState.c:24 *)
Definition zero_wheel : wheel_t := mkWheel 0 0 0 0.
(** vehicleState.c:24 *)
Definition zero_glv : list bool := repeat false 8.
(** vehicleState.c:24 *)
Definition zero_battery : battery_t :=
  mkBattery f_zero f_zero f_zero f_zero 0 0 0 0 f_zero f_zero f_zero false 0 0 0.
(** vehicleState.c:24 *)
Definition zero_motor : motor_t :=
  mkMotor f_zero f_zero 0 f_zero f_zero f_zero f_zero.
(** vehicleState.c:24 *)
Definition zero_inverter : inverter_t :=
  mkInverter f_zero f_zero f_zero f_zero f_zero f_zero f_zero f_zero f_zero
             f_zero f_zero f_zero f_zero f_zero f_zero f_zero f_zero f_zero
             f_zero f_zero 0 0 0 0 0 0 0 0.
(** vehicleState.c:24 *)
Definition zero_vstate : vstate :=
  mkVState zero_inputs zero_dash zero_gps zero_sdc zero_wheel zero_glv
           zero_battery zero_motor zero_inverter.

(** vehicleStateTypes.h:126 VEHICLESTATE_INVERTERVSMSTATE_READY *)
Definition INV_VSM_READY : Z := 5.
(** vehicleStateTypes.h:158-159 *)
Definition DIR_REVERSE : Z := 0.
(** vehicleStateTypes.h:159 *)
Definition DIR_FORWARD : Z := 1.

(** configData.h:15-19 *)
Record adccal_t := mkCal { c_rawLower : Z; c_rawUpper : Z }.

(** configData.h:28-38 (Config_Pedal_T inlined) *)
Record cfg_inputs := mkCfgInputs {
  ci_calA : adccal_t; ci_calB : adccal_t; ci_consistencyLimit : f32;
  ci_brakeFront : adccal_t; ci_brakeRear : adccal_t;
  ci_abuseEnabled : Z; ci_abuseAccel : f32; ci_abuseBrake : f32;
  ci_invalidDataTimeout : Z; ci_numTeeth : Z }.

(** configData.h:40-50 *)
Record cfg_bms := mkCfgBms {
  cb_baseCanId : Z; cb_maxCellTemp : Z; cb_maxCurrent : Z; cb_maxCellVoltage : Z;
  cb_minSoc : Z; cb_invalidDataTimeout : Z; cb_canTimeout : Z }.

(** configData.h:52-62 *)
Record cfg_inverter := mkCfgInverter {
  cv_baseCanId : Z; cv_maxInternalTemp : Z; cv_maxIGBTTemp : Z;
  cv_maxMotorTemp : Z; cv_maxCurrentDraw : Z; cv_invalidDataTimeout : Z;
  cv_canTimeout : Z }.

(** configData.h:64-76 *)
Record config := mkConfig {
  cf_inputs : cfg_inputs; cf_bms : cfg_bms; cf_inverter : cfg_inverter;
  cf_hvActiveStateWait : Z; cf_hvChargeTimeout : Z }.

(** configDataDefault.h:15-64 DefaultConfigData *)
Definition default_config : config := mkConfig
  (mkCfgInputs (mkCal 0 4095) (mkCal 0 4095) (f_lit 1 10)
               (mkCal 0 4095) (mkCal 0 4095) 0 (f_lit 1 10) (f_lit 1 10) 100 12)
  (mkCfgBms 768 750 4500 420 1000 100 100)
  (mkCfgInverter 0 750 750 750 4500 100 100)
  500 7000.
