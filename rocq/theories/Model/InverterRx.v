(** The receiving half of vcu/device/inverter/cInverter.c; message layouts from
    cInverterCAN.h:26-150 (little endian; bit fields from bit 0 upwards). *)
From Verif.Model Require Export VehicleState CanFrame.

(** cInverterCAN.h:11-21 *)
Definition CINVERTER_CAN_ID_TEMPERATURES1 : Z := 0x0A0.
(** cInverterCAN.h:12 *)
Definition CINVERTER_CAN_ID_TEMPERATURES2 : Z := 0x0A1.
(** cInverterCAN.h:13 *)
Definition CINVERTER_CAN_ID_TEMPERATURES3 : Z := 0x0A2.
(** cInverterCAN.h:14 *)
Definition CINVERTER_CAN_ID_MOTOR_POS_INFO : Z := 0x0A5.
(** cInverterCAN.h:15 *)
Definition CINVERTER_CAN_ID_CURRENT_INFO : Z := 0x0A6.
(** cInverterCAN.h:16 *)
Definition CINVERTER_CAN_ID_VOLTAGE_INFO : Z := 0x0A7.
(** cInverterCAN.h:17 *)
Definition CINVERTER_CAN_ID_FLUX_INFO : Z := 0x0A8.
(** cInverterCAN.h:18 *)
Definition CINVERTER_CAN_ID_INTERNAL_STATES : Z := 0x0AA.
(** cInverterCAN.h:19 *)
Definition CINVERTER_CAN_ID_FAULT_CODES : Z := 0x0AB.
(** cInverterCAN.h:20 *)
Definition CINVERTER_CAN_ID_TORQUE_TIMER : Z := 0x0AC.
(** cInverterCAN.h:21 *)
Definition CINVERTER_CAN_ID_FLUX_WEAKENING : Z := 0x0AD.

(** uint16_t / int16_t / uint32_t member of the union at byte offset [o].
    cInverterCAN.h:26-150. *)
Definition fu16 (f : can_frame) (o : nat) : Z := le16 (dat f o) (dat f (S o)).
(** int16_t member, cInverterCAN.h:26-150. *)
Definition fs16 (f : can_frame) (o : nat) : Z := s16 (fu16 f o).
(** uint32_t member, cInverterCAN.h:26-150. *)
Definition fu32 (f : can_frame) (o : nat) : Z :=
  le32 (dat f o) (dat f (o + 1)) (dat f (o + 2)) (dat f (o + 3)).

(** dataConversions.h:14-99 *)
Definition inv_msgToTemperature (raw : Z) : f32 := fdiv (f_of_Z raw) (f_of_Z 10).
(** dataConversions.h:23-27 *)
Definition inv_msgToAngle (raw : Z) : f32 := fdiv (f_of_Z raw) (f_of_Z 10).
(** dataConversions.h:32-36 *)
Definition inv_msgToAngularVelocity (raw : Z) : Z := s16 raw.
(** dataConversions.h:41-45 *)
Definition inv_msgToFrequency (raw : Z) : f32 := fdiv (f_of_Z raw) (f_of_Z 10).
(** dataConversions.h:50-54 *)
Definition inv_msgToCurrent (raw : Z) : f32 := fdiv (f_of_Z raw) (f_of_Z 10).
(** dataConversions.h:59-63 *)
Definition inv_msgToVoltageHigh (raw : Z) : f32 := fdiv (f_of_Z raw) (f_of_Z 10).
(** dataConversions.h:68-72 *)
Definition inv_msgToFlux (raw : Z) : f32 := fdiv (f_of_Z raw) (f_of_Z 1000).
(** dataConversions.h:77-81 *)
Definition inv_msgToTorque (raw : Z) : f32 := fdiv (f_of_Z raw) (f_of_Z 10).
(** dataConversions.h:94-98 *)
Definition inv_msgToModulationIndex (raw : Z) : f32 := fdiv (f_of_Z raw) (f_of_Z 100).

(** Writes of one handler into motor and inverter records, done under the lock. The
    common frame of cInverter.c:54-295, e.g. lines 56-58 and 69-75. *)
Definition publish (lock : bool) (f : can_frame) (s : vstate)
  (upd : motor_t -> inverter_t -> motor_t * inverter_t) : vstate :=
  if negb (fr_dlc f =? 8) then s
  else if lock then
    let '(m, v) := upd (vs_motor s) (vs_inverter s) in
    set_inverter (set_motor s m) v
  else s.

(** cInverter.c:54-76 *)
Definition upd_Temperatures1 (f : can_frame) (m : motor_t) (v : inverter_t) :=
  (m, mkInverter
    (inv_msgToTemperature (fu16 f 0)) (inv_msgToTemperature (fu16 f 2))
    (inv_msgToTemperature (fu16 f 4)) (inv_msgToTemperature (fu16 f 6))
    (v_controlBoardTemp v) (v_outputFrequency v) (v_dcBusCurrent v) (v_dcBusVoltage v)
    (v_outputVoltage v) (v_vd v) (v_vq v) (v_fluxCommand v) (v_fluxFeedback v)
    (v_idFeedback v) (v_iqFeedback v) (v_idCommand v) (v_iqCommand v)
    (v_commandedTorque v) (v_modulationIndex v) (v_fluxWeakening v)
    (v_vsmState v) (v_inverterState v) (v_dischargeState v) (v_enabled v) (v_direction v)
    (v_timerCounts v) (v_runFaults v) (v_postFaults v)).

(** cInverter.c:78-94 *)
Definition upd_Temperatures2 (f : can_frame) (m : motor_t) (v : inverter_t) :=
  (m, mkInverter
    (v_moduleATemp v) (v_moduleBTemp v) (v_moduleCTemp v) (v_gateDriverTemp v)
    (inv_msgToTemperature (fu16 f 0)) (v_outputFrequency v) (v_dcBusCurrent v) (v_dcBusVoltage v)
    (v_outputVoltage v) (v_vd v) (v_vq v) (v_fluxCommand v) (v_fluxFeedback v)
    (v_idFeedback v) (v_iqFeedback v) (v_idCommand v) (v_iqCommand v)
    (v_commandedTorque v) (v_modulationIndex v) (v_fluxWeakening v)
    (v_vsmState v) (v_inverterState v) (v_dischargeState v) (v_enabled v) (v_direction v)
    (v_timerCounts v) (v_runFaults v) (v_postFaults v)).

(** cInverter.c:96-112 *)
Definition upd_Temperatures3 (f : can_frame) (m : motor_t) (v : inverter_t) :=
  (mkMotor (inv_msgToTemperature (fu16 f 4)) (m_angle m) (m_speed m) (m_phaseACurrent m)
           (m_phaseBCurrent m) (m_phaseCCurrent m) (m_calculatedTorque m), v).

(** cInverter.c:114-134 *)
Definition upd_MotorPosInfo (f : can_frame) (m : motor_t) (v : inverter_t) :=
  (mkMotor (m_temperature m) (inv_msgToAngle (fu16 f 0))
           (inv_msgToAngularVelocity (fu16 f 2)) (m_phaseACurrent m)
           (m_phaseBCurrent m) (m_phaseCCurrent m) (m_calculatedTorque m),
   mkInverter
    (v_moduleATemp v) (v_moduleBTemp v) (v_moduleCTemp v) (v_gateDriverTemp v)
    (v_controlBoardTemp v) (inv_msgToFrequency (fu16 f 4)) (v_dcBusCurrent v) (v_dcBusVoltage v)
    (v_outputVoltage v) (v_vd v) (v_vq v) (v_fluxCommand v) (v_fluxFeedback v)
    (v_idFeedback v) (v_iqFeedback v) (v_idCommand v) (v_iqCommand v)
    (v_commandedTorque v) (v_modulationIndex v) (v_fluxWeakening v)
    (v_vsmState v) (v_inverterState v) (v_dischargeState v) (v_enabled v) (v_direction v)
    (v_timerCounts v) (v_runFaults v) (v_postFaults v)).

(** cInverter.c:136-158 *)
Definition upd_CurrentInfo (f : can_frame) (m : motor_t) (v : inverter_t) :=
  (mkMotor (m_temperature m) (m_angle m) (m_speed m)
           (inv_msgToCurrent (fs16 f 0)) (inv_msgToCurrent (fs16 f 2))
           (inv_msgToCurrent (fs16 f 4)) (m_calculatedTorque m),
   mkInverter
    (v_moduleATemp v) (v_moduleBTemp v) (v_moduleCTemp v) (v_gateDriverTemp v)
    (v_controlBoardTemp v) (v_outputFrequency v) (inv_msgToCurrent (fs16 f 6)) (v_dcBusVoltage v)
    (v_outputVoltage v) (v_vd v) (v_vq v) (v_fluxCommand v) (v_fluxFeedback v)
    (v_idFeedback v) (v_iqFeedback v) (v_idCommand v) (v_iqCommand v)
    (v_commandedTorque v) (v_modulationIndex v) (v_fluxWeakening v)
    (v_vsmState v) (v_inverterState v) (v_dischargeState v) (v_enabled v) (v_direction v)
    (v_timerCounts v) (v_runFaults v) (v_postFaults v)).

(** cInverter.c:160-182 *)
Definition upd_VoltageInfo (f : can_frame) (m : motor_t) (v : inverter_t) :=
  (m, mkInverter
    (v_moduleATemp v) (v_moduleBTemp v) (v_moduleCTemp v) (v_gateDriverTemp v)
    (v_controlBoardTemp v) (v_outputFrequency v) (v_dcBusCurrent v)
    (inv_msgToVoltageHigh (fu16 f 0)) (inv_msgToVoltageHigh (fu16 f 2))
    (inv_msgToVoltageHigh (fu16 f 4)) (inv_msgToVoltageHigh (fu16 f 6))
    (v_fluxCommand v) (v_fluxFeedback v)
    (v_idFeedback v) (v_iqFeedback v) (v_idCommand v) (v_iqCommand v)
    (v_commandedTorque v) (v_modulationIndex v) (v_fluxWeakening v)
    (v_vsmState v) (v_inverterState v) (v_dischargeState v) (v_enabled v) (v_direction v)
    (v_timerCounts v) (v_runFaults v) (v_postFaults v)).

(** cInverter.c:184-206 *)
Definition upd_FluxInfo (f : can_frame) (m : motor_t) (v : inverter_t) :=
  (m, mkInverter
    (v_moduleATemp v) (v_moduleBTemp v) (v_moduleCTemp v) (v_gateDriverTemp v)
    (v_controlBoardTemp v) (v_outputFrequency v) (v_dcBusCurrent v) (v_dcBusVoltage v)
    (v_outputVoltage v) (v_vd v) (v_vq v)
    (inv_msgToFlux (fu16 f 0)) (inv_msgToFlux (fu16 f 2))
    (inv_msgToCurrent (fs16 f 4)) (inv_msgToCurrent (fs16 f 6))
    (v_idCommand v) (v_iqCommand v)
    (v_commandedTorque v) (v_modulationIndex v) (v_fluxWeakening v)
    (v_vsmState v) (v_inverterState v) (v_dischargeState v) (v_enabled v) (v_direction v)
    (v_timerCounts v) (v_runFaults v) (v_postFaults v)).

(** cInverter.c:208-232 *)
Definition upd_InternalStates (f : can_frame) (m : motor_t) (v : inverter_t) :=
  (m, mkInverter
    (v_moduleATemp v) (v_moduleBTemp v) (v_moduleCTemp v) (v_gateDriverTemp v)
    (v_controlBoardTemp v) (v_outputFrequency v) (v_dcBusCurrent v) (v_dcBusVoltage v)
    (v_outputVoltage v) (v_vd v) (v_vq v) (v_fluxCommand v) (v_fluxFeedback v)
    (v_idFeedback v) (v_iqFeedback v) (v_idCommand v) (v_iqCommand v)
    (v_commandedTorque v) (v_modulationIndex v) (v_fluxWeakening v)
    (dat f 0) (dat f 2) (Z.shiftr (dat f 4) 5) (Z.land (dat f 6) 1) (Z.land (dat f 7) 1)
    (v_timerCounts v) (v_runFaults v) (v_postFaults v)).

(** cInverter.c:234-249 *)
Definition upd_FaultCodes (f : can_frame) (m : motor_t) (v : inverter_t) :=
  (m, mkInverter
    (v_moduleATemp v) (v_moduleBTemp v) (v_moduleCTemp v) (v_gateDriverTemp v)
    (v_controlBoardTemp v) (v_outputFrequency v) (v_dcBusCurrent v) (v_dcBusVoltage v)
    (v_outputVoltage v) (v_vd v) (v_vq v) (v_fluxCommand v) (v_fluxFeedback v)
    (v_idFeedback v) (v_iqFeedback v) (v_idCommand v) (v_iqCommand v)
    (v_commandedTorque v) (v_modulationIndex v) (v_fluxWeakening v)
    (v_vsmState v) (v_inverterState v) (v_dischargeState v) (v_enabled v) (v_direction v)
    (v_timerCounts v) (fu32 f 4) (fu32 f 0)).

(** cInverter.c:251-271 *)
Definition upd_TorqueTimer (f : can_frame) (m : motor_t) (v : inverter_t) :=
  (mkMotor (m_temperature m) (m_angle m) (m_speed m) (m_phaseACurrent m)
           (m_phaseBCurrent m) (m_phaseCCurrent m) (inv_msgToTorque (fu16 f 2)),
   mkInverter
    (v_moduleATemp v) (v_moduleBTemp v) (v_moduleCTemp v) (v_gateDriverTemp v)
    (v_controlBoardTemp v) (v_outputFrequency v) (v_dcBusCurrent v) (v_dcBusVoltage v)
    (v_outputVoltage v) (v_vd v) (v_vq v) (v_fluxCommand v) (v_fluxFeedback v)
    (v_idFeedback v) (v_iqFeedback v) (v_idCommand v) (v_iqCommand v)
    (inv_msgToTorque (fu16 f 0)) (v_modulationIndex v) (v_fluxWeakening v)
    (v_vsmState v) (v_inverterState v) (v_dischargeState v) (v_enabled v) (v_direction v)
    (fu32 f 4) (v_runFaults v) (v_postFaults v)).

(** cInverter.c:273-295 *)
Definition upd_FluxWeakening (f : can_frame) (m : motor_t) (v : inverter_t) :=
  (m, mkInverter
    (v_moduleATemp v) (v_moduleBTemp v) (v_moduleCTemp v) (v_gateDriverTemp v)
    (v_controlBoardTemp v) (v_outputFrequency v) (v_dcBusCurrent v) (v_dcBusVoltage v)
    (v_outputVoltage v) (v_vd v) (v_vq v) (v_fluxCommand v) (v_fluxFeedback v)
    (v_idFeedback v) (v_iqFeedback v)
    (inv_msgToCurrent (fs16 f 4)) (inv_msgToCurrent (fs16 f 6))
    (v_commandedTorque v) (inv_msgToModulationIndex (fu16 f 0)) (inv_msgToCurrent (fs16 f 2))
    (v_vsmState v) (v_inverterState v) (v_dischargeState v) (v_enabled v) (v_direction v)
    (v_timerCounts v) (v_runFaults v) (v_postFaults v)).

(** cInverter.c:303-347: one dequeued frame. *)
Definition inv_handle (canInst : Z) (s : vstate) (x : can_frame * bool) : vstate :=
  let '(f, lock) := x in
  let id := fr_id f in
  if negb (fr_bus f =? canInst) then s
  else if id =? CINVERTER_CAN_ID_TEMPERATURES1 then publish lock f s (upd_Temperatures1 f)
  else if id =? CINVERTER_CAN_ID_TEMPERATURES2 then publish lock f s (upd_Temperatures2 f)
  else if id =? CINVERTER_CAN_ID_TEMPERATURES3 then publish lock f s (upd_Temperatures3 f)
  else if id =? CINVERTER_CAN_ID_MOTOR_POS_INFO then publish lock f s (upd_MotorPosInfo f)
  else if id =? CINVERTER_CAN_ID_CURRENT_INFO then publish lock f s (upd_CurrentInfo f)
  else if id =? CINVERTER_CAN_ID_VOLTAGE_INFO then publish lock f s (upd_VoltageInfo f)
  else if id =? CINVERTER_CAN_ID_FLUX_INFO then publish lock f s (upd_FluxInfo f)
  else if id =? CINVERTER_CAN_ID_INTERNAL_STATES then publish lock f s (upd_InternalStates f)
  else if id =? CINVERTER_CAN_ID_FAULT_CODES then publish lock f s (upd_FaultCodes f)
  else if id =? CINVERTER_CAN_ID_TORQUE_TIMER then publish lock f s (upd_TorqueTimer f)
  else if id =? CINVERTER_CAN_ID_FLUX_WEAKENING then publish lock f s (upd_FluxWeakening f)
  else s.

(** cInverter.c:297-350 *)
Definition InverterProcessing (canInst : Z) (s : vstate) (q : list (can_frame * bool)) : vstate :=
  fold_left (inv_handle canInst) q s.
