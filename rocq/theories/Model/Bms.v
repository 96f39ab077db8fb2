(** vcu/device/bms/orionBms.c, orionBmsCAN.h, orionBmsDataConversions.h *)
From Verif.Model Require Export VehicleState CanFrame.

(** orionBmsCAN.h:16-19 *)
Definition BMS_CAN_ID_MAXCELLSTATE : Z := 0x301.
(** orionBmsCAN.h:17 *)
Definition BMS_CAN_ID_MINCELLSTATE : Z := 0x302.
(** orionBmsCAN.h:18 *)
Definition BMS_CAN_ID_PACKSTATE : Z := 0x303.
(** orionBmsCAN.h:19 *)
Definition BMS_CAN_ID_STATUS : Z := 0x304.

(** orionBmsDataConversions.h:16-56 *)
Definition bms_msgToTemperature (raw : Z) : f32 := f_of_Z raw.
(** orionBmsDataConversions.h:25-29 *)
Definition bms_msgToCurrent (raw : Z) : f32 := fmul (f_of_Z raw) (f_lit 1 10).
(** orionBmsDataConversions.h:34-38 *)
Definition bms_msgToVoltageHigh (raw : Z) : f32 := fmul (f_of_Z raw) (f_lit 1 10).
(** orionBmsDataConversions.h:43-47 *)
Definition bms_msgToVoltageLow (raw : Z) : f32 := fmul (f_of_Z raw) (f_lit 1 10000).
(** orionBmsDataConversions.h:52-56 *)
Definition bms_msgToStateOfChargePct (raw : Z) : f32 := fmul (f_of_Z raw) (f_lit 1 2).

(** "int16_t x = 0; x |= lo; x |= (int16_t)(hi << 8);", e.g. orionBms.c:36-38 *)
Definition or_s16 (lo hi : Z) : Z :=
  let x := s16 (Z.lor 0 (s16 lo)) in s16 (Z.lor x (s16 (Z.shiftl hi 8))).
(** the same with uint16_t, e.g. orionBms.c:106-108 *)
Definition or_u16 (lo hi : Z) : Z :=
  let x := u16 (Z.lor 0 (u16 lo)) in u16 (Z.lor x (u16 (Z.shiftl hi 8))).

(** orionBms.c:29-58. [lock] is the result of VehicleState_AccessAcquire. *)
Definition HandleMsg_MaxCellState (lock : bool) (f : can_frame) (s : vstate) : vstate :=
  if negb (fr_dlc f =? 8) then s else
  let maxCellTempMsg := or_s16 (dat f 0) (dat f 1) in
  let maxCellVoltageMsg := or_s16 (dat f 3) (dat f 4) in
  let maxCellTempID := dat f 2 in
  let maxCellVoltageID := dat f 5 in
  if lock then
    let b := vs_battery s in
    set_battery s (mkBattery
      (bms_msgToVoltageLow maxCellVoltageMsg) (bms_msgToTemperature maxCellTempMsg)
      (b_minCellVoltage b) (b_minCellTemperature b)
      maxCellVoltageID maxCellTempID
      (b_minCellVoltageCellID b) (b_minCellTemperatureCellID b)
      (b_dcCurrent b) (b_dcVoltage b) (b_stateOfCharge b) (b_faultIndicator b)
      (b_populatedCells b) (b_counter b) (b_failsafeStatus b))
  else s.

(** orionBms.c:60-89 *)
Definition HandleMsg_MinCellState (lock : bool) (f : can_frame) (s : vstate) : vstate :=
  if negb (fr_dlc f =? 8) then s else
  let minCellTempMsg := or_s16 (dat f 0) (dat f 1) in
  let minCellVoltageMsg := or_s16 (dat f 3) (dat f 4) in
  let minCellTempID := dat f 2 in
  let minCellVoltageID := dat f 5 in
  if lock then
    let b := vs_battery s in
    set_battery s (mkBattery
      (b_maxCellVoltage b) (b_maxCellTemperature b)
      (bms_msgToVoltageLow minCellVoltageMsg) (bms_msgToTemperature minCellTempMsg)
      (b_maxCellVoltageCellID b) (b_maxCellTemperatureCellID b)
      minCellVoltageID minCellTempID
      (b_dcCurrent b) (b_dcVoltage b) (b_stateOfCharge b) (b_faultIndicator b)
      (b_populatedCells b) (b_counter b) (b_failsafeStatus b))
  else s.

(** orionBms.c:91-121 *)
Definition HandleMsg_PackState (lock : bool) (f : can_frame) (s : vstate) : vstate :=
  if negb (fr_dlc f =? 8) then s else
  let dcCurrentMsg := or_s16 (dat f 0) (dat f 1) in
  let dcVoltageMsg := or_s16 (dat f 2) (dat f 3) in
  let socMsg := or_u16 (dat f 4) (dat f 5) in
  if lock then
    let b := vs_battery s in
    set_battery s (mkBattery
      (b_maxCellVoltage b) (b_maxCellTemperature b)
      (b_minCellVoltage b) (b_minCellTemperature b)
      (b_maxCellVoltageCellID b) (b_maxCellTemperatureCellID b)
      (b_minCellVoltageCellID b) (b_minCellTemperatureCellID b)
      (bms_msgToCurrent dcCurrentMsg) (bms_msgToVoltageHigh dcVoltageMsg)
      (bms_msgToStateOfChargePct socMsg) (b_faultIndicator b)
      (b_populatedCells b) (b_counter b) (b_failsafeStatus b))
  else s.

(** orionBms.c:123-143 *)
Definition HandleMsg_Status (lock : bool) (f : can_frame) (s : vstate) : vstate :=
  if negb (fr_dlc f =? 8) then s else
  let counter := dat f 0 in
  let populatedCells := dat f 1 in
  let failsafeStatus := or_u16 (dat f 2) (dat f 3) in
  if lock then
    let b := vs_battery s in
    set_battery s (mkBattery
      (b_maxCellVoltage b) (b_maxCellTemperature b)
      (b_minCellVoltage b) (b_minCellTemperature b)
      (b_maxCellVoltageCellID b) (b_maxCellTemperatureCellID b)
      (b_minCellVoltageCellID b) (b_minCellTemperatureCellID b)
      (b_dcCurrent b) (b_dcVoltage b) (b_stateOfCharge b) (b_faultIndicator b)
      populatedCells counter failsafeStatus)
  else s.

(** orionBms.c:152-174: body of the loop for one dequeued frame. *)
Definition bms_handle (canInst : Z) (s : vstate) (x : can_frame * bool) : vstate :=
  let '(f, lock) := x in
  if negb (fr_bus f =? canInst) then s
  else if fr_id f =? BMS_CAN_ID_MAXCELLSTATE then HandleMsg_MaxCellState lock f s
  else if fr_id f =? BMS_CAN_ID_MINCELLSTATE then HandleMsg_MinCellState lock f s
  else if fr_id f =? BMS_CAN_ID_PACKSTATE then HandleMsg_PackState lock f s
  else if fr_id f =? BMS_CAN_ID_STATUS then HandleMsg_Status lock f s
  else s.

(** orionBms.c:145-177: the queue contents, each frame paired with the outcome
    of the vehicle-state lock taken for it. *)
Definition BMSProcessing (canInst : Z) (s : vstate) (q : list (can_frame * bool)) : vstate :=
  fold_left (bms_handle canInst) q s.
