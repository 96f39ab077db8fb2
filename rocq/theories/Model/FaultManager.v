(** vcu/vehicleLogic/stateManager/faultManager.{h,c} *)
From Verif.Model Require Export VehicleState.

(** faultManager.h:17-35 FaultManager_Internal_T. The brake consistency timer
    and its limit (lines 27-28) are kept although no code reads the timer. *)
Record fm_state := mkFM {
  fm_faults : Z;
  fm_accRangeT : Z;  fm_accRangeL : Z;
  fm_accConsT : Z;   fm_accConsL : Z;
  fm_brkRangeT : Z;  fm_brkRangeL : Z;
  fm_brkConsT : Z;   fm_brkConsL : Z;
  fm_abuseT : Z;     fm_abuseL : Z;
  fm_cellTempT : Z;  fm_currentT : Z; fm_cellVoltT : Z;
  fm_bmsL : Z }.

(** faultManager.h:51-57. FAULT_INIT is never returned. *)
Inductive fault_status := FS_NoFault | FS_LvError | FS_Fault.

(** faultManager.h:60-87 *)
Definition LV_ERROR_MASK : Z := 0x000000FF.
(** faultManager.h:61 *)
Definition FAULT_MASK : Z := 0xFFFFFF00.
(** faultManager.h:71 *)
Definition F_ACCELPDL_RANGE : Z := 0x00000100.
(** faultManager.h:72 *)
Definition F_ACCELPDL_SENSE : Z := 0x00000200.
(** faultManager.h:73 *)
Definition F_BRAKEPDL_RANGE : Z := 0x00000400.
(** faultManager.h:75 *)
Definition F_BRAKEPDL_ABUSE : Z := 0x00001000.
(** faultManager.h:76 *)
Definition F_BMS_CELLTEMP : Z := 0x00002000.
(** faultManager.h:77 *)
Definition F_BMS_CURRENT : Z := 0x00004000.
(** faultManager.h:78 *)
Definition F_BMS_CELLVOLT : Z := 0x00008000.
(** faultManager.h:79 *)
Definition F_BMS_LOWSOC : Z := 0x00010000.
(** faultManager.h:80 *)
Definition F_BMS_FAULTIND : Z := 0x00020000.

(** faultManager.c:25-41: (check passed, new timer value). *)
Definition handleTimedCondition (isFault : bool) (timer limit : Z) : bool * Z :=
  if isFault then
    let t := u16 (timer + 1) in
    if t >? limit then (false, limit) else (true, t)
  else (true, 0).

(** The "if (!check) faults |= bit" idiom, e.g. faultManager.c:60-62. *)
Definition or_unless (check : bool) (bit faults : Z) : Z :=
  if check then faults else Z.lor faults bit.

(** The comparison of faultManager.c:56-57 for one sensor. *)
Definition out_of_cal (raw : Z) (c : adccal_t) : bool :=
  (raw >? c_rawUpper c) || (raw <? c_rawLower c).

(** faultManager.c:43-76: new fault word, new timers in the state. *)
Definition isFaultAccelPedal (c : config) (s : fm_state) (d : vstate) : Z * fm_state :=
  let f0 := fm_faults s in
  let i := vs_inputs d in
  let '(okR, tR) := handleTimedCondition
      (out_of_cal (i_accelRawA i) (ci_calA (cf_inputs c)) ||
       out_of_cal (i_accelRawB i) (ci_calB (cf_inputs c)))
      (fm_accRangeT s) (fm_accRangeL s) in
  let f1 := or_unless okR F_ACCELPDL_RANGE f0 in
  let diff := fabs (fsub (i_accelA i) (i_accelB i)) in
  let '(okC, tC) := handleTimedCondition
      (fgt diff (ci_consistencyLimit (cf_inputs c)))
      (fm_accConsT s) (fm_accConsL s) in
  let f2 := or_unless okC F_ACCELPDL_SENSE f1 in
  (f2, mkFM f0 tR (fm_accRangeL s) tC (fm_accConsL s) (fm_brkRangeT s)
            (fm_brkRangeL s) (fm_brkConsT s) (fm_brkConsL s) (fm_abuseT s)
            (fm_abuseL s) (fm_cellTempT s) (fm_currentT s) (fm_cellVoltT s)
            (fm_bmsL s)).

(** faultManager.c:78-115 *)
Definition isFaultBrakePedal (c : config) (s : fm_state) (d : vstate) : Z * fm_state :=
  let f0 := fm_faults s in
  let i := vs_inputs d in
  let ci := cf_inputs c in
  let '(okR, tR) := handleTimedCondition
      (out_of_cal (i_brakeRawFront i) (ci_brakeFront ci) ||
       out_of_cal (i_brakeRawRear i) (ci_brakeRear ci))
      (fm_brkRangeT s) (fm_brkRangeL s) in
  let f1 := or_unless okR F_BRAKEPDL_RANGE f0 in
  let '(f2, tA) :=
    if ci_abuseEnabled ci =? 1 then
      let '(okA, tA) := handleTimedCondition
          (fgt (i_accel i) (ci_abuseAccel ci) &&
           fgt (i_brakePresFront i) (ci_abuseBrake ci))
          (fm_abuseT s) (fm_abuseL s) in
      (or_unless okA F_BRAKEPDL_ABUSE f1, tA)
    else (f1, fm_abuseT s) in
  (f2, mkFM f0 (fm_accRangeT s) (fm_accRangeL s) (fm_accConsT s) (fm_accConsL s)
            tR (fm_brkRangeL s) (fm_brkConsT s) (fm_brkConsL s) tA (fm_abuseL s)
            (fm_cellTempT s) (fm_currentT s) (fm_cellVoltT s) (fm_bmsL s)).

(** faultManager.c:117-170. The integer limits are converted to float for the
    comparison (int16_t/uint16_t promoted to int, then to float: exact). *)
Definition isFaultBMS (c : config) (s : fm_state) (d : vstate) : Z * fm_state :=
  let f0 := fm_faults s in
  let b := vs_battery d in
  let cb := cf_bms c in
  let '(okT, tT) := handleTimedCondition
      (fgt (b_maxCellTemperature b) (f_of_Z (cb_maxCellTemp cb)))
      (fm_cellTempT s) (fm_bmsL s) in
  let f1 := or_unless okT F_BMS_CELLTEMP f0 in
  let '(okC, tC) := handleTimedCondition
      (fgt (b_dcCurrent b) (f_of_Z (cb_maxCurrent cb)))
      (fm_currentT s) (fm_bmsL s) in
  let f2 := or_unless okC F_BMS_CURRENT f1 in
  let '(okV, tV) := handleTimedCondition
      (fgt (b_maxCellVoltage b) (f_of_Z (cb_maxCellVoltage cb)))
      (fm_cellVoltT s) (fm_bmsL s) in
  let f3 := or_unless okV F_BMS_CELLVOLT f2 in
  let f4 := or_unless (negb (flt (b_stateOfCharge b) (f_of_Z (cb_minSoc cb))))
                      F_BMS_LOWSOC f3 in
  let f5 := or_unless (negb (b_faultIndicator b)) F_BMS_FAULTIND f4 in
  (f5, mkFM f0 (fm_accRangeT s) (fm_accRangeL s) (fm_accConsT s) (fm_accConsL s)
            (fm_brkRangeT s) (fm_brkRangeL s) (fm_brkConsT s) (fm_brkConsL s)
            (fm_abuseT s) (fm_abuseL s) tT tC tV (fm_bmsL s)).

(** faultManager.c:172-194: the three stubs return 0. *)
Definition isFaultInverter (c : config) (s : fm_state) (d : vstate) : Z := 0.
(** faultManager.c:180-186 *)
Definition isLVErrorBMS (c : config) (s : fm_state) (d : vstate) : Z := 0.
(** faultManager.c:188-194 *)
Definition isLVErrorInverter (c : config) (s : fm_state) (d : vstate) : Z := 0.

(** "internal.faults |= bits", faultManager.c:231-236. *)
Definition fm_or (s : fm_state) (bits : Z) : fm_state :=
  mkFM (Z.lor (fm_faults s) bits) (fm_accRangeT s) (fm_accRangeL s)
       (fm_accConsT s) (fm_accConsL s) (fm_brkRangeT s) (fm_brkRangeL s)
       (fm_brkConsT s) (fm_brkConsL s) (fm_abuseT s) (fm_abuseL s)
       (fm_cellTempT s) (fm_currentT s) (fm_cellVoltT s) (fm_bmsL s).

(** faultManager.c:197-219. [None]: tickRateMs = 0 divides by zero. *)
Definition fm_init (c : config) (tickRateMs : Z) : option fm_state :=
  if tickRateMs =? 0 then None else
  let li := u16 (ci_invalidDataTimeout (cf_inputs c) / tickRateMs) in
  let lb := u16 (cb_invalidDataTimeout (cf_bms c) / tickRateMs) in
  Some (mkFM 0 0 li 0 li 0 li 0 li 0 li 0 0 0 lb).

(** faultManager.c:238-244 *)
Definition classify (faults : Z) : fault_status :=
  if Z.land faults FAULT_MASK >? 0 then FS_Fault
  else if Z.land faults LV_ERROR_MASK >? 0 then FS_LvError
  else FS_NoFault.

(** faultManager.c:221-245. [None] for the snapshot: VehicleState_CopyState
    failed. The case of a null vehicleData pointer is modelled in Boot.v. *)
Definition fm_step (c : config) (s : fm_state) (snap : option vstate)
  : fm_state * fault_status :=
  match snap with
  | None => (s, FS_LvError)
  | Some d =>
      let '(f1, s1) := isFaultAccelPedal c s d in
      let s1 := fm_or s1 f1 in
      let '(f2, s2) := isFaultBrakePedal c s1 d in
      let s2 := fm_or s2 f2 in
      let '(f3, s3) := isFaultBMS c s2 d in
      let s3 := fm_or s3 f3 in
      let s4 := fm_or s3 (isFaultInverter c s3 d) in
      let s5 := fm_or s4 (isLVErrorBMS c s4 d) in
      let s6 := fm_or s5 (isLVErrorInverter c s5 d) in
      (s6, classify (fm_faults s6))
  end.

(** A history of snapshots, with the list of reports (oldest first). The calls of
    faultManager.c:221-245 from stateMachine.c:190. *)
Fixpoint fm_run (c : config) (s : fm_state) (h : list (option vstate))
  : fm_state * list fault_status :=
  match h with
  | [] => (s, [])
  | x :: t =>
      let '(s1, r) := fm_step c s x in
      let '(s2, rs) := fm_run c s1 t in
      (s2, r :: rs)
  end.
