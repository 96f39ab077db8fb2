(** What the fault table of the README (and faultManager.h:71-80) promises,
    written on vehicle-state snapshots only. *)
From Verif.Model Require Import VehicleState.

(** The fault kinds for which the firmware contains a check. *)
Inductive fault_kind :=
| AccelRange | AccelDisagree | BrakeRange | PedalAbuse
| CellOverTemp | PackOverCurrent | CellOverVoltage | LowCharge | BmsIndicator.

Definition all_kinds : list fault_kind :=
  [AccelRange; AccelDisagree; BrakeRange; PedalAbuse;
   CellOverTemp; PackOverCurrent; CellOverVoltage; LowCharge; BmsIndicator].

(** Bit number of each fault code in the 32-bit fault word. *)
Definition fault_bit (k : fault_kind) : Z :=
  match k with
  | AccelRange => 8 | AccelDisagree => 9 | BrakeRange => 10 | PedalAbuse => 12
  | CellOverTemp => 13 | PackOverCurrent => 14 | CellOverVoltage => 15
  | LowCharge => 16 | BmsIndicator => 17
  end.

Definition within (raw : Z) (c : adccal_t) : bool :=
  (c_rawLower c <=? raw) && (raw <=? c_rawUpper c).

(** The documented condition of each fault in one snapshot. [flt a b] is the
    IEEE comparison a < b (false when either is NaN). *)
Definition fault_cond (c : config) (k : fault_kind) (d : vstate) : bool :=
  let ci := cf_inputs c in let cb := cf_bms c in
  let i := vs_inputs d in let b := vs_battery d in
  match k with
  | AccelRange => negb (within (i_accelRawA i) (ci_calA ci) && within (i_accelRawB i) (ci_calB ci))
  | AccelDisagree => flt (ci_consistencyLimit ci) (fabs (fsub (i_accelA i) (i_accelB i)))
  | BrakeRange => negb (within (i_brakeRawFront i) (ci_brakeFront ci) && within (i_brakeRawRear i) (ci_brakeRear ci))
  | PedalAbuse => (ci_abuseEnabled ci =? 1) && flt (ci_abuseAccel ci) (i_accel i)
                  && flt (ci_abuseBrake ci) (i_brakePresFront i)
  | CellOverTemp => flt (f_of_Z (cb_maxCellTemp cb)) (b_maxCellTemperature b)
  | PackOverCurrent => flt (f_of_Z (cb_maxCurrent cb)) (b_dcCurrent b)
  | CellOverVoltage => flt (f_of_Z (cb_maxCellVoltage cb)) (b_maxCellVoltage b)
  | LowCharge => flt (b_stateOfCharge b) (f_of_Z (cb_minSoc cb))
  | BmsIndicator => b_faultIndicator b
  end.

(** Number of further consecutive bad samples tolerated after the first. *)
Definition tolerance (c : config) (tickRateMs : Z) (k : fault_kind) : Z :=
  match k with
  | AccelRange | AccelDisagree | BrakeRange | PedalAbuse =>
      ci_invalidDataTimeout (cf_inputs c) / tickRateMs
  | CellOverTemp | PackOverCurrent | CellOverVoltage =>
      cb_invalidDataTimeout (cf_bms c) / tickRateMs
  | LowCharge | BmsIndicator => 0
  end.

(** The snapshots that were actually obtained (failed copies are skipped). *)
Fixpoint evaluated (h : list (option vstate)) : list vstate :=
  match h with
  | [] => []
  | Some d :: t => d :: evaluated t
  | None :: t => evaluated t
  end.

(** [n]+1 consecutive elements of [l] all satisfy [p]. *)
Definition sustained {A} (p : A -> bool) (n : Z) (l : list A) : Prop :=
  exists before window after,
    l = before ++ window ++ after /\
    Z.of_nat (length window) = n + 1 /\
    forallb p window = true.

(** The configuration holds uint16_t time-outs and the tick is a positive
    uint32_t (configData.h:36,48; faultManager.h:40). *)
Definition cfg_ok (c : config) (tickRateMs : Z) : Prop :=
  0 <= ci_invalidDataTimeout (cf_inputs c) < 65536 /\
  0 <= cb_invalidDataTimeout (cf_bms c) < 65536 /\
  0 < tickRateMs < 4294967296.
