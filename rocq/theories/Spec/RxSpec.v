(** What the BMS and inverter tables of the documentation say about a frame,
    and "the latest well-formed frame". *)
From Verif.Model Require Import VehicleState CanFrame.

(** Raw fields of a data array. *)
Definition raw_u8 (o : nat) (d : list Z) : Z := nth o d 0.
Definition raw_u16 (o : nat) (d : list Z) : Z := nth o d 0 + 256 * nth (S o) d 0.
Definition raw_s16 (o : nat) (d : list Z) : Z :=
  if raw_u16 o d <? 32768 then raw_u16 o d else raw_u16 o d - 65536.
Definition raw_u32 (o : nat) (d : list Z) : Z :=
  raw_u16 o d + 65536 * raw_u16 (S (S o)) d.

(** A queue entry counts when it is on our bus, has the id and length of the
    message, and the vehicle state could be locked for it. *)
Definition genuine (bus id : Z) (x : can_frame * bool) : bool :=
  (fr_bus (fst x) =? bus) && (fr_id (fst x) =? id) && (fr_dlc (fst x) =? 8) && snd x.

(** Value of a field after the queue [q]: from the last genuine frame [id] in
    [q], or [prev] when there is none. *)
Definition latest {A} (bus id : Z) (dec : list Z -> A) (prev : A) (q : list (can_frame * bool)) : A :=
  match find (genuine bus id) (rev q) with
  | Some (f, _) => dec (fr_data f)
  | None => prev
  end.

(** Fixed-point scalings, on binary32. *)
Definition times (raw : Z) (p q : Z) : f32 := fmul (f_of_Z raw) (f_lit p q).
Definition over (raw : Z) (q : Z) : f32 := fdiv (f_of_Z raw) (f_of_Z q).

(** The battery record after a queue of frames. *)
Definition battery_after (bus : Z) (q : list (can_frame * bool)) (b : battery_t) : battery_t :=
  let maxc {A} := @latest A bus 0x301 in
  let minc {A} := @latest A bus 0x302 in
  let pack {A} := @latest A bus 0x303 in
  let stat {A} := @latest A bus 0x304 in
  mkBattery
    (maxc (fun d => times (raw_s16 3 d) 1 10000) (b_maxCellVoltage b) q)
    (maxc (fun d => f_of_Z (raw_s16 0 d)) (b_maxCellTemperature b) q)
    (minc (fun d => times (raw_s16 3 d) 1 10000) (b_minCellVoltage b) q)
    (minc (fun d => f_of_Z (raw_s16 0 d)) (b_minCellTemperature b) q)
    (maxc (raw_u8 5) (b_maxCellVoltageCellID b) q)
    (maxc (raw_u8 2) (b_maxCellTemperatureCellID b) q)
    (minc (raw_u8 5) (b_minCellVoltageCellID b) q)
    (minc (raw_u8 2) (b_minCellTemperatureCellID b) q)
    (pack (fun d => times (raw_s16 0 d) 1 10) (b_dcCurrent b) q)
    (pack (fun d => times (raw_s16 2 d) 1 10) (b_dcVoltage b) q)
    (pack (fun d => times (raw_u16 4 d) 1 2) (b_stateOfCharge b) q)
    (b_faultIndicator b)
    (stat (raw_u8 1) (b_populatedCells b) q)
    (stat (raw_u8 0) (b_counter b) q)
    (stat (raw_u16 2) (b_failsafeStatus b) q).

(** Motor and inverter records after a queue of frames. *)
Definition motor_after (bus : Z) (q : list (can_frame * bool)) (m : motor_t) : motor_t :=
  mkMotor
    (latest bus 0x0A2 (fun d => over (raw_u16 4 d) 10) (m_temperature m) q)
    (latest bus 0x0A5 (fun d => over (raw_u16 0 d) 10) (m_angle m) q)
    (latest bus 0x0A5 (raw_s16 2) (m_speed m) q)
    (latest bus 0x0A6 (fun d => over (raw_s16 0 d) 10) (m_phaseACurrent m) q)
    (latest bus 0x0A6 (fun d => over (raw_s16 2 d) 10) (m_phaseBCurrent m) q)
    (latest bus 0x0A6 (fun d => over (raw_s16 4 d) 10) (m_phaseCCurrent m) q)
    (latest bus 0x0AC (fun d => over (raw_u16 2 d) 10) (m_calculatedTorque m) q).

Definition inverter_after (bus : Z) (q : list (can_frame * bool)) (v : inverter_t) : inverter_t :=
  mkInverter
    (latest bus 0x0A0 (fun d => over (raw_u16 0 d) 10) (v_moduleATemp v) q)
    (latest bus 0x0A0 (fun d => over (raw_u16 2 d) 10) (v_moduleBTemp v) q)
    (latest bus 0x0A0 (fun d => over (raw_u16 4 d) 10) (v_moduleCTemp v) q)
    (latest bus 0x0A0 (fun d => over (raw_u16 6 d) 10) (v_gateDriverTemp v) q)
    (latest bus 0x0A1 (fun d => over (raw_u16 0 d) 10) (v_controlBoardTemp v) q)
    (latest bus 0x0A5 (fun d => over (raw_u16 4 d) 10) (v_outputFrequency v) q)
    (latest bus 0x0A6 (fun d => over (raw_s16 6 d) 10) (v_dcBusCurrent v) q)
    (latest bus 0x0A7 (fun d => over (raw_u16 0 d) 10) (v_dcBusVoltage v) q)
    (latest bus 0x0A7 (fun d => over (raw_u16 2 d) 10) (v_outputVoltage v) q)
    (latest bus 0x0A7 (fun d => over (raw_u16 4 d) 10) (v_vd v) q)
    (latest bus 0x0A7 (fun d => over (raw_u16 6 d) 10) (v_vq v) q)
    (latest bus 0x0A8 (fun d => over (raw_u16 0 d) 1000) (v_fluxCommand v) q)
    (latest bus 0x0A8 (fun d => over (raw_u16 2 d) 1000) (v_fluxFeedback v) q)
    (latest bus 0x0A8 (fun d => over (raw_s16 4 d) 10) (v_idFeedback v) q)
    (latest bus 0x0A8 (fun d => over (raw_s16 6 d) 10) (v_iqFeedback v) q)
    (latest bus 0x0AD (fun d => over (raw_s16 4 d) 10) (v_idCommand v) q)
    (latest bus 0x0AD (fun d => over (raw_s16 6 d) 10) (v_iqCommand v) q)
    (latest bus 0x0AC (fun d => over (raw_u16 0 d) 10) (v_commandedTorque v) q)
    (latest bus 0x0AD (fun d => over (raw_u16 0 d) 100) (v_modulationIndex v) q)
    (latest bus 0x0AD (fun d => over (raw_s16 2 d) 10) (v_fluxWeakening v) q)
    (latest bus 0x0AA (raw_u8 0) (v_vsmState v) q)
    (latest bus 0x0AA (raw_u8 2) (v_inverterState v) q)
    (latest bus 0x0AA (fun d => raw_u8 4 d / 32) (v_dischargeState v) q)
    (latest bus 0x0AA (fun d => raw_u8 6 d mod 2) (v_enabled v) q)
    (latest bus 0x0AA (fun d => raw_u8 7 d mod 2) (v_direction v) q)
    (latest bus 0x0AC (raw_u32 4) (v_timerCounts v) q)
    (latest bus 0x0AB (raw_u32 4) (v_runFaults v) q)
    (latest bus 0x0AB (raw_u32 0) (v_postFaults v) q).

(** Only bytes occur in frames. *)
Definition frame_bytes (f : can_frame) : Prop := Forall is_byte (fr_data f).

