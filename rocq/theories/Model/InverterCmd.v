(** The command half of vcu/device/inverter/cInverter.c *)
From Verif.Model Require Export VehicleState.

(** cInverter.h:66-77 *)
Inductive inv_status :=
| INV_OK | INV_ERROR_VALUE | INV_ERROR_LOCK | INV_ERROR_NOT_ENABLED
| INV_ERROR_CAN | INV_ERROR_DISCHARGE | INV_ERROR_NOT_DISABLED.

(** cInverter.h:34-41 struct CInverterCommand, without the mutex. *)
Record inv_cmd := mkInvCmd { ic_enabled : bool; ic_discharge : bool }.

(** cInverter.c:379: memset to 0 *)
Definition inv_cmd_init : inv_cmd := mkInvCmd false false.

(** cInverter.h:32: INVERTER_MAX_TORQUE 3276.7f *)
Definition INVERTER_MAX_TORQUE : f32 := f_lit 32767 10.

(** dataConversions.h:86-89: (int16_t)(10.0f * torque); [None]: undefined. *)
Definition torqueToMsg (torque : f32) : option Z := f_to_s16 (fmul (f_of_Z 10) torque).

(** cInverterCAN.h:152-164 CInverter_CAN_Command_T and cInverter.c:35-43: the
    eight raw bytes. *)
Definition command_bytes (torque dir : Z) (en dis : bool) : list Z :=
  [byte 0 torque; byte 1 torque;          (* torqueNm, int16 little endian *)
   0; 0;                                  (* speed *)
   Z.land dir 1;                          (* directionCommand *)
   b2z en + 2 * b2z dis;                  (* enable, discharge, speed mode 0 *)
   0; 0].                                 (* torqueLim *)

(** An attempt to transmit: the frame and whether CAN_SendMessage took it.
    can.c:302-344; cInverter.c:45-51. *)
Record tx := mkTx { tx_id : Z; tx_data : list Z; tx_ok : bool }.

(** cInverter.c:28-52 *)
Definition SendCANCommand (canOk : bool) (torque : f32) (dir : Z) (en dis : bool)
  : option tx :=
  match torqueToMsg torque with
  | Some m => Some (mkTx 0x0C0 (command_bytes m dir en dis) canOk)
  | None => None
  end.

(** Result of a driver call: new flags, attempted frames in order, status.
    cInverter.c:413-518. *)
Record inv_res := mkInvRes { ir_cmd : inv_cmd; ir_tx : list tx; ir_status : inv_status }.

(** cInverter.c:413-444. [None]: undefined conversion (only for NaN). *)
Definition SendTorqueCommand (lock canOk : bool) (c : inv_cmd) (torque : f32) (dir : Z)
  : option inv_res :=
  if flt torque f_zero || fgt torque INVERTER_MAX_TORQUE
  then Some (mkInvRes c [] INV_ERROR_VALUE)
  else if negb lock then Some (mkInvRes c [] INV_ERROR_LOCK)
  else if negb (ic_enabled c) then Some (mkInvRes c [] INV_ERROR_NOT_ENABLED)
  else match SendCANCommand canOk torque dir true false with
       | Some t => Some (mkInvRes c [t] (if tx_ok t then INV_OK else INV_ERROR_CAN))
       | None => None
       end.

(** A zero-torque forward frame: the argument pattern used three times below.
    cInverter.c:460-518. *)
Definition zero_tx (canOk en dis : bool) : tx :=
  mkTx 0x0C0 (command_bytes 0 DIR_FORWARD en dis) canOk.

(** cInverter.c:446-486. "canSucc = true; canSucc |= x" stays true. *)
Definition SendInverterEnabled (lock ok1 ok2 : bool) (c : inv_cmd) (en : bool) : inv_res :=
  if negb lock then mkInvRes c [] INV_ERROR_LOCK
  else if ic_discharge c && en then mkInvRes c [] INV_ERROR_DISCHARGE
  else
    let first := negb (ic_enabled c) && en in
    let canSucc := true in
    let canSucc := if first then canSucc || ok1 else canSucc in
    let canSucc := canSucc || ok2 in
    mkInvRes (mkInvCmd en (ic_discharge c))
             ((if first then [zero_tx ok1 false false] else []) ++ [zero_tx ok2 en false])
             (if canSucc then INV_OK else INV_ERROR_CAN).

(** cInverter.c:488-518 *)
Definition SendInverterDischarge (lock canOk : bool) (c : inv_cmd) (dis : bool) : inv_res :=
  if negb lock then mkInvRes c [] INV_ERROR_LOCK
  else if ic_enabled c && dis then mkInvRes c [] INV_ERROR_NOT_DISABLED
  else
    mkInvRes (mkInvCmd (if dis then false else ic_enabled c) dis)
             [zero_tx canOk false dis]
             (if canOk then INV_OK else INV_ERROR_CAN).
