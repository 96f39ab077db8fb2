(** vcu/device/pdm/pdm.c: power distribution outputs. *)
From Verif.Base Require Export Words Gpio.
From Verif.Base Require Import Mem.
From Verif.Model Require Export VehicleState.

(** pdm.h:21-28 *)
Definition PDM_STATUS_OK : Z := 0.
(** pdm.h:24 *)
Definition PDM_STATUS_ERROR_DEPENDS : Z := 1.
(** pdm.h:25 *)
Definition PDM_STATUS_ERROR_CONFIG : Z := 2.
(** pdm.h:26 *)
Definition PDM_STATUS_ERROR_INVALID_CH : Z := 3.
(** pdm.h:27 *)
Definition PDM_STATUS_ERROR_STATE : Z := 4.

(** vehicleStateTypes.h:54 *)
Definition VEHICLESTATE_MAXPDM_CHANNELS : Z := 8.   (* vehicleStateTypes.h *)

(** pdm.h:35-44: the channel array ([None]: NULL) and numChannels. *)
Record pdm_cfg := mkPdm { pd_channels : option (list pin); pd_num : Z }.

(** pdm.c:14-35, given the answers of the dependency checks. *)
Definition PDM_Init (dependsOk : bool) (p : pdm_cfg) : Z :=
  if negb dependsOk then PDM_STATUS_ERROR_DEPENDS
  else
    let isNull := match pd_channels p with None => true | Some _ => false end in
    if (isNull && (pd_num p >? 0)) || (negb isNull && (pd_num p =? 0)) then PDM_STATUS_ERROR_CONFIG
    else if pd_num p >? VEHICLESTATE_MAXPDM_CHANNELS then PDM_STATUS_ERROR_CONFIG
    else PDM_STATUS_OK.

(** The two things a call changes: the pins and glv.pdmChState.
    vehicleStateTypes.h:56-58. *)
Record pdm_world := mkPw { pw_gpio : gpio; pw_state : list bool }.

(** pdm.c:37-57. [lock] is the answer of VehicleState_AccessAcquire (47).
    [None]: access outside pdmChState or the channel array. *)
Definition PDM_SetOutputEnabled (p : pdm_cfg) (w : pdm_world) (channel : Z) (state lock : bool)
    : option (pdm_world * Z) :=
  if channel >=? pd_num p then Some (w, PDM_STATUS_ERROR_INVALID_CH)
  else if negb lock then Some (w, PDM_STATUS_ERROR_STATE)
  else
    st <- wr (pw_state w) channel state ;;
    chans <- pd_channels p ;;
    q <- rd chans channel ;;
    Some (mkPw (GPIO_WritePin (pw_gpio w) q state) st, PDM_STATUS_OK).

(** A sequence of calls (channel, state, lock answer). Drives pdm.c:37-57. *)
Fixpoint pdm_run (p : pdm_cfg) (w : pdm_world) (calls : list (Z * bool * bool)) : option pdm_world :=
  match calls with
  | [] => Some w
  | (ch, st, lk) :: tl => ' (w', _) <- PDM_SetOutputEnabled p w ch st lk ;; pdm_run p w' tl
  end.
