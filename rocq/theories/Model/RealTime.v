(** The state-manager and throttle tasks in real time: the 100 Hz task timer
    (system-lib/tasktimer) wakes them by direct-to-task notifications, and each
    activation takes the whole notification value. *)
From Verif.Base Require Import Words.
From Verif.Model Require Export Ecu.

(** [rt_nv], [rt_nt]: notification values of the state-manager task and of the
    throttle task (FreeRTOS tasks.c, ulNotifiedValue, uint32_t). The values are
    given back by ulTaskNotifyTake at vehicleStateManager.c:21 and
    throttleController.c:46. *)
Record timed := mkTimed { rt_ecu : ecu; rt_nv : Z; rt_nt : Z }.

(** Both tasks created, nothing notified yet (vehicleStateManager.c:54,
    throttleController.c:96). *)
Definition rt_init (m0 : vsm) : timed := mkTimed (ecu_init m0) 0 0.

(** tasktimer.c:94-125 and the two task loops (vehicleStateManager.c:18-36,
    throttleController.c:43-75). *)
Inductive rt_event :=
| RtTick                       (* the 100 Hz timer interrupt *)
| RtEcu (ev : ecu_event).      (* a piece of work of one of the tasks *)

(** tasktimer.c:116-122: one notification to every registered task. Both tasks
    register for 100 Hz (vehicleStateManager.c:63-67, throttleController.c:105-109);
    vTaskNotifyGiveFromISR adds 1 to the value. Simplification: the two values
    are raised together, as no task runs inside the interrupt.
    vehicleStateManager.c:21-25 and throttleController.c:46-47: an activation
    begins only when the task is back at the top of its loop and its value is not
    zero, and [ulTaskNotifyTake(pdTRUE, ...)] then clears the value; a time-out
    (value zero) does nothing. *)
Definition rt_step (c : config) (tick : Z) (x : timed) (ev : rt_event) : timed :=
  match ev with
  | RtTick => mkTimed (rt_ecu x) (u32 (rt_nv x + 1)) (u32 (rt_nt x + 1))
  | RtEcu (EvVsm i) =>
      match e_pend (rt_ecu x) with
      | Some _ => x
      | None => if rt_nv x =? 0 then x
                else mkTimed (ecu_step c tick (rt_ecu x) (EvVsm i)) 0 (rt_nt x)
      end
  | RtEcu (EvPedal live) =>
      match e_tpc (rt_ecu x) with
      | TIdle => if rt_nt x =? 0 then x
                 else mkTimed (ecu_step c tick (rt_ecu x) (EvPedal live)) (rt_nv x) 0
      | _ => x
      end
  | RtEcu e => mkTimed (ecu_step c tick (rt_ecu x) e) (rt_nv x) (rt_nt x)
  end.

(** A history of these events. No code of its own (drives tasktimer.c:94-125). *)
Definition rt_run (c : config) (tick : Z) (m0 : vsm) (tr : list rt_event) : timed :=
  fold_left (rt_step c tick) tr (rt_init m0).
