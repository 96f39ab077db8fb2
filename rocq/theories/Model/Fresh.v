(** The sensing task and the tasks that use its readings under the kernel's
    priorities: timer notifications, preemption and the mutex of the vehicle state
    with priority inheritance. *)
From Verif.Base Require Import Words.
From Verif.Model Require Export BootRun DiscreteSense.

(** Where a task is. [at] (an observer) is the number of timer ticks at the
    moment its present activation began.
    Waiting: in ulTaskNotifyTake at the top of its loop (e.g. discretesense.c:20,
    throttleController.c:46, vehicleStateManager.c:21).
    Running: outside the mutex; Wants: in xSemaphoreTake of the vehicle state
    (vehicleState.c:37, 51); Inside: holds the mutex (until vehicleState.c:44, 58). *)
Inductive stage := Waiting | Running (at_ : Z) | Wants (at_ : Z) | Inside (at_ : Z).

(** [f_note]: notification value of each task (uint32_t). [f_pub]: the sensing task
    has written its readings in the present activation. Observers: [f_now], timer
    ticks so far; [f_last], the last cycle published, with the number of ticks at
    the moment that activation of the sensing task began; [f_wait], ticks since the
    sensing task last took its notifications. The state behind it:
    vehicleState.h:50-63 and the kernel's task control blocks (tasks.c:254-326). *)
Record fresh := mkFresh {
  f_now : Z; f_note : Z -> Z; f_stage : Z -> stage; f_holder : option Z; f_vs : vstate;
  f_pub : bool; f_last : option (Z * ds_cycle); f_wait : Z }.

(** Update at one task. No code of its own (e.g. the notification values of
    tasks.c:254-326). *)
Definition put {A} (f : Z -> A) (t : Z) (v : A) : Z -> A := fun u => if u =? t then v else f u.

(** After initialisation (vehicleState.c:24-27): all tasks wait, the mutex is free.
    *)
Definition fresh_init (v : vstate) : fresh :=
  mkFresh 0 (fun _ => 0) (fun _ => Waiting) None v false None 0.

(** The tasks created by initialize.c (BootRun.v). initialize.c:245-268. *)
Definition task_ids : list Z :=
  [T_PC; T_WHEEL; T_INV; T_BMS; T_SENSE; T_WDT; T_THROTTLE; T_VSM; T_SDC; T_GPS].

(** Tasks registered with the 100 Hz timer: the callers of TaskTimer_RegisterTask
    (throttleController.c:106, watchdogTrigger.c:70, vehicleStateManager.c:64,
    orionBms.c:216, wheelspeed.c:187, pcinterface.c:169, cInverter.c:393,
    discretesense.c:111). *)
Definition on_timer (t : Z) : bool :=
  existsb (Z.eqb t) [T_PC; T_WHEEL; T_INV; T_BMS; T_SENSE; T_WDT; T_THROTTLE; T_VSM].

(** Blocked at vehicleState.c:37 or 51. *)
Definition is_wants (s : stage) : bool := match s with Wants _ => true | _ => false end.

(** queue.c xQueueSemaphoreTake / tasks.c xTaskPriorityInherit: the holder of the
    mutex runs with the highest priority of the tasks that wait for it. Other
    mutexes are left out: no task holds one of them when it takes its notifications
    or uses the vehicle state (C71). (queue.c:1554, tasks.c:3951). *)
Definition effective (s : fresh) (t : Z) : Z :=
  match f_holder s with
  | Some h =>
      if h =? t
      then fold_right Z.max (priority t)
             (map priority (filter (fun u => is_wants (f_stage s u)) task_ids))
      else priority t
  | None => priority t
  end.

(** Tasks certain to be ready: notified; waiting for a mutex that is free; inside
    it (no task blocks there, C71); the sensing task whenever it is active (it
    calls nothing that blocks, discretesense.c:22-73). Another task that is
    Running may be blocked elsewhere, so it constrains nobody: the schedules
    allowed here include those of the kernel. *)
Definition surely_ready (s : fresh) (u : Z) : bool :=
  match f_stage s u with
  | Waiting => negb (f_note s u =? 0)
  | Running _ => u =? T_SENSE
  | Wants _ => match f_holder s with None => true | Some _ => false end
  | Inside _ => true
  end.

(** The kernel never runs a task while one of higher priority is ready.
    vTaskSwitchContext, tasks.c:2947. *)
Definition kernel_allows (s : fresh) (t : Z) : bool :=
  forallb (fun u => negb (surely_ready s u) || (effective s u <=? effective s t)) task_ids.

(** The steps of a task at e.g. discretesense.c:20-73; the mutex is
    vehicleState.c:35-60. *)
Inductive action :=
| AStart                  (* takes its notifications *)
| ACall                   (* calls xSemaphoreTake *)
| ATake                   (* obtains the mutex *)
| APublish (cy : ds_cycle)(* the sensing task writes its readings *)
| AWrite (v : vstate)     (* another task writes its own fields *)
| AGive                   (* releases the mutex *)
| ADone.                  (* back to the top of its loop *)

(** Fields other than those of the sensing task: no other code writes data.inputs or
    data.dash. The writers of those are discretesense.c:47-68. *)
Definition others_of (v old : vstate) : vstate := set_dash (set_inputs v (vs_inputs old)) (vs_dash old).

(** The sensing task waits for the mutex without limit, so it obtains it.
    vehicleState.c:51 (portMAX_DELAY). *)
Definition locked (cy : ds_cycle) : ds_cycle :=
  mkCycle (cy_A cy) (cy_B cy) (cy_front cy) (cy_rear cy) (cy_button cy) true.

(** Task [t] goes on to [g]. No code of its own (places in e.g.
    discretesense.c:20-73). *)
Definition set_stage (s : fresh) (t : Z) (g : stage) : fresh :=
  mkFresh (f_now s) (f_note s) (put (f_stage s) t g) (f_holder s) (f_vs s) (f_pub s) (f_last s)
          (f_wait s).
(** The mutex holder, vehicleState.c:37, 44, 51, 58. *)
Definition set_holder (s : fresh) (h : option Z) : fresh :=
  mkFresh (f_now s) (f_note s) (f_stage s) h (f_vs s) (f_pub s) (f_last s) (f_wait s).

(** One action of task [t]; one that is not possible does nothing.
    discretesense.c:20-73 for the sensing task, which publishes once inside the
    mutex; the others may enter the mutex any number of times per activation. *)
Definition act_step (d : ds_scaling) (s : fresh) (t : Z) (a : action) : fresh :=
  let sense := t =? T_SENSE in
  match a, f_stage s t with
  | AStart, Waiting =>
      if f_note s t =? 0 then s else
      let s1 := set_stage s t (Running (f_now s)) in
      mkFresh (f_now s1) (put (f_note s1) t 0) (f_stage s1) (f_holder s1) (f_vs s1)
              (if sense then false else f_pub s1) (f_last s1)
              (if sense then 0 else f_wait s1)
  | ACall, Running a => if sense && f_pub s then s else set_stage s t (Wants a)
  | ATake, Wants a =>
      match f_holder s with
      | None => set_holder (set_stage s t (Inside a)) (Some t)
      | Some _ => s
      end
  | APublish cy, Inside a =>
      if sense then
        mkFresh (f_now s) (f_note s) (f_stage s) (f_holder s) (ds_step d (f_vs s) (locked cy))
                true (Some (a, cy)) (f_wait s)
      else s
  | AWrite v, Inside _ =>
      if sense then s else
      mkFresh (f_now s) (f_note s) (f_stage s) (f_holder s) (others_of v (f_vs s)) (f_pub s)
              (f_last s) (f_wait s)
  | AGive, Inside a =>
      if sense && negb (f_pub s) then s else set_holder (set_stage s t (Running a)) None
  | ADone, Running _ => if sense && negb (f_pub s) then s else set_stage s t Waiting
  | _, _ => s
  end.

(** The timer interrupt (tasktimer.c:116-124); another notification (GPS, SDC: from
    an interrupt); an action of a task. *)
Inductive f_event := FTick | FNotify (t : Z) | FRun (t : Z) (a : action).

(** One event; the timer notifies the registered tasks (tasktimer.c:116-124). *)
Definition fresh_step (d : ds_scaling) (s : fresh) (ev : f_event) : fresh :=
  match ev with
  | FTick =>
      mkFresh (f_now s + 1) (fun u => if on_timer u then u32 (f_note s u + 1) else f_note s u)
              (f_stage s) (f_holder s) (f_vs s) (f_pub s) (f_last s) (f_wait s + 1)
  | FNotify t =>
      if t =? T_SENSE then s else
      mkFresh (f_now s) (put (f_note s) t (u32 (f_note s t + 1))) (f_stage s) (f_holder s) (f_vs s)
              (f_pub s) (f_last s) (f_wait s)
  | FRun t a =>
      if existsb (Z.eqb t) task_ids && kernel_allows s t then act_step d s t a else s
  end.

(** A history of events. No code of its own (drives discretesense.c:20-73 and
    tasktimer.c:116-124). *)
Definition fresh_run (d : ds_scaling) (v : vstate) (tr : list f_event) : fresh :=
  fold_left (fresh_step d) tr (fresh_init v).
