(** FreeRTOS V10.2.1, how the kernel keeps time (cube-proj/Lib/FreeRTOS/Source/tasks.c):
    the 32-bit tick count, the two lists of delayed tasks, the time of the next
    wake-up, ticks and wake-ups while the scheduler is suspended, time-outs of calls.

    INCLUDE_vTaskSuspend is 1, configUSE_TICKLESS_IDLE and INCLUDE_xTaskAbortDelay are 0
    (FreeRTOSConfig.h:52-95). Which of the ready tasks runs is not modelled here. A
    failing configASSERT is None. xNumOfOverflows and uxSchedulerSuspended do not wrap
    in the model (2^31 wraps of the tick count; nested suspensions). *)
From Verif.Base Require Export Words.

(** portMAX_DELAY of the port (portmacro.h, 32-bit ticks; tasks.c:2049). *)
Definition portMAX_DELAY : Z := 2 ^ 32 - 1.

(** [kt_delayed], [kt_over]: pxDelayedTaskList and pxOverflowDelayedTaskList as tasks
    with their item values, first one first; [kt_forever]: xSuspendedTaskList;
    [kt_ready]: xPendingReadyList. tasks.c:340-400. *)
Record ktime := mkKt {
  kt_tick : Z; kt_ovf : Z; kt_delayed : list (Z * Z); kt_over : list (Z * Z); kt_forever : list Z;
  kt_next : Z; kt_susp : Z; kt_pend : Z; kt_ready : list Z }.

(** vListInsert, list.c:96-158: in ascending order, behind equal values; the value
    portMAX_DELAY goes to the end (122-124). *)
Fixpoint sorted_insert (e : Z * Z) (l : list (Z * Z)) : list (Z * Z) :=
  match l with
  | [] => [e]
  | x :: r => if snd x <=? snd e then x :: sorted_insert e r else e :: x :: r
  end.
Definition vListInsert (e : Z * Z) (l : list (Z * Z)) : list (Z * Z) :=
  if snd e =? portMAX_DELAY then l ++ [e] else sorted_insert e l.

(** prvResetNextTaskUnblockTime, tasks.c:3880-3902 *)
Definition next_unblock (l : list (Z * Z)) : Z :=
  match l with [] => portMAX_DELAY | (_, w) :: _ => w end.

(** The loop of xTaskIncrementTick, tasks.c:2700-2765: take out the tasks whose time
    has come; the rest, and xNextTaskUnblockTime. *)
Fixpoint unblock (tick : Z) (l : list (Z * Z)) : list (Z * Z) * Z :=
  match l with
  | [] => ([], portMAX_DELAY)
  | (t, w) :: r => if tick <? w then (l, w) else unblock tick r
  end.

(** xTaskIncrementTick, tasks.c:2665-2832, and taskSWITCH_DELAYED_LISTS (198-210). *)
Definition xTaskIncrementTick (k : ktime) : option ktime :=
  if kt_susp k =? 0 then
    let tick := u32 (kt_tick k + 1) in
    let due k :=
      if kt_next k <=? tick then
        let p := unblock tick (kt_delayed k) in
        mkKt tick (kt_ovf k) (fst p) (kt_over k) (kt_forever k) (snd p) (kt_susp k) (kt_pend k) (kt_ready k)
      else mkKt tick (kt_ovf k) (kt_delayed k) (kt_over k) (kt_forever k) (kt_next k) (kt_susp k) (kt_pend k) (kt_ready k) in
    if tick =? 0 then
      match kt_delayed k with
      | [] => Some (due (mkKt tick (kt_ovf k + 1) (kt_over k) [] (kt_forever k) (next_unblock (kt_over k))
                              (kt_susp k) (kt_pend k) (kt_ready k)))
      | _ => None
      end
    else Some (due k)
  else Some (mkKt (kt_tick k) (kt_ovf k) (kt_delayed k) (kt_over k) (kt_forever k) (kt_next k) (kt_susp k)
                  (u32 (kt_pend k + 1)) (kt_ready k)).

(** prvAddCurrentTaskToDelayedList, tasks.c:5081-5152; [forever]: xCanBlockIndefinitely. *)
Definition prvAddCurrentTaskToDelayedList (k : ktime) (t n : Z) (forever : bool) : ktime :=
  if (n =? portMAX_DELAY) && forever then
    mkKt (kt_tick k) (kt_ovf k) (kt_delayed k) (kt_over k) (kt_forever k ++ [t]) (kt_next k) (kt_susp k) (kt_pend k) (kt_ready k)
  else
    let w := u32 (kt_tick k + n) in
    if w <? kt_tick k then
      mkKt (kt_tick k) (kt_ovf k) (kt_delayed k) (vListInsert (t, w) (kt_over k)) (kt_forever k) (kt_next k)
           (kt_susp k) (kt_pend k) (kt_ready k)
    else
      mkKt (kt_tick k) (kt_ovf k) (vListInsert (t, w) (kt_delayed k)) (kt_over k) (kt_forever k)
           (if w <? kt_next k then w else kt_next k) (kt_susp k) (kt_pend k) (kt_ready k).

(** Is the task in one of the lists, that is, not ready (tasks.c:340-400)? *)
Definition blocked (k : ktime) (t : Z) : bool :=
  existsb (Z.eqb t) (map fst (kt_delayed k) ++ map fst (kt_over k) ++ kt_forever k).

(** uxListRemove of a task's xStateListItem (tasks.c:3118, 2206). *)
Definition take_out (k : ktime) (gone : Z -> bool) : ktime :=
  mkKt (kt_tick k) (kt_ovf k) (filter (fun e => negb (gone (fst e))) (kt_delayed k))
       (filter (fun e => negb (gone (fst e))) (kt_over k)) (filter (fun t => negb (gone t)) (kt_forever k))
       (kt_next k) (kt_susp k) (kt_pend k) (kt_ready k).

(** An event wakes task [t]: xTaskRemoveFromEventList, tasks.c:3094-3145, and
    vTaskNotifyGiveFromISR, tasks.c:4957-5040. *)
Definition wake (k : ktime) (t : Z) : ktime :=
  if blocked k t then
    if kt_susp k =? 0 then take_out k (Z.eqb t)
    else mkKt (kt_tick k) (kt_ovf k) (kt_delayed k) (kt_over k) (kt_forever k) (kt_next k) (kt_susp k) (kt_pend k) (kt_ready k ++ [t])
  else k.

(** The ticks missed, tasks.c:2228-2250. *)
Fixpoint missed_ticks (n : nat) (k : ktime) : option ktime :=
  match n with
  | O => Some k
  | S n => match xTaskIncrementTick k with Some k' => missed_ticks n k' | None => None end
  end.

(** Change of uxSchedulerSuspended. tasks.c:2106, 2190. *)
Definition with_susp (k : ktime) (n : Z) : ktime :=
  mkKt (kt_tick k) (kt_ovf k) (kt_delayed k) (kt_over k) (kt_forever k) (kt_next k) n (kt_pend k) (kt_ready k).

(** xTaskResumeAll, tasks.c:2174-2286 *)
Definition xTaskResumeAll (k : ktime) : option ktime :=
  if kt_susp k =? 0 then None
  else if kt_susp k - 1 =? 0 then
    let k1 := take_out (with_susp k 0) (fun t => existsb (Z.eqb t) (kt_ready k)) in
    let k2 := mkKt (kt_tick k1) (kt_ovf k1) (kt_delayed k1) (kt_over k1) (kt_forever k1)
                   (match kt_ready k with [] => kt_next k1 | _ => next_unblock (kt_delayed k1) end) 0 (kt_pend k1) [] in
    match missed_ticks (Z.to_nat (kt_pend k)) k2 with
    | Some k3 => Some (mkKt (kt_tick k3) (kt_ovf k3) (kt_delayed k3) (kt_over k3) (kt_forever k3) (kt_next k3) 0 0 (kt_ready k3))
    | None => None
    end
  else Some (with_susp k (kt_susp k - 1)).

(** Events (tasks.c:5081, 3094, 2652, 2100, 2174): the running task [t] goes to sleep for [n] ticks, something wakes [t], the
    tick interrupt, vTaskSuspendAll, xTaskResumeAll. *)
Inductive tevent :=
| TSleep (t n : Z) (forever : bool)
| TWake (t : Z)
| TTick
| TSuspend
| TResume.

(** One event. Only a task that is in no list runs and can go to sleep.
    tasks.c:2100-2286, 2665-2832, 3094-3145, 5081-5152. *)
Definition kt_step (k : ktime) (ev : tevent) : option ktime :=
  match ev with
  | TSleep t n f => if blocked k t then Some k else Some (prvAddCurrentTaskToDelayedList k t n f)
  | TWake t => Some (wake k t)
  | TTick => xTaskIncrementTick k
  | TSuspend => Some (with_susp k (kt_susp k + 1))
  | TResume => xTaskResumeAll k
  end.

(** A history of events. No code of its own (drives tasks.c:2100-5152). *)
Fixpoint kt_run (k : ktime) (tr : list tevent) : option ktime :=
  match tr with
  | [] => Some k
  | ev :: r => match kt_step k ev with Some k' => kt_run k' r | None => None end
  end.

(** vTaskStartScheduler, tasks.c:2044-2051; [first]: configINITIAL_TICK_COUNT, 0 in
    this firmware (FreeRTOS.h:867-869). *)
Definition kt_start (first : Z) : ktime := mkKt first 0 [] [] [] portMAX_DELAY 0 0 [].

(** ** Time-outs of calls *)
(** TimeOut_t and xTicksToWait of a call (task.h; queue.c:905, 913). *)
Record timeout := mkTo { to_ovf : Z; to_entered : Z; to_wait : Z }.

(** vTaskInternalSetTimeOutState, tasks.c:3208-3213 *)
Definition set_timeout (k : ktime) (n : Z) : timeout := mkTo (kt_ovf k) (kt_tick k) n.

(** xTaskCheckForTimeOut, tasks.c:3216-3275: expired or not, and the new state. *)
Definition xTaskCheckForTimeOut (k : ktime) (o : timeout) : bool * timeout :=
  let elapsed := u32 (kt_tick k - to_entered o) in
  if to_wait o =? portMAX_DELAY then (false, o)
  else if negb (kt_ovf k =? to_ovf o) && (to_entered o <=? kt_tick k) then (true, o)
  else if elapsed <? to_wait o then (false, set_timeout k (u32 (to_wait o - elapsed)))
  else (true, mkTo (to_ovf o) (to_entered o) 0).
