(** FreeRTOS V10.2.1, mutexes with priority inheritance and the choice of the running
    task (cube-proj/Lib/FreeRTOS/Source/queue.c, tasks.c).

    A critical section, and a section with the scheduler suspended, is one step: no
    other task runs in between, and what interrupts do meanwhile takes effect at the
    end (C98). configUSE_PORT_OPTIMISED_TASK_SELECTION and configUSE_PREEMPTION are 1
    (FreeRTOSConfig.h:58-72). Priorities of tasks are not changed by the firmware (no
    call of vTaskPrioritySet), so uxBasePriority is the parameter [base]. Event groups
    are not used (no item value is "in use"). A failing configASSERT is None. *)
From Verif.Base Require Export Words.

(** FreeRTOSConfig.h:65 *)
Definition MAX_PRIORITIES : Z := 7.
(** The idle task, created with priority 0 (tasks.c:1983-2027); it makes no calls
    (configUSE_IDLE_HOOK is 0, FreeRTOSConfig.h:61). *)
Definition IDLE : Z := 0.

(** xTicksToWait of a call: 0, finite, portMAX_DELAY. queue.c:1414 *)
Inductive wait := NoWait | Bounded | Endless.

(** Where a task is: outside the calls modelled here; blocked in another call; or in
    xQueueSemaphoreTake (queue.c:1414-1626) with its xInheritanceOccurred: before the
    first critical section, before the section with the scheduler suspended, asleep,
    before the look at the count after a time-out, before the last critical section. *)
Inductive pc :=
| Out
| Away
| Try (m : Z) (w : wait) (inh : bool)
| Check (m : Z) (w : wait) (inh : bool)
| Asleep (m : Z) (w : wait) (inh : bool)
| Late (m : Z) (w : wait) (inh : bool)
| Undo (m : Z).

(** TCB_t: uxPriority, uxMutexesHeld, item value of xEventListItem. tasks.c:255-330 *)
Record tcb := mkT { t_prio : Z; t_held : Z; t_item : Z; t_pc : pc }.
(** Queue_t of a mutex: uxMessagesWaiting, xMutexHolder, xTasksWaitingToReceive.
    queue.c:97-130 *)
Record mutex := mkM { m_count : Z; m_holder : option Z; m_wait : list Z }.
(** What a call did. queue.c:747, 1414 *)
Inductive act := Took | Missed | Gave.
(** [k_ready]: pxReadyTasksLists; [k_top]: uxTopReadyPriority; [k_yield]: a switch of
    context is pending; [k_log]: what was done so far. tasks.c:340-400 *)
Record km := mkK {
  k_task : Z -> tcb; k_ready : Z -> list Z; k_top : Z; k_cur : Z; k_yield : bool;
  k_mx : Z -> mutex; k_log : list (Z * act * Z) }.

(** Updates of single fields. No code of their own (tasks.c, queue.c assignments, e.g.
    tasks.c:4075). *)
Definition upd {A} (f : Z -> A) (i : Z) (v : A) : Z -> A := fun x => if x =? i then v else f x.
(** tasks.c:4075 and the like *)
Definition set_task (k : km) (t : Z) (v : tcb) : km :=
  mkK (upd (k_task k) t v) (k_ready k) (k_top k) (k_cur k) (k_yield k) (k_mx k) (k_log k).
(** tasks.c:2947 and the like: where a task goes on *)
Definition set_pc (k : km) (t : Z) (p : pc) : km :=
  let c := k_task k t in set_task k t (mkT (t_prio c) (t_held c) (t_item c) p).
(** tasks.c:3976-4000: priority and item value *)
Definition set_prio (k : km) (t p : Z) : km :=
  let c := k_task k t in set_task k t (mkT p (t_held c) (MAX_PRIORITIES - p) (t_pc c)).
(** queue.c:1465, 2087 *)
Definition set_mx (k : km) (m : Z) (v : mutex) : km :=
  mkK (k_task k) (k_ready k) (k_top k) (k_cur k) (k_yield k) (upd (k_mx k) m v) (k_log k).
(** portYIELD_WITHIN_API, queueYIELD_IF_USING_PREEMPTION: queue.c:876, 1568 *)
Definition pend_yield (k : km) (b : bool) : km :=
  mkK (k_task k) (k_ready k) (k_top k) (k_cur k) (k_yield k || b) (k_mx k) (k_log k).
(** The value a call returns. queue.c:1497, 1514 *)
Definition note (k : km) (a : act) (m : Z) : km :=
  mkK (k_task k) (k_ready k) (k_top k) (k_cur k) (k_yield k) (k_mx k) (k_log k ++ [(k_cur k, a, m)]).

(** prvAddTaskToReadyList, tasks.c:215-220; portRECORD_READY_PRIORITY, portmacro.h:144.
    The place in the list does not matter here. *)
Definition add_ready (k : km) (t : Z) : km :=
  let p := t_prio (k_task k t) in
  mkK (k_task k) (upd (k_ready k) p (k_ready k p ++ [t])) (Z.setbit (k_top k) p) (k_cur k) (k_yield k) (k_mx k) (k_log k).
(** listIS_CONTAINED_WITHIN a list of ready tasks. tasks.c:3986 *)
Definition in_ready (k : km) (p t : Z) : bool := existsb (Z.eqb t) (k_ready k p).
(** uxListRemove of a task that is in the list of priority [p], list.c:160-188 *)
Definition drop_ready (k : km) (p t : Z) : km :=
  mkK (k_task k) (upd (k_ready k) p (filter (fun u => negb (u =? t)) (k_ready k p))) (k_top k) (k_cur k) (k_yield k)
      (k_mx k) (k_log k).
(** "if( uxListRemove( ... ) == 0 ) taskRESET_READY_PRIORITY( q )": the task leaves the
    list of priority [p]; if that leaves the list empty, and the list of [q] is empty,
    the bit of [q] is cleared. tasks.c:179-186, 3988-3991; portmacro.h:145 *)
Definition leave_ready (k : km) (p t q : Z) : km :=
  let k1 := drop_ready k p t in
  match k_ready k1 p, k_ready k1 q with
  | [], [] => mkK (k_task k1) (k_ready k1) (Z.clearbit (k_top k1) q) (k_cur k1) (k_yield k1) (k_mx k1) (k_log k1)
  | _, _ => k1
  end.

(** vTaskSwitchContext, tasks.c:2947-3013 with taskSELECT_HIGHEST_PRIORITY_TASK
    (155-164) and portGET_HIGHEST_PRIORITY (portmacro.h:149): one of the tasks in the
    list of the highest bit, which of them ([n]) depends on the list's index. *)
Definition switch (k : km) (n : nat) : option km :=
  if k_top k <=? 0 then None
  else
    match k_ready k (Z.log2 (k_top k)) with
    | [] => None
    | t :: r => Some (mkK (k_task k) (k_ready k) (k_top k) (nth (n mod length (t :: r)) (t :: r) t) false (k_mx k) (k_log k))
    end.

(** vTaskPlaceOnEventList, tasks.c:3019-3033 with vListInsert (list.c:96-158): behind
    the tasks whose item value is not greater. *)
Fixpoint place (k : km) (t : Z) (l : list Z) : list Z :=
  match l with
  | [] => [t]
  | u :: r => if t_item (k_task k u) <=? t_item (k_task k t) then u :: place k t r else t :: l
  end.

Section Base.
Variable base : Z -> Z.

(** xTaskPriorityInherit, tasks.c:3951-4032, called by the running task. *)
Definition xTaskPriorityInherit (k : km) (holder : option Z) : km * bool :=
  match holder with
  | None => (k, false)
  | Some h =>
      let p := t_prio (k_task k h) in
      let mine := t_prio (k_task k (k_cur k)) in
      if p <? mine then
        (if in_ready k p h then add_ready (set_prio (leave_ready k p h p) h mine) h else set_prio k h mine, true)
      else (k, base h <? mine)
  end.

(** xTaskPriorityDisinherit, tasks.c:4038-4112: the new state, and whether to yield. A
    task is in the list of its priority, or the outcome is None. *)
Definition xTaskPriorityDisinherit (k : km) (holder : option Z) : option (km * bool) :=
  match holder with
  | None => Some (k, false)
  | Some h =>
      if negb (h =? k_cur k) then None
      else
        let c := k_task k h in
        if t_held c =? 0 then None
        else
          let k1 := set_task k h (mkT (t_prio c) (t_held c - 1) (t_item c) (t_pc c)) in
          if negb (t_prio c =? base h) && (t_held c - 1 =? 0) then
            if in_ready k (t_prio c) h
            then Some (add_ready (set_prio (leave_ready k1 (t_prio c) h (t_prio c)) h (base h)) h, true)
            else None
          else Some (k1, false)
  end.

(** vTaskPriorityDisinheritAfterTimeout, tasks.c:4118-4214. The priority has its new
    value when taskRESET_READY_PRIORITY is called (4162, 4187-4189). *)
Definition disinherit_after_timeout (k : km) (holder : option Z) (highest : Z) : option km :=
  match holder with
  | None => Some k
  | Some h =>
      let c := k_task k h in
      if t_held c =? 0 then None
      else
        let use := if base h <? highest then highest else base h in
        if negb (t_prio c =? use) && (t_held c =? 1) then
          if h =? k_cur k then None
          else
            let k1 := set_prio k h use in
            if in_ready k (t_prio c) h then Some (add_ready (leave_ready k1 (t_prio c) h use) h) else Some k1
        else Some k
  end.

(** prvGetDisinheritPriorityAfterTimeout, queue.c:2045-2066 *)
Definition highest_waiting (k : km) (m : Z) : Z :=
  match m_wait (k_mx k m) with [] => 0 | u :: _ => MAX_PRIORITIES - t_item (k_task k u) end.

(** The running task goes on with xQueueSemaphoreTake, queue.c:1414-1626; [expired]:
    what xTaskCheckForTimeOut says for a finite time. Nobody waits to give a mutex: it
    is given without waiting (queue.c:1480-1495 has no effect). *)
Definition take_step (k : km) (expired : bool) : option km :=
  let t := k_cur k in
  match t_pc (k_task k t) with
  | Try m w inh =>                                    (* 1444-1526 *)
      let x := k_mx k m in
      if 0 <? m_count x then
        let c := k_task k t in
        let k1 := set_mx k m (mkM (m_count x - 1) (Some t) (m_wait x)) in
        Some (note (set_task k1 t (mkT (t_prio c) (t_held c + 1) (t_item c) Out)) Took m)
      else
        match w with
        | NoWait => if inh then None else Some (note (set_pc k t Out) Missed m)
        | _ => Some (set_pc k t (Check m w inh))
        end
  | Check m w inh =>                                  (* 1531-1590 *)
      let x := k_mx k m in
      let up := match w with Endless => false | _ => expired end in
      if up then Some (set_pc k t (Late m w inh))
      else if m_count x =? 0 then
        let (k1, inh') := xTaskPriorityInherit k (m_holder x) in
        let k2 := set_mx k1 m (mkM (m_count x) (m_holder x) (place k1 t (m_wait x))) in
        let p := t_prio (k_task k t) in
        if in_ready k2 p t
        then Some (pend_yield (set_pc (leave_ready k2 p t p) t (Asleep m w inh')) true)
        else None
      else Some (set_pc k t (Try m w inh))
  | Late m w inh =>                                   (* 1596-1622 *)
      if m_count (k_mx k m) =? 0
      then if inh then Some (set_pc k t (Undo m)) else Some (note (set_pc k t Out) Missed m)
      else Some (set_pc k t (Try m w inh))
  | Undo m =>                                         (* 1603-1616 *)
      match disinherit_after_timeout k (m_holder (k_mx k m)) (highest_waiting k m) with
      | Some k1 => Some (note (set_pc k1 t Out) Missed m)
      | None => None
      end
  | _ => Some k
  end.

(** A sleeping task is put in the list of ready tasks. tasks.c:3094-3145, 2719-2757 *)
Definition make_ready (k : km) (t : Z) (p : pc) : km := add_ready (set_pc k t p) t.

(** Where the task that wakes goes on: at the top of the loop. queue.c:1442 *)
Definition again (p : pc) : pc := match p with Asleep m w inh => Try m w inh | p => p end.

(** xSemaphoreGive of a mutex: xQueueGenericSend, queue.c:749-880, with
    prvCopyDataToQueue (2070-2090) and xTaskRemoveFromEventList (tasks.c:3094-3145). A
    mutex that is not taken is "full": nothing happens (899-906). *)
Definition give (k : km) (m : Z) : option km :=
  let t := k_cur k in
  let x := k_mx k m in
  if m_count x <? 1 then
    match xTaskPriorityDisinherit k (m_holder x) with
    | None => None
    | Some (k1, y) =>
        match m_wait x with
        | [] => Some (note (pend_yield (set_mx k1 m (mkM (m_count x + 1) None [])) y) Gave m)
        | u :: r =>
            let k2 := make_ready (set_mx k1 m (mkM (m_count x + 1) None r)) u (again (t_pc (k_task k1 u))) in
            let higher := t_prio (k_task k2 t) <? t_prio (k_task k2 u) in
            Some (note (pend_yield k2 (higher || y)) Gave m)
        end
    end
  else Some k.

(** What happens. *)
Inductive kevent :=
| KSwitch (n : nat)          (* the pending, or a time-slicing, switch: tasks.c:2947 *)
| KTake (m : Z) (w : wait)   (* the running task calls xSemaphoreTake: queue.c:1414 *)
| KStep (expired : bool)     (* and goes on with it *)
| KGive (m : Z)              (* it calls xSemaphoreGive: queue.c:749 *)
| KBlock                     (* it blocks in another call: tasks.c:5081 *)
| KWake (t : Z)              (* an interrupt or the running task wakes such a task: tasks.c:3094 *)
| KTimeUp (t : Z).           (* the tick at which a wait for a mutex is over: tasks.c:2700 *)

(** One event (queue.c:749-1626, tasks.c:2947-5152). With a switch pending the running task does nothing; the idle task makes
    no calls; a call begins only outside of the others. *)
Definition km_step (k : km) (ev : kevent) : option km :=
  let t := k_cur k in
  let free := negb (k_yield k) && negb (t =? IDLE) in
  match ev with
  | KSwitch n => switch k n
  | KTake m w => match t_pc (k_task k t) with Out => if free then Some (set_pc k t (Try m w false)) else Some k | _ => Some k end
  | KStep expired => if free then take_step k expired else Some k
  | KGive m => match t_pc (k_task k t) with Out => if free then give k m else Some k | _ => Some k end
  | KBlock =>
      match t_pc (k_task k t) with
      | Out =>
          if free then
            let p := t_prio (k_task k t) in
            if in_ready k p t then Some (pend_yield (set_pc (leave_ready k p t p) t Away) true) else None
          else Some k
      | _ => Some k
      end
  | KWake u =>
      match t_pc (k_task k u) with
      | Away => Some (pend_yield (make_ready k u Out) (t_prio (k_task k t) <? t_prio (k_task k u)))
      | _ => Some k
      end
  | KTimeUp u =>
      match t_pc (k_task k u) with
      | Asleep m Bounded inh =>
          let x := k_mx k m in
          let k1 := set_mx k m (mkM (m_count x) (m_holder x) (filter (fun v => negb (v =? u)) (m_wait x))) in
          Some (pend_yield (make_ready k1 u (Try m Bounded inh)) (t_prio (k_task k t) <=? t_prio (k_task k u)))
      | _ => Some k
      end
  end.

(** A history. No code of its own (drives queue.c:749-1626 and tasks.c:2947-5152). *)
Fixpoint km_run (k : km) (tr : list kevent) : option km :=
  match tr with
  | [] => Some k
  | ev :: r => match km_step k ev with Some k' => km_run k' r | None => None end
  end.

(** The tasks [ids] are ready, all mutexes free (queue.c:473-491, 564-590), and the
    scheduler is started (tasks.c:1974-2080). *)
Definition km_start (ids : list Z) : km :=
  mkK (fun t => mkT (base t) 0 (MAX_PRIORITIES - base t) Out)
      (fun p => filter (fun t => base t =? p) ids)
      (fold_left (fun b t => Z.setbit b (base t)) ids 0)
      IDLE true (fun _ => mkM 1 None []) [].
End Base.
