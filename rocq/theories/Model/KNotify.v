(** FreeRTOS V10.2.1, direct-to-task notifications (cube-proj/Lib/FreeRTOS/Source/tasks.c:4563-5068)
    and the waiting of stream buffers, which uses them too (stream_buffer.c:57-128,
    494-610, 709-808), as seen by one task: it waits for the timer with ulTaskNotifyTake,
    is the only reader of one stream buffer and the only sender to another one, whose
    reader is the interrupt of a serial port (uart.c:101-135).

    The events of interrupts and of other tasks come at any moment. A critical section
    (taskENTER_CRITICAL, or the interrupt mask) is one step. Sleeping and waking by time
    are those of KTime, here for one task and without the wrap of the tick count; the
    time-out of a call is that of C98. Bytes are counted, their values are those of
    StreamRing; a read takes what is there when it reads. The trigger levels are 1 (gps.h:36, pcinterface.h:43-45, wheelspeed.c:49).
    None: a configASSERT fails. *)
From Verif.Model Require Export KTime.

(** ucNotifyState, tasks.c:68-70, 309 *)
Inductive nstate := NotWaiting | Waiting | Received.

(** The list that holds the task: a ready list, a delayed list until a tick count, the
    suspended list. tasks.c:340-400. *)
Inductive nsleep := Awake | Until (w : Z) | Forever.

(** Where the task is. [start]: tick count at the call; [togo]: xTicksToWait.
    - [PTake]: between the critical sections of ulTaskNotifyTake (tasks.c:4595-4597)
    - [PRecv1]: xStreamBufferReceive has set xTaskWaitingToReceive (stream_buffer.c:766)
    - [PRecv2]: between the critical sections of its xTaskNotifyWait (772)
    - [PRecv3]: after that call; [PRecv4]: xTaskWaitingToReceive is NULL, next is the read (776-797)
    - [PSend0]: head of the loop of xStreamBufferSend (536); [PSend1]: xTaskWaitingToSend
      set (554); [PSend2], [PSend3]: in and after xTaskNotifyWait (565-566); [PSend4]: the
      loop has ended, next is the write (575-582) *)
Inductive npc :=
| POut
| PTake (clear : bool) (wait start : Z)
| PRecv1 (n wait start : Z) | PRecv2 (n wait start : Z) | PRecv3 (n wait start : Z) | PRecv4 (n wait start : Z)
| PSend0 (n wait start togo : Z) | PSend1 (n wait start togo : Z) | PSend2 (n wait start togo : Z)
| PSend3 (n wait start togo : Z) | PSend4 (n wait start : Z).

(** What a call returned, with xTicksToWait and the tick counts at call and return
    (tasks.c:4566, 4625, stream_buffer.c:494, 709). *)
Inductive nret :=
| RTake (clear : bool) (wait start stop value : Z)
| RRecv (n wait start stop got : Z)
| RSend (n wait start stop put : Z).

(** [n_val]: ulNotifiedValue (tasks.c:308); [n_listed]: the event list item is in
    xPendingReadyList (382); [n_susp], [n_pend], [n_tick]: as in KTime; [n_avail]: bytes in
    the stream it reads, [n_reader]: xTaskWaitingToReceive is this task; [n_owed]: senders
    that have stored bytes and not yet looked at xTaskWaitingToReceive; [n_room]: room in
    the stream it sends to, [n_sender]: xTaskWaitingToSend is this task; [n_irq]: txIrq, the
    interrupt of the transmit DMA, is enabled (uart.c:241, 259); [n_last]: it has run for
    the transfer under way, and the transmission-complete interrupt, which is not disabled,
    is still to come (stm32f7xx_hal_uart.c:3381-3396, 3820-3837, as in Uart). *)
Record nt := mkN {
  n_val : Z; n_st : nstate; n_sleep : nsleep; n_listed : bool; n_susp : Z; n_pend : Z; n_tick : Z; n_pc : npc;
  n_avail : Z; n_reader : bool; n_owed : Z; n_room : Z; n_sender : bool; n_irq : bool; n_last : bool; n_log : list nret }.

(** Changes of single fields, used below. No code of their own (tasks.c:4563-5068). *)
Definition set_note (s : nt) (v : Z) (st : nstate) : nt :=
  mkN v st (n_sleep s) (n_listed s) (n_susp s) (n_pend s) (n_tick s) (n_pc s) (n_avail s) (n_reader s) (n_owed s) (n_room s) (n_sender s) (n_irq s) (n_last s) (n_log s).
(** As above (tasks.c:5081-5152). *)
Definition set_sleep (s : nt) (z : nsleep) (listed : bool) : nt :=
  mkN (n_val s) (n_st s) z listed (n_susp s) (n_pend s) (n_tick s) (n_pc s) (n_avail s) (n_reader s) (n_owed s) (n_room s) (n_sender s) (n_irq s) (n_last s) (n_log s).
(** As above (tasks.c:2665-2832). *)
Definition set_time (s : nt) (z : nsleep) (listed : bool) (susp pend tick : Z) : nt :=
  mkN (n_val s) (n_st s) z listed susp pend tick (n_pc s) (n_avail s) (n_reader s) (n_owed s) (n_room s) (n_sender s) (n_irq s) (n_last s) (n_log s).
(** As above (the program counter). stream_buffer.c:494-808. *)
Definition set_npc (s : nt) (p : npc) : nt :=
  mkN (n_val s) (n_st s) (n_sleep s) (n_listed s) (n_susp s) (n_pend s) (n_tick s) p (n_avail s) (n_reader s) (n_owed s) (n_room s) (n_sender s) (n_irq s) (n_last s) (n_log s).
(** As above (the stream that is read). stream_buffer.c:709-808. *)
Definition set_in (s : nt) (avail : Z) (reader : bool) (owed : Z) : nt :=
  mkN (n_val s) (n_st s) (n_sleep s) (n_listed s) (n_susp s) (n_pend s) (n_tick s) (n_pc s) avail reader owed (n_room s) (n_sender s) (n_irq s) (n_last s) (n_log s).
(** As above (the stream that is written). stream_buffer.c:494-610. *)
Definition set_out (s : nt) (room : Z) (sender irq : bool) : nt :=
  mkN (n_val s) (n_st s) (n_sleep s) (n_listed s) (n_susp s) (n_pend s) (n_tick s) (n_pc s) (n_avail s) (n_reader s) (n_owed s) room sender irq (n_last s) (n_log s).
(** As above (the transmitter). stm32f7xx_hal_uart.c:3381-3396. *)
Definition set_last (s : nt) (b : bool) : nt :=
  mkN (n_val s) (n_st s) (n_sleep s) (n_listed s) (n_susp s) (n_pend s) (n_tick s) (n_pc s) (n_avail s) (n_reader s) (n_owed s) (n_room s) (n_sender s) (n_irq s) b (n_log s).
(** The call returns. No code of its own (tasks.c:4625, stream_buffer.c:609, 808). *)
Definition returns (s : nt) (r : nret) : nt :=
  mkN (n_val s) (n_st s) (n_sleep s) (n_listed s) (n_susp s) (n_pend s) (n_tick s) POut (n_avail s) (n_reader s) (n_owed s) (n_room s) (n_sender s) (n_irq s) (n_last s) (n_log s ++ [r]).

(** prvAddCurrentTaskToDelayedList with xCanBlockIndefinitely, tasks.c:5081-5152, called
    if xTicksToWait is above 0 (4575, 4652). *)
Definition sleep_for (s : nt) (wait : Z) : nt :=
  if wait >? 0 then set_sleep s (if wait =? portMAX_DELAY then Forever else Until (n_tick s + wait)) (n_listed s) else s.

(** The common part of vTaskNotifyGiveFromISR (tasks.c:4957-5040) and xTaskGenericNotifyFromISR
    (4825-4950): note, and wake the task if it waits. *)
Definition notify_isr (s : nt) (v : Z) : option nt :=
  let s1 := set_note s v Received in
  match n_st s with
  | Waiting =>
      if n_listed s then None
      else if n_susp s =? 0 then Some (set_sleep s1 Awake false) else Some (set_sleep s1 (n_sleep s) true)
  | _ => Some s1
  end.
(** xTaskGenericNotify with eNoAction, tasks.c:4714-4810. *)
Definition notify_task (s : nt) : option nt :=
  let s1 := set_note s (n_val s) Received in
  match n_st s with
  | Waiting => if n_listed s then None else Some (set_sleep s1 Awake false)
  | _ => Some s1
  end.

(** The first critical section of xTaskNotifyWait(0, 0, NULL, wait), tasks.c:4638-4671. *)
Definition wait_begin (s : nt) (wait : Z) : nt :=
  match n_st s with
  | Received => s
  | _ => sleep_for (set_note s (n_val s) Waiting) wait
  end.
(** The second one, tasks.c:4674-4702. *)
Definition wait_end (s : nt) : nt := set_note s (n_val s) NotWaiting.
(** xTaskNotifyStateClear, tasks.c:5044-5068. *)
Definition state_clear (s : nt) : nt :=
  match n_st s with Received => set_note s (n_val s) NotWaiting | _ => s end.

(** The task's next step; it runs only if ready and the scheduler is not suspended by
    another task. tasks.c:4566-4628, stream_buffer.c:534-609, 738-808, uart.c:227-262. *)
Definition task_step (s : nt) : option nt :=
  match n_pc s with
  | POut => Some s
  | PTake clear wait start =>
      let v := n_val s in
      let v' := if v =? 0 then 0 else if clear then 0 else u32 (v - 1) in
      Some (returns (set_note s v' NotWaiting) (RTake clear wait start (n_tick s) v))
  | PRecv1 n wait start => Some (set_npc (wait_begin s wait) (PRecv2 n wait start))
  | PRecv2 n wait start => Some (set_npc (wait_end s) (PRecv3 n wait start))
  | PRecv3 n wait start => Some (set_npc (set_in s (n_avail s) false (n_owed s)) (PRecv4 n wait start))
  | PRecv4 n wait start =>
      let got := Z.min n (n_avail s) in
      Some (returns (set_in s (n_avail s - got) (n_reader s) (n_owed s)) (RRecv n wait start (n_tick s) got))
  | PSend0 n wait start togo =>
      if n_room s <? n then
        if n_sender s then None
        else Some (set_npc (set_out (state_clear s) (n_room s) true (n_irq s)) (PSend1 n wait start togo))
      else Some (set_npc s (PSend4 n wait start))
  | PSend1 n wait start togo => Some (set_npc (wait_begin s togo) (PSend2 n wait start togo))
  | PSend2 n wait start togo => Some (set_npc (wait_end s) (PSend3 n wait start togo))
  | PSend3 n wait start togo =>
      let s1 := set_out s (n_room s) false (n_irq s) in
      if wait =? portMAX_DELAY then Some (set_npc s1 (PSend0 n wait start wait))
      else if n_tick s - start <? wait
      then Some (set_npc s1 (PSend0 n wait start (wait - (n_tick s - start))))
      else Some (set_npc s1 (PSend4 n wait start))
  | PSend4 n wait start =>
      let k := Z.min n (n_room s) in
      Some (returns (set_out s (n_room s - k) (n_sender s) true) (RSend n wait start (n_tick s) k))
  end.

(** Events of the task: calls of ulTaskNotifyTake, of xStreamBufferReceive, of
    UART_SendMessage while the line is busy, and its next step. Of interrupts and of other
    tasks: a notification by the timer (tasktimer.c:119), bytes stored in the stream that
    is read, the sender's look at xTaskWaitingToReceive ([isr]: in an interrupt), the
    transmission-complete interrupt that takes [k] bytes (uart.c:119) and starts the next
    transfer, the DMA interrupt before it, the tick interrupt, vTaskSuspendAll
    and xTaskResumeAll. *)
Inductive nevent :=
| NTake (clear : bool) (wait : Z)
| NRecv (n wait : Z)
| NSend (n wait : Z)
| NStep
| NGive
| NData (k : Z)
| NTold (isr : bool)
| NRoom (k : Z)
| NDma
| NTick
| NSuspend
| NResume.

(** The task can run. tasks.c:3007-3045 (a suspended scheduler does not switch). *)
Definition can_run (s : nt) : bool :=
  match n_sleep s with Awake => n_susp s =? 0 | _ => false end.
(** The task is outside all calls. No code of its own (stream_buffer.c:494-808). *)
Definition outside (s : nt) : bool := match n_pc s with POut => true | _ => false end.

(** A tick of the count, tasks.c:2675-2765. *)
Definition due (z : nsleep) (tick : Z) : nsleep :=
  match z with Until w => if w <=? tick then Awake else z | _ => z end.

(** One event. tasks.c:4566-4597 and 4957-5040, stream_buffer.c:57-128, 735-771,
    uart.c:101-135 and 238-245, tasks.c:2100-2286, 2665-2832. *)
Definition n_step (s : nt) (e : nevent) : option nt :=
  match e with
  | NTake clear wait =>
      if can_run s && outside s then
        let s1 := if n_val s =? 0 then sleep_for (set_note s (n_val s) Waiting) wait else s in
        Some (set_npc s1 (PTake clear wait (n_tick s)))
      else Some s
  | NRecv n wait =>
      if can_run s && outside s then
        if (wait =? 0) || negb (n_avail s =? 0) then Some (set_npc s (PRecv4 n wait (n_tick s)))
        else if n_reader s then None
        else Some (set_npc (set_in (state_clear s) (n_avail s) true (n_owed s)) (PRecv1 n wait (n_tick s)))
      else Some s
  | NSend n wait =>
      if can_run s && outside s then
        Some (set_npc (set_out s (n_room s) (n_sender s) false)
                      (if wait =? 0 then PSend4 n wait (n_tick s) else PSend0 n wait (n_tick s) wait))
      else Some s
  | NStep => if can_run s then task_step s else Some s
  | NGive => notify_isr s (u32 (n_val s + 1))
  | NData k => Some (set_in s (n_avail s + k) (n_reader s) (n_owed s + 1))
  | NTold isr =>
      if n_owed s >? 0 then
        if n_reader s then
          match (if isr then notify_isr s (n_val s) else notify_task s) with
          | Some s1 => Some (set_in s1 (n_avail s1) false (n_owed s1 - 1))
          | None => None
          end
        else Some (set_in s (n_avail s) false (n_owed s - 1))
      else Some s
  | NRoom k =>
      if n_last s then
        if n_sender s then
          match notify_isr s (n_val s) with
          | Some s1 => Some (set_last (set_out s1 (n_room s1 + k) false (n_irq s1)) false)
          | None => None
          end
        else Some (set_last (set_out s (n_room s + k) false (n_irq s)) false)
      else Some s
  | NDma => if n_irq s then Some (set_last s true) else Some s
  | NTick =>
      if n_susp s =? 0 then Some (set_time s (due (n_sleep s) (n_tick s + 1)) (n_listed s) 0 (n_pend s) (n_tick s + 1))
      else Some (set_time s (n_sleep s) (n_listed s) (n_susp s) (n_pend s + 1) (n_tick s))
  | NSuspend => Some (set_time s (n_sleep s) (n_listed s) (n_susp s + 1) (n_pend s) (n_tick s))
  | NResume =>
      if n_susp s =? 0 then None
      else if n_susp s =? 1 then
        let tick := n_tick s + n_pend s in
        Some (set_time s (if n_listed s then Awake else due (n_sleep s) tick) false 0 0 tick)
      else Some (set_time s (n_sleep s) (n_listed s) (n_susp s - 1) (n_pend s) (n_tick s))
  end.

(** A history of events. No code of its own (drives tasks.c:2100-5068). *)
Fixpoint n_run (s : nt) (tr : list nevent) : option nt :=
  match tr with
  | [] => Some s
  | e :: tr => match n_step s e with Some s' => n_run s' tr | None => None end
  end.

(** The task after its creation (tasks.c:856-1010, 4566) at some tick count, with a stream
    to read that is empty and one to write with [room] free bytes. *)
Definition n_start (tick room : Z) : nt :=
  mkN 0 NotWaiting Awake false 0 0 tick POut 0 false 0 room false true false [].
