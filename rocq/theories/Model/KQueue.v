(** FreeRTOS V10.2.1 queues (cube-proj/Lib/FreeRTOS/Source/queue.c): the ring of
    items, the lists of waiting tasks and the lock counts, with calls from tasks
    that may wait and from interrupts, interleaved between any two critical sections.

    A binary semaphore is a queue of length 1 with items of size 0; xQueueGiveFromISR
    (1108-1271) does the same as xQueueGenericSendFromISR there. Not modelled:
    queueSEND_TO_FRONT, queueOVERWRITE, peeking and queue sets (not used by this
    firmware), mutexes (xQueueSemaphoreTake, 1414-1630: the holder and its priority). *)
From Verif.Base Require Export Mem.

(** The fields of the queue (queue.c:101-131). [k_mem]: the storage from pcHead to
    pcTail; [k_write], [k_read]: pcWriteTo and pcReadFrom as offsets from pcHead;
    [k_rx], [k_tx]: cRxLock and cTxLock; [k_senders], [k_receivers]: the tasks in
    xTasksWaitingToSend and xTasksWaitingToReceive, first one first. *)
Record kq := mkKq {
  k_mem : list Z; k_write : Z; k_read : Z; k_count : Z; k_len : Z; k_size : Z;
  k_rx : Z; k_tx : Z; k_senders : list Z; k_receivers : list Z }.

(** queue.c:52 *)
Definition queueUNLOCKED : Z := -1.
(** queue.c:53 *)
Definition queueLOCKED_UNMODIFIED : Z := 0.

(** The cast to int8_t of queue.c:1091, 1855. *)
Definition s8 (z : Z) : Z := (z + 128) mod 256 - 128.

(** pcTail as an offset, queue.c:263 *)
Definition k_tail (q : kq) : Z := u32 (k_len q * k_size q).

(** xQueueGenericCreateStatic (310-360), prvInitialiseNewQueue (429-469) and
    xQueueGenericReset (255-305) for a new queue over the storage [mem]. queue.c:255-305, 429-469. *)
Definition queue_new (mem : list Z) (len size : Z) : kq :=
  mkKq mem 0 (u32 ((len - 1) * size)) 0 len size queueUNLOCKED queueUNLOCKED [] [].

(** prvCopyDataToQueue with queueSEND_TO_BACK, queue.c:2070-2147: memcpy of one item
    to pcWriteTo. None: outside the storage or the caller's item. *)
Definition prvCopyDataToQueue (q : kq) (item : list Z) : option kq :=
  let n := u32 (k_count q + 1) in
  if k_size q =? 0 then
    Some (mkKq (k_mem q) (k_write q) (k_read q) n (k_len q) (k_size q) (k_rx q) (k_tx q) (k_senders q) (k_receivers q))
  else
    x <- rd_block item 0 (k_size q) ;;
    m <- wr_block (k_mem q) (k_write q) x ;;
    let w := k_write q + k_size q in
    Some (mkKq m (if k_tail q <=? w then 0 else w) (k_read q) n (k_len q) (k_size q)
               (k_rx q) (k_tx q) (k_senders q) (k_receivers q)).

(** prvCopyDataFromQueue, queue.c:2149-2165, and the new count (1310, 1818). *)
Definition prvCopyDataFromQueue (q : kq) : option (kq * list Z) :=
  let n := u32 (k_count q - 1) in
  if k_size q =? 0 then
    Some (mkKq (k_mem q) (k_write q) (k_read q) n (k_len q) (k_size q) (k_rx q) (k_tx q) (k_senders q) (k_receivers q), [])
  else
    let r := k_read q + k_size q in
    let r := if k_tail q <=? r then 0 else r in
    x <- rd_block (k_mem q) r (k_size q) ;;
    Some (mkKq (k_mem q) (k_write q) r n (k_len q) (k_size q) (k_rx q) (k_tx q) (k_senders q) (k_receivers q), x).

(** xTaskRemoveFromEventList of tasks.c:3094-3170: the first task of the list can
    run again. *)
Definition wake_sender (q : kq) : kq :=
  mkKq (k_mem q) (k_write q) (k_read q) (k_count q) (k_len q) (k_size q) (k_rx q) (k_tx q) (tl (k_senders q)) (k_receivers q).
(** The same for a task that waits to receive, tasks.c:3094-3170. *)
Definition wake_receiver (q : kq) : kq :=
  mkKq (k_mem q) (k_write q) (k_read q) (k_count q) (k_len q) (k_size q) (k_rx q) (k_tx q) (k_senders q) (tl (k_receivers q)).

(** The lists and lock counts change. Notation for queue.c:240-252, 2167-2284. *)
Definition with_locks (q : kq) (rx tx : Z) (s r : list Z) : kq :=
  mkKq (k_mem q) (k_write q) (k_read q) (k_count q) (k_len q) (k_size q) rx tx s r.

(** prvLockQueue, queue.c:240-252 *)
Definition prvLockQueue (q : kq) : kq :=
  with_locks q (if k_rx q =? queueUNLOCKED then queueLOCKED_UNMODIFIED else k_rx q)
             (if k_tx q =? queueUNLOCKED then queueLOCKED_UNMODIFIED else k_tx q) (k_senders q) (k_receivers q).

(** The first half of prvUnlockQueue, queue.c:2175-2253: one waiting receiver runs
    again for each item added meanwhile. *)
Definition unlock_tx (q : kq) : kq :=
  with_locks q (k_rx q) queueUNLOCKED (k_senders q) (skipn (Z.to_nat (k_tx q)) (k_receivers q)).
(** The second half, queue.c:2256-2283: senders, for each item removed meanwhile. *)
Definition unlock_rx (q : kq) : kq :=
  with_locks q queueUNLOCKED (k_tx q) (skipn (Z.to_nat (k_rx q)) (k_senders q)) (k_receivers q).

(** ** Calls from tasks *)
(** xQueueGenericSend (747) or xQueueReceive (1273), queue.c. *)
Inductive kop := Send (item : list Z) | Receive.

(** What follows the unlocking of the queue (queue.c:913-952, 1367-1408). *)
Inductive knext := NWait | NRetry | NExpired.

(** Where a task is inside the call; [w]: xTicksToWait is not zero. queue.c:747-955
    and 1273-1412. *)
Inductive kpc :=
| Out                                       (* not in a call *)
| Try (o : kop) (w : bool)                  (* before the critical section, 768 / 1299 *)
| Again (o : kop) (w : bool)                (* left it without success, 904 / 1358 *)
| Locked (o : kop) (w : bool)               (* scheduler suspended, queue locked, 910 / 1364 *)
| UnlockTx (o : kop) (w : bool) (n : knext) (* calls prvUnlockQueue next *)
| UnlockRx (o : kop) (w : bool) (n : knext) (* between its two halves *)
| Blocked (o : kop) (w : bool)              (* waits, or was woken and has not run yet *)
| Late.                                     (* receiving, time expired, 1400 *)

(** What a call returns: pdPASS or errQUEUE_FULL / errQUEUE_EMPTY (queue.c:875, 888,
    951, 1332, 1342, 1403). *)
Inductive kres := Sent (item : list Z) | Full | Got (item : list Z) | Empty.

(** [ks_susp]: the task that suspended the scheduler; [ks_log]: the results of the
    calls so far, oldest first, with the task (None: an interrupt). The calls of
    queue.c:747-1104, 1273-1412, 1781-1868. *)
Record ksys := mkKs { ks_q : kq; ks_pc : Z -> kpc; ks_susp : option Z; ks_log : list (option Z * kres) }.

(** Notation: task [t] is at [p] (queue.c:747-1412). *)
Definition put_pc (f : Z -> kpc) (t : Z) (p : kpc) : Z -> kpc := fun x => if x =? t then p else f x.

(** vListInsert into a list of waiting tasks (list.c:96-158, tasks.c:3020-3040):
    behind all tasks of the same or a higher priority. *)
Fixpoint event_insert (prio : Z -> Z) (t : Z) (l : list Z) : list Z :=
  match l with
  | [] => [t]
  | x :: r => if prio t <=? prio x then x :: event_insert prio t r else t :: x :: r
  end.

(** The task's critical section: queue.c:768-904 and 1299-1358. *)
Definition try_op (s : ksys) (t : Z) (o : kop) (w : bool) : option ksys :=
  let q := ks_q s in
  let fail r := if w then mkKs q (put_pc (ks_pc s) t (Again o w)) (ks_susp s) (ks_log s)
                else mkKs q (put_pc (ks_pc s) t Out) (ks_susp s) (ks_log s ++ [(Some t, r)]) in
  match o with
  | Send item =>
      if k_count q <? k_len q then
        q' <- prvCopyDataToQueue q item ;;
        Some (mkKs (wake_receiver q') (put_pc (ks_pc s) t Out) (ks_susp s) (ks_log s ++ [(Some t, Sent item)]))
      else Some (fail Full)
  | Receive =>
      if 0 <? k_count q then
        p <- prvCopyDataFromQueue q ;;
        Some (mkKs (wake_sender (fst p)) (put_pc (ks_pc s) t Out) (ks_susp s) (ks_log s ++ [(Some t, Got (snd p))]))
      else Some (fail Empty)
  end.

(** Is the condition to wait for still unmet: prvIsQueueFull (2327) and
    prvIsQueueEmpty (2287). queue.c:2287-2346. *)
Definition unmet (q : kq) (o : kop) : bool :=
  match o with Send _ => k_count q =? k_len q | Receive => k_count q =? 0 end.

(** vTaskPlaceOnEventList, queue.c:918, 1374 and tasks.c:3020-3040 *)
Definition place (prio : Z -> Z) (q : kq) (t : Z) (o : kop) : kq :=
  match o with
  | Send _ => with_locks q (k_rx q) (k_tx q) (event_insert prio t (k_senders q)) (k_receivers q)
  | Receive => with_locks q (k_rx q) (k_tx q) (k_senders q) (event_insert prio t (k_receivers q))
  end.

(** Is [t] in the list it waits in (queue.c:108-109)? *)
Definition listed (q : kq) (t : Z) (o : kop) : bool :=
  existsb (Z.eqb t) (match o with Send _ => k_senders q | Receive => k_receivers q end).

(** The next step of task [t] inside its call; [expired]: the answer of
    xTaskCheckForTimeOut (913, 1367). queue.c:747-955, 1273-1412. *)
Definition task_step (prio : Z -> Z) (s : ksys) (t : Z) (expired : bool) : option ksys :=
  let q := ks_q s in
  let go q p susp := Some (mkKs q (put_pc (ks_pc s) t p) susp (ks_log s)) in
  match ks_pc s t with
  | Out => Some s
  | Try o w => try_op s t o w
  | Again o w => go (prvLockQueue q) (Locked o w) (Some t)
  | Locked o w =>
      if expired then go q (UnlockTx o false NExpired) (ks_susp s)
      else if unmet q o then go (place prio q t o) (UnlockTx o w NWait) (ks_susp s)
      else go q (UnlockTx o w NRetry) (ks_susp s)
  | UnlockTx o w n => go (unlock_tx q) (UnlockRx o w n) (ks_susp s)
  | UnlockRx o w n =>
      match n, o with
      | NWait, _ => go (unlock_rx q) (Blocked o w) None
      | NRetry, _ => go (unlock_rx q) (Try o w) None
      | NExpired, Send _ =>
          Some (mkKs (unlock_rx q) (put_pc (ks_pc s) t Out) None (ks_log s ++ [(Some t, Full)]))
      | NExpired, Receive => go (unlock_rx q) Late None
      end
  | Blocked o w => if listed q t o then Some s else try_op s t o w
  | Late =>
      if k_count q =? 0 then Some (mkKs q (put_pc (ks_pc s) t Out) (ks_susp s) (ks_log s ++ [(Some t, Empty)]))
      else go q (Try Receive false) (ks_susp s)
  end.

(** ** Calls from interrupts *)
(** xQueueGenericSendFromISR, queue.c:957-1104 *)
Definition isr_send (s : ksys) (item : list Z) : option ksys :=
  let q := ks_q s in
  if k_count q <? k_len q then
    q' <- prvCopyDataToQueue q item ;;
    Some (mkKs (if k_tx q =? queueUNLOCKED then wake_receiver q'
                else with_locks q' (k_rx q') (s8 (k_tx q + 1)) (k_senders q') (k_receivers q'))
               (ks_pc s) (ks_susp s) (ks_log s ++ [(None, Sent item)]))
  else Some (mkKs q (ks_pc s) (ks_susp s) (ks_log s ++ [(None, Full)])).

(** xQueueReceiveFromISR, queue.c:1781-1868 *)
Definition isr_receive (s : ksys) : option ksys :=
  let q := ks_q s in
  if 0 <? k_count q then
    p <- prvCopyDataFromQueue q ;;
    let q' := fst p in
    Some (mkKs (if k_rx q =? queueUNLOCKED then wake_sender q'
                else with_locks q' (s8 (k_rx q + 1)) (k_tx q') (k_senders q') (k_receivers q'))
               (ks_pc s) (ks_susp s) (ks_log s ++ [(None, Got (snd p))]))
  else Some (mkKs q (ks_pc s) (ks_susp s) (ks_log s ++ [(None, Empty)])).

(** The time a task waits for has passed: the tick takes it out of its list
    (tasks.c:2729-2745); not while the scheduler is suspended (2672, 2809). *)
Definition tick_out (s : ksys) (t : Z) : ksys :=
  match ks_susp s with
  | Some _ => s
  | None =>
      let drop := filter (fun x => negb (x =? t)) in
      mkKs (with_locks (ks_q s) (k_rx (ks_q s)) (k_tx (ks_q s)) (drop (k_senders (ks_q s))) (drop (k_receivers (ks_q s))))
           (ks_pc s) None (ks_log s)
  end.

(** Events. queue.c:747, 957, 1273, 1781; tasks.c:2665. *)
Inductive kevent :=
| KCall (t : Z) (o : kop) (w : bool)
| KStep (t : Z) (expired : bool)
| KIsrSend (item : list Z)
| KIsrReceive
| KTimeout (t : Z).

(** While the scheduler is suspended only the task that suspended it and interrupts
    run (tasks.c:2947-2954). A call begins only outside another one. *)
Definition may_run (s : ksys) (t : Z) : bool :=
  match ks_susp s with None => true | Some u => u =? t end.

(** One event; one that is not possible does nothing. None: a memory access outside
    the storage. queue.c:747-1412, 1781-1868. *)
Definition ks_step (prio : Z -> Z) (s : ksys) (ev : kevent) : option ksys :=
  match ev with
  | KCall t o w =>
      match ks_pc s t with
      | Out => if may_run s t then Some (mkKs (ks_q s) (put_pc (ks_pc s) t (Try o w)) (ks_susp s) (ks_log s)) else Some s
      | _ => Some s
      end
  | KStep t e => if may_run s t then task_step prio s t e else Some s
  | KIsrSend item => isr_send s item
  | KIsrReceive => isr_receive s
  | KTimeout t => Some (tick_out s t)
  end.

(** A history of events. No code of its own (drives queue.c:747-1868). *)
Fixpoint ks_run (prio : Z -> Z) (s : ksys) (tr : list kevent) : option ksys :=
  match tr with
  | [] => Some s
  | ev :: t => s' <- ks_step prio s ev ;; ks_run prio s' t
  end.

(** A new queue; no task is in a call. queue.c:255-305, 429-469. *)
Definition ks_init (mem : list Z) (len size : Z) : ksys :=
  mkKs (queue_new mem len size) (fun _ => Out) None [].
