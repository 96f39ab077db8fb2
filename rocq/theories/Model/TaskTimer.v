(** system-lib/tasktimer/tasktimer.c: periodic wake-ups. *)
From Verif.Base Require Export Words Mem.

(** tasktimer.h:26, 36-39 *)
Definition TASKTIMER_MAX_TASKS : Z := 16.
(** tasktimer.h:36-39 *)
Definition TASKTIMER_FREQUENCY_COUNT : Z := 1.

(** tasktimer.c:25-37. There is one frequency (100 Hz), so one list and one
    timer. A task handle is a number; a slot is (isSet, handle). [tt_timer] is
    the timer instance behind timHandles[0], None when the pointer is NULL. *)
Record tasktimer := mkTT {
  tt_init : bool; tt_timer : option Z; tt_num : Z; tt_slots : list (bool * Z) }.

(** Static data before TaskTimer_Init: zeros (tasktimer.c:25-37). *)
Definition tt_zero : tasktimer :=
  mkTT false None 0 (repeat (false, 0) 16).

(** tasktimer.h:28-34 *)
Inductive tt_status := TT_OK | TT_TIMER | TT_FULL | TT_INVALID | TT_DEPENDS.

(** tasktimer.c:49-50 *)
Definition tt_clear (t : tasktimer) : tasktimer :=
  mkTT (tt_init t) None 0 (repeat (false, 0) 16).
(** tasktimer.c:52 *)
Definition tt_set_timer (t : tasktimer) (inst : option Z) : tasktimer :=
  mkTT (tt_init t) inst (tt_num t) (tt_slots t).
(** tasktimer.c:53 *)
Definition tt_ready (t : tasktimer) : tasktimer :=
  mkTT true (tt_timer t) (tt_num t) (tt_slots t).

(** tasktimer.c:74-82; [registered] is the answer of DEPEND_ON_STATIC (72). *)
Definition reg_check (registered : bool) (t : tasktimer) (timer : Z) : tt_status :=
  if negb registered then TT_DEPENDS
  else if timer >=? TASKTIMER_FREQUENCY_COUNT then TT_INVALID
  else if TASKTIMER_MAX_TASKS =? tt_num t then TT_FULL
  else TT_OK.

(** tasktimer.c:85-87 *)
Definition reg_store (t : tasktimer) (task : Z) : option tasktimer :=
  slots <- wr (tt_slots t) (tt_num t) (true, task) ;;
  Some (mkTT (tt_init t) (tt_timer t) (tt_num t) slots).

(** tasktimer.c:88; numTasks is a uint8_t *)
Definition reg_count (t : tasktimer) : tasktimer :=
  mkTT (tt_init t) (tt_timer t) (u8 (tt_num t + 1)) (tt_slots t).

(** tasktimer.c:68-91 *)
Definition TaskTimer_RegisterTask (registered : bool) (t : tasktimer) (task timer : Z)
  : option (tasktimer * tt_status) :=
  match reg_check registered t timer with
  | TT_OK => t1 <- reg_store t task ;; Some (reg_count t1, TT_OK)
  | e => Some (t, e)
  end.

(** tasktimer.c:117-122: the handles notified, in order. *)
Fixpoint notify_loop (slots : list (bool * Z)) (i : Z) (n : nat) : option (list Z) :=
  match n with
  | O => Some []
  | S n' => s <- rd slots i ;; rest <- notify_loop slots (i + 1) n' ;; Some (snd s :: rest)
  end.

(** tasktimer.c:94-125; [inst] is htim->Instance. None: a NULL timer pointer is
    dereferenced (105) or a slot outside the table is read. *)
Definition TaskTimer_TIM_PeriodElapsedCallback (t : tasktimer) (inst : Z) : option (list Z) :=
  if negb (tt_init t) then Some []
  else match tt_timer t with
       | None => None
       | Some x => if inst =? x then notify_loop (tt_slots t) 0 (Z.to_nat (tt_num t)) else Some []
       end.

(** The state after a successful TaskTimer_Init (41-65). tasktimer.c:41-65. *)
Definition tt_started (inst : Z) : tasktimer :=
  tt_ready (tt_set_timer (tt_clear tt_zero) (Some inst)).

(** Histories after initialisation. The answer of a registration is its status, that
    of a timer interrupt the tasks woken. tasktimer.c:68-125. *)
Inductive tt_event := TtRegister (task timer : Z) | TtTick (inst : Z).
(** The results of tasktimer.c:68-91 and the notifications of 117-122. *)
Inductive tt_answer := AStatus (s : tt_status) | AWoken (tasks : list Z).

(** No code of its own; drives tasktimer.c:68-125. *)
Definition tt_step (t : tasktimer) (e : tt_event) : option (tasktimer * tt_answer) :=
  match e with
  | TtRegister task timer =>
      ' (t', s) <- TaskTimer_RegisterTask true t task timer ;; Some (t', AStatus s)
  | TtTick inst => ws <- TaskTimer_TIM_PeriodElapsedCallback t inst ;; Some (t, AWoken ws)
  end.

(** A history of these events (tasktimer.c:68-125). *)
Fixpoint tt_run (t : tasktimer) (es : list tt_event) : option (tasktimer * list tt_answer) :=
  match es with
  | [] => Some (t, [])
  | e :: es => ' (t1, a) <- tt_step t e ;; ' (t2, l) <- tt_run t1 es ;; Some (t2, a :: l)
  end.
