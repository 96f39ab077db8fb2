(** Interrupts that arrive while the modules they belong to are being
    initialised. The initialisation of a module is its list of stores, in
    program order; an interrupt can come between any two of them (the structure
    assignments and memsets below are one store each). [None]: the handler
    dereferences a null pointer, calls the kernel with a null handle (a kernel
    assertion: the firmware halts) or leaves an array. Only what decides this is
    kept of each module's state; what the handlers do otherwise is in the
    modules' own models (TaskTimer, Wheelspeed, Uart, CanDriver, Adc, SdcEdge). *)
From Verif.Base Require Export Words.

(** A module's initialisation and its handler, over states [S] and handler inputs
    [I]. No code of its own; the instances below cite their stores and handlers. It
    stands for e.g. tasktimer.c:42-124. *)
Record driver (S I : Type) := mkDriver {
  dr_start : S; dr_stores : list (S -> S); dr_handler : S -> I -> option S }.
Arguments dr_start {S I} _.
Arguments dr_stores {S I} _.
Arguments dr_handler {S I} _ _ _.

(** The next store is executed, or the interrupt occurs. No code of its own. It
    stands for the instants between the stores of e.g. tasktimer.c:49-53. *)
Inductive init_event (I : Type) := NextStore | Interrupt (i : I).
Arguments NextStore {I}.
Arguments Interrupt {I} _.

(** The remaining stores [todo] interleaved with interrupts. No code of its own; the
    order of the stores is the program order cited with each list below. (e.g.
    tasktimer.c:49-53 against 94-124). *)
Fixpoint init_run {S I} (h : S -> I -> option S) (todo : list (S -> S)) (s : S)
    (tr : list (init_event I)) {struct tr} : option S :=
  match tr with
  | [] => Some s
  | NextStore :: tl =>
      match todo with
      | f :: rest => init_run h rest (f s) tl
      | [] => init_run h [] s tl
      end
  | Interrupt i :: tl =>
      match h s i with
      | Some s' => init_run h todo s' tl
      | None => None
      end
  end.
(** From the values of the static data at reset. No code of its own. The driver is
    e.g. tasktimer.c:42-124. *)
Definition run_driver {S I} (d : driver S I) (tr : list (init_event I)) : option S :=
  init_run (dr_handler d) (dr_stores d) (dr_start d) tr.

(** ** Task timer (tasktimer.c) *)
Definition TT_MAX : Z := 16.   (* TASKTIMER_MAX_TASKS, tasktimer.h:26 *)

(** [tt_handles k]: the handle variable of the [k]th module that registers holds a
    task. [tt_slots]: tasks[i].taskHandle, [None] the null pointer.
    tasktimer.c:25-37. *)
Record tt_t := mkTt {
  tt_isInitialized : bool; tt_timer : bool; tt_handles : nat -> bool;
  tt_slots : list (option nat); tt_num : nat }.

(** The handle variable of module [k] is assigned (xTaskCreateStatic at the lines
    cited with tt_register_stores). (throttleController.c:96 and the others listed
    there). *)
Definition upd (f : nat -> bool) (k : nat) : nat -> bool := fun j => if Nat.eqb j k then true else f j.
(** An assignment to an array element, as at tasktimer.c:85. *)
Fixpoint set_nth {A} (n : nat) (x : A) (l : list A) : list A :=
  match n, l with
  | O, _ :: t => x :: t
  | S k, h :: t => h :: set_nth k x t
  | _, [] => []
  end.

(** tasktimer.c:49-53 *)
Definition tt_init_stores : list (tt_t -> tt_t) :=
  [ (fun s => mkTt (tt_isInitialized s) false (tt_handles s) (repeat None (Z.to_nat TT_MAX)) 0);
    (fun s => mkTt (tt_isInitialized s) true (tt_handles s) (tt_slots s) (tt_num s));
    (fun s => mkTt true (tt_timer s) (tt_handles s) (tt_slots s) (tt_num s)) ].

(** A module creates its task (throttleController.c:96, vehicleStateManager.c:54,
    orionBms.c:206, wheelspeed.c:177, pcinterface.c:159, cInverter.c:383,
    discretesense.c:101, watchdogTrigger.c:60) and registers it, tasktimer.c:79-88. *)
Definition tt_register_stores (k : nat) : list (tt_t -> tt_t) :=
  [ (fun s => mkTt (tt_isInitialized s) (tt_timer s) (upd (tt_handles s) k) (tt_slots s) (tt_num s));
    (fun s => if Z.of_nat (tt_num s) =? TT_MAX then s else
              mkTt (tt_isInitialized s) (tt_timer s) (tt_handles s)
                   (set_nth (tt_num s) (Some k) (tt_slots s)) (tt_num s));
    (fun s => if Z.of_nat (tt_num s) =? TT_MAX then s else
              mkTt (tt_isInitialized s) (tt_timer s) (tt_handles s) (tt_slots s) (S (tt_num s))) ].

(** tasktimer.c:94-124; the input: whether it is this timer's interrupt. *)
Definition tt_handler (s : tt_t) (mine : bool) : option tt_t :=
  if negb (tt_isInitialized s) then Some s
  else if negb (tt_timer s) then None
  else if negb mine then Some s
  else if forallb (fun e => match e with Some k => tt_handles s k | None => false end)
            (firstn (tt_num s) (tt_slots s))
  then Some s else None.

(** Initialisation followed by the registration of the modules [ks].
    tasktimer.c:42-124. *)
Definition tasktimer_driver (ks : list nat) : driver tt_t bool :=
  mkDriver _ _ (mkTt false false (fun _ => false) (repeat None (Z.to_nat TT_MAX)) 0)
    (tt_init_stores ++ flat_map tt_register_stores ks) tt_handler.

(** ** Wheel speed (wheelspeed.c) *)
(** The static data of wheelspeed.c that TIM_IRQHandler reads
    (wheelspeed.c:202-230): configuration, stream handle, flag. *)
Record wsi_t := mkWsi { wi_config : bool; wi_stream : bool; wi_isInitialized : bool }.
(** wheelspeed.c:167, 170, 195 *)
Definition ws_stores : list (wsi_t -> wsi_t) :=
  [ (fun s => mkWsi true (wi_stream s) (wi_isInitialized s));
    (fun s => mkWsi (wi_config s) true (wi_isInitialized s));
    (fun s => mkWsi (wi_config s) (wi_stream s) true) ].
(** wheelspeed.c:202-230 *)
Definition ws_handler (s : wsi_t) (mine : bool) : option wsi_t :=
  if negb (wi_isInitialized s) then Some s
  else if negb mine then Some s
  else if wi_config s && wi_stream s then Some s else None.
(** wheelspeed.c:160-230 *)
Definition wheelspeed_driver : driver wsi_t bool := mkDriver _ _ (mkWsi false false false) ws_stores ws_handler.

(** ** UART (uart.c), one interface *)
(** The members of struct uartInfo that the handlers read, uart.c:22-45. *)
Record ua_t := mkUa {
  ua_isEnabled : bool; ua_handle : bool; ua_outputSb : bool; ua_outputSbEnabled : bool;
  ua_txPending : bool }.
(** The three callbacks of uart.c:72-149. *)
Inductive ua_irq := RxEvent | TxCplt | UartError.
(** UART_Init (uart.c:159), UART_Config (189-197), UART_SetRecvStream (216-221). *)
Definition ua_stores : list (ua_t -> ua_t) :=
  [ (fun _ => mkUa false false false false false);
    (fun _ => mkUa false false false false false);
    (fun s => mkUa (ua_isEnabled s) true (ua_outputSb s) (ua_outputSbEnabled s) (ua_txPending s));
    (fun s => mkUa (ua_isEnabled s) (ua_handle s) (ua_outputSb s) (ua_outputSbEnabled s) true);
    (fun s => mkUa true (ua_handle s) (ua_outputSb s) (ua_outputSbEnabled s) (ua_txPending s));
    (fun s => if ua_isEnabled s then
              mkUa (ua_isEnabled s) (ua_handle s) true (ua_outputSbEnabled s) (ua_txPending s) else s);
    (fun s => if ua_isEnabled s then
              mkUa (ua_isEnabled s) (ua_handle s) (ua_outputSb s) true (ua_txPending s) else s) ].
(** uart.c:72-94, 101-132, 134-149 *)
Definition ua_handler (s : ua_t) (i : ua_irq) : option ua_t :=
  if negb (ua_isEnabled s) then Some s else
  match i with
  | RxEvent => if ua_outputSbEnabled s && negb (ua_outputSb s) then None else Some s
  | TxCplt => if ua_txPending s then Some s else None
  | UartError => Some s
  end.
(** uart.c:72-221 *)
Definition uart_driver : driver ua_t ua_irq :=
  mkDriver _ _ (mkUa false false false false false) ua_stores ua_handler.

(** ** CAN (can.c), one controller *)
Definition CAN_MAX_QUEUES : Z := 8.   (* CAN_MAX_RECV_QUEUES, can.h:27 *)
Record rxq_t := mkRxq { rq_id : Z; rq_mask : Z; rq_queue : bool }.
(** can.c:24-57 *)
Record can_t := mkCan {
  ci_inUse : bool; ci_handle : bool; ci_txQueue : bool; ci_queues : list rxq_t; ci_num : nat }.
(** The interrupts of can.c:64-114 and 136-175. *)
Inductive can_irq := RxMsg (id : Z) | TxDone.
(** can.c:46-47 after the memset at 200. *)
Definition no_queues : list rxq_t := repeat (mkRxq 0 0 false) (Z.to_nat CAN_MAX_QUEUES).
(** An assignment to a member of an array element, as at can.c:293-295. *)
Definition on_nth {A} (n : nat) (f : A -> A) (l : list A) : list A :=
  match nth_error l n with Some x => set_nth n (f x) l | None => l end.
(** CAN_Init (can.c:200-208), CAN_Config (238-239) *)
Definition can_init_stores : list (can_t -> can_t) :=
  [ (fun _ => mkCan false false false no_queues 0);
    (fun s => mkCan (ci_inUse s) (ci_handle s) true (ci_queues s) (ci_num s));
    (fun s => mkCan (ci_inUse s) true (ci_txQueue s) (ci_queues s) (ci_num s));
    (fun s => mkCan true (ci_handle s) (ci_txQueue s) (ci_queues s) (ci_num s)) ].
(** CAN_RegisterQueue (can.c:289-296) with a queue already created. *)
Definition can_register_stores (r : Z * Z) : list (can_t -> can_t) :=
  let upd f := fun s => if Z.of_nat (ci_num s) =? CAN_MAX_QUEUES then s else
      mkCan (ci_inUse s) (ci_handle s) (ci_txQueue s) (on_nth (ci_num s) f (ci_queues s)) (ci_num s) in
  [ upd (fun q => mkRxq (fst r) (rq_mask q) (rq_queue q));
    upd (fun q => mkRxq (rq_id q) (snd r) (rq_queue q));
    upd (fun q => mkRxq (rq_id q) (rq_mask q) true);
    (fun s => if Z.of_nat (ci_num s) =? CAN_MAX_QUEUES then s else
       mkCan (ci_inUse s) (ci_handle s) (ci_txQueue s) (ci_queues s) (S (ci_num s))) ].
(** can.c:64-114 for one received message, 136-175 *)
Definition can_handler (s : can_t) (i : can_irq) : option can_t :=
  if negb (ci_inUse s) then Some s else
  match i with
  | RxMsg id =>
      if forallb (fun q => negb (Z.land id (rq_mask q) =? rq_id q) || rq_queue q)
           (firstn (ci_num s) (ci_queues s))
      then Some s else None
  | TxDone => if ci_txQueue s && ci_handle s then Some s else None
  end.
(** can.c:64-299 *)
Definition can_driver (rs : list (Z * Z)) : driver can_t can_irq :=
  mkDriver _ _ (mkCan false false false no_queues 0)
    (can_init_stores ++ flat_map can_register_stores rs) can_handler.

(** ** ADC (adc.c), [n] channels *)
(** adc.c:37-44. *)
Record adi_t := mkAdi { ai_handle : bool; ai_half : Z; ai_off : Z; ai_len : Z }.
(** The callbacks of adc.c:207-261. *)
Inductive adc_irq := HalfCplt | Cplt.
(** adc.c:110-124 *)
Definition adc_stores (n : Z) : list (adi_t -> adi_t) :=
  [ (fun s => mkAdi true (ai_half s) (ai_off s) (ai_len s));
    (fun s => mkAdi (ai_handle s) (n / 2) (ai_off s) (ai_len s));
    (fun s => mkAdi (ai_handle s) (ai_half s) (n / 2) (ai_len s));
    (fun s => mkAdi (ai_handle s) (ai_half s) (ai_off s) (if n mod 2 =? 0 then n / 2 else n / 2 + 1)) ].
(** adc.c:207-261: the words copied lie within the 16-word buffers. *)
Definition adc_handler (s : adi_t) (i : adc_irq) : option adi_t :=
  if negb (ai_handle s) then Some s else
  match i with
  | HalfCplt => if ai_half s <=? 16 then Some s else None
  | Cplt => if ai_off s + ai_len s <=? 16 then Some s else None
  end.
(** adc.c:95-261 *)
Definition adc_driver (n : Z) : driver adi_t adc_irq :=
  mkDriver _ _ (mkAdi false 0 0 0) (adc_stores n) adc_handler.

(** ** Shutdown circuit (sdc.c) *)
(** sdc.c:20-29. *)
Record sdci_t := mkSdci {
  si_config : bool; si_task : bool; si_bms : bool; si_bspd : bool; si_imd : bool; si_out : bool }.
(** The levels of the four pins. They are read at sdc.c:109-123. *)
Record sdc_levels := mkLv { lv_bms : bool; lv_bspd : bool; lv_imd : bool; lv_out : bool }.

(** sdc.c:82-86, 89. The interrupts of the four pins are enabled long before, in
    MX_GPIO_Init (main.c:1030-1037), the first of the start-up calls (main.c:137);
    SDC_Init runs in the start-up task (initialize.c:345). *)
Definition sdc_stores : list (sdci_t -> sdci_t) :=
  [ (fun s => mkSdci (si_config s) (si_task s) false (si_bspd s) (si_imd s) (si_out s));
    (fun s => mkSdci (si_config s) (si_task s) (si_bms s) false (si_imd s) (si_out s));
    (fun s => mkSdci (si_config s) (si_task s) (si_bms s) (si_bspd s) false (si_out s));
    (fun s => mkSdci (si_config s) (si_task s) (si_bms s) (si_bspd s) (si_imd s) false);
    (fun s => mkSdci true (si_task s) (si_bms s) (si_bspd s) (si_imd s) (si_out s));
    (fun s => mkSdci (si_config s) true (si_bms s) (si_bspd s) (si_imd s) (si_out s)) ].

(** sdc.c:63-72, 109-123, gpio.c:13-16: GPIO_ReadPin dereferences its argument;
    vTaskNotifyGiveFromISR asserts a task (tasks.c:4963). *)
Definition sdc_handler (s : sdci_t) (l : sdc_levels) : option sdci_t :=
  if negb (si_config s) then None else
  let notify := negb (Bool.eqb (si_bms s) (lv_bms l)) || negb (Bool.eqb (si_bspd s) (lv_bspd l)) ||
                negb (Bool.eqb (si_imd s) (lv_imd l)) || negb (Bool.eqb (si_out s) (lv_out l)) in
  let s' := mkSdci (si_config s) (si_task s) (lv_bms l) (lv_bspd l) (lv_imd l) (lv_out l) in
  if notify && negb (si_task s) then None else Some s'.
(** sdc.c:63-123 *)
Definition sdc_driver : driver sdci_t sdc_levels :=
  mkDriver _ _ (mkSdci false false false false false false) sdc_stores sdc_handler.
