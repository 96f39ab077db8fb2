(** Interrupt priorities and the kernel's interrupt mask.

    The kernel protects its data by raising BASEPRI to
    configMAX_SYSCALL_INTERRUPT_PRIORITY: interrupts of a numerically lower
    priority are not held off and must not use the kernel. Modelled are the
    interrupt controller's rule for taking an interrupt, the port's mask
    operations, and every handler of the shipped image with the kernel calls it
    can make. Not modelled: the effect of a call on the kernel's data (each use
    of it is one [Access]), the sub-priorities (there are none, see
    stm32f7xx_hal.c:151 and main.c/stm32f7xx_hal_msp.c, all 0), faults and NMI.
    The time modelled is from the start of the scheduler on: before it the nesting
    count starts at 0xaaaaaaaa (port.c:140), so the first critical section leaves
    the mask on until the scheduler starts. *)
From Verif.Base Require Export Words.

(** The handlers of cube-proj/Core/Src/stm32f7xx_it.c:183-560 that are enabled,
    plus the kernel's own two (FreeRTOSConfig.h:127-137). *)
Inductive irq :=
| TIM1_UP | TIM2 | TIM3
| USART3_RX_DMA | USART3_TX_DMA | I2C2_RX_DMA | I2C2_TX_DMA
| ADC1_DMA | USART6_RX_DMA | USART6_TX_DMA | USART1_RX_DMA | USART1_TX_DMA
| EXTI4 | EXTI9_5 | EXTI15_10
| CAN1_TX | CAN1_RX0 | CAN1_RX1 | CAN2_TX | CAN2_RX0 | CAN2_RX1 | CAN3_TX | CAN3_RX0 | CAN3_RX1
| USART1 | USART3 | USART6
| SYSTICK | PENDSV.

(** FreeRTOSConfig.h:110, configLIBRARY_MAX_SYSCALL_INTERRUPT_PRIORITY *)
Definition MAX_SYSCALL : Z := 5.

(** The priorities set by the shipped image: stm32f7xx_hal_conf.h:149 with
    stm32f7xx_hal_timebase_tim.c:91 (TIM1); stm32f7xx_hal_msp.c:703, 717 (TIM2,
    TIM3), 254-324 (CAN), 843, 917, 999 (USART); main.c:860-884 (DMA),
    1030-1036 (EXTI); port.c:350-351 (SysTick, PendSV: the lowest, FreeRTOSConfig.h:113). *)
Definition prio_shipped (i : irq) : Z :=
  match i with
  | TIM1_UP => 0
  | TIM2 | TIM3 => 5
  | USART3_RX_DMA | USART3_TX_DMA => 6
  | I2C2_RX_DMA | I2C2_TX_DMA => 0
  | ADC1_DMA | USART6_RX_DMA | USART6_TX_DMA | USART1_RX_DMA | USART1_TX_DMA => 6
  | EXTI4 | EXTI9_5 | EXTI15_10 => 6
  | CAN1_TX | CAN1_RX0 | CAN1_RX1 | CAN2_TX | CAN2_RX0 | CAN2_RX1
  | CAN3_TX | CAN3_RX0 | CAN3_RX1 => 6
  | USART1 | USART3 | USART6 => 7
  | SYSTICK | PENDSV => 15
  end.

(** The kernel functions handlers call. The flag of the stream buffer calls: whether
    a task is waiting on the buffer. The callers are listed at [kernel_calls]
    (tasktimer.c:120, sdc.c:121, can.c:104, 164, uart.c:86, 119). *)
Inductive kcall :=
| NotifyGive | QueueSend | QueueReceive
| SbSend (waiting : bool) | SbReceive (waiting : bool)
| Tick | Switch.

(** What each handler can call:
    - TIM1: HAL_IncTick only; TIM_IRQHandler (main.c:1053-1067) is run for it too
      but both modules compare the timer instance (tasktimer.c:102-112,
      wheelspeed.c:211);
    - TIM2: vTaskNotifyGiveFromISR (tasktimer.c:108); TIM3:
      xStreamBufferSendFromISR (wheelspeed.c);
    - EXTI: vTaskNotifyGiveFromISR (sdc.c:121);
    - CAN: xQueueSendToBackFromISR (can.c:104), xQueueReceiveFromISR (can.c:164);
      both callbacks can be reached from each of the controller's vectors, since
      all call HAL_CAN_IRQHandler;
    - USART: xStreamBufferReceiveFromISR / xStreamBufferSendFromISR (uart.c:86,
      119); the receive DMA: xStreamBufferSendFromISR; the transmit DMA only
      enables the transmission-complete interrupt;
    - I2C DMA: enables an interrupt (stm32f7xx_hal_i2c.c:6437); ADC DMA: copies
      (adc.c:207-261);
    - SysTick, PendSV: the kernel (port.c:419-495). *)
Definition kernel_calls (i : irq) : list kcall :=
  match i with
  | TIM1_UP => []
  | TIM2 => [NotifyGive]
  | TIM3 => [SbSend true; SbSend false]
  | I2C2_RX_DMA | I2C2_TX_DMA | ADC1_DMA => []
  | USART3_TX_DMA | USART6_TX_DMA | USART1_TX_DMA => []
  | USART3_RX_DMA | USART6_RX_DMA | USART1_RX_DMA => [SbSend true; SbSend false]
  | EXTI4 | EXTI9_5 | EXTI15_10 => [NotifyGive]
  | CAN1_TX | CAN1_RX0 | CAN1_RX1 | CAN2_TX | CAN2_RX0 | CAN2_RX1
  | CAN3_TX | CAN3_RX0 | CAN3_RX1 => [QueueSend; QueueReceive]
  | USART1 | USART3 | USART6 => [SbSend true; SbSend false; SbReceive true; SbReceive false]
  | SYSTICK => [Tick]
  | PENDSV => [Switch]
  end.

(** vPortValidateInterruptPriority looks only at interrupts numbered 16 and
    above (port.c:716). *)
Definition user_irq (i : irq) : bool := match i with SYSTICK | PENDSV => false | _ => true end.

(** The steps a call is made of. *)
Inductive op :=
| Check          (* vPortValidateInterruptPriority, port.c:707-745 *)
| Raise          (* ulPortRaiseBASEPRI, portmacro.h:209-228: returns the old mask *)
| Restore        (* vPortSetBASEPRI of the mask saved last, portmacro.h:231-237 *)
| SetMask        (* vPortRaiseBASEPRI, portmacro.h:191-205; port.c:441 *)
| ClearMask      (* vPortSetBASEPRI(0), port.c:447, 494 *)
| EnterCritical  (* port.c:391-405 *)
| ExitCritical   (* port.c:408-416 *)
| Access.        (* a use of the kernel's data *)

(** queue.c:981-1102, 1145-1267 (xQueueGiveFromISR is not used), 1804-1866;
    tasks.c:4853-4947 (xTaskNotifyFromISR), 4981-5035 (vTaskNotifyGiveFromISR);
    stream_buffer.c:71-128 with 643 and 900; port.c:419-447, 478-495. *)
Definition notify_ops : list op := [Check; Raise; Access; Restore].
(** The same lines as [notify_ops]: queue.c:981-1102, 1804-1866; tasks.c:4981-5035;
    stream_buffer.c:71-128. *)
Definition call_ops (c : kcall) : list op :=
  match c with
  | NotifyGive | QueueSend | QueueReceive => [Check; Raise; Access; Restore]
  | SbSend true | SbReceive true => [Raise; Access] ++ notify_ops ++ [Access; Restore]
  | SbSend false | SbReceive false => [Raise; Access; Restore]
  | Tick | Switch => [SetMask; Access; ClearMask]
  end.
(** Several calls one after the other (as in uart.c:72-94). No code of its own. *)
Definition calls_ops (l : list kcall) : list op := flat_map call_ops l.

(** A task uses the kernel inside critical sections, which nest. port.c:391-416. *)
Fixpoint section_ops (depth : nat) : list op :=
  match depth with
  | O => []
  | S d => [EnterCritical; Access] ++ section_ops d ++ [Access; ExitCritical]
  end.

(** A context: a handler that has started and not returned, or the running task
    ([c_irq = None]). [c_depth] counts the masks it has set and not undone (for a
    task it is uxCriticalNesting); [c_saved] are the masks kept in the local
    variables uxSavedInterruptStatus, innermost first. uxSavedInterruptStatus:
    tasks.c:4981-5035; uxCriticalNesting: port.c:140. *)
Record ctx := mkCtx { c_irq : option irq; c_ops : list op; c_depth : nat; c_saved : list Z }.

(** The contexts, innermost (running) first, the task last. BASEPRI 0 masks nothing.
    Processor state; BASEPRI is written at portmacro.h:191-237. *)
Record cpu := mkCpu { basepri : Z; ctxs : list ctx }.
(** The first task starts with BASEPRI 0 (port.c:236-247). *)
Definition cpu_start : cpu := mkCpu 0 [mkCtx None [] 0 []].

(** The active priority; a task runs below every interrupt (architecture; no code,
    cf. port.c:707-745). *)
Definition ctx_prio (prio : irq -> Z) (c : ctx) : Z :=
  match c_irq c with Some i => prio i | None => 256 end.

(** The controller takes interrupt [i] when it is more urgent than what runs and the
    mask does not hold it off. Architecture; no code of its own (cf.
    portmacro.h:191-237). *)
Definition takes (prio : irq -> Z) (s : cpu) (i : irq) : bool :=
  match ctxs s with
  | c :: _ => (prio i <? ctx_prio prio c) && ((basepri s =? 0) || (prio i <? basepri s))
  | [] => false
  end.

(** In the middle of a kernel access: mask raised and not undone
    (portmacro.h:191-237, port.c:391-416). *)
Definition inside (c : ctx) : bool := Nat.ltb 0 (c_depth c).

(** One step of the running context [c] over the contexts [low]. [None]: an
    assertion fails (the firmware halts, FreeRTOSConfig.h:122) or the kernel's
    data is used while another context is in the middle of using it. *)
Definition exec (prio : irq -> Z) (bp : Z) (c : ctx) (low : list ctx) : option cpu :=
  match c_ops c with
  | [] =>
      match c_irq c with
      | Some _ => Some (mkCpu bp low)                       (* the handler returns *)
      | None => Some (mkCpu bp (c :: low))
      end
  | o :: t =>
      let c1 d sv := mkCtx (c_irq c) t d sv in
      match o with
      | Check =>
          match c_irq c with
          | Some i => if user_irq i && (prio i <? MAX_SYSCALL) then None
                      else Some (mkCpu bp (c1 (c_depth c) (c_saved c) :: low))
          | None => Some (mkCpu bp (c1 (c_depth c) (c_saved c) :: low))
          end
      | Raise => Some (mkCpu MAX_SYSCALL (c1 (S (c_depth c)) (bp :: c_saved c) :: low))
      | Restore =>
          match c_saved c, c_depth c with
          | v :: sv, S d => Some (mkCpu v (c1 d sv :: low))
          | _, _ => None
          end
      | SetMask => Some (mkCpu MAX_SYSCALL (c1 (S (c_depth c)) (c_saved c) :: low))
      | ClearMask => Some (mkCpu 0 (c1 (pred (c_depth c)) (c_saved c) :: low))
      | EnterCritical =>
          match c_irq c with
          | Some _ => None
          | None => Some (mkCpu MAX_SYSCALL (c1 (S (c_depth c)) (c_saved c) :: low))
          end
      | ExitCritical =>
          match c_depth c with
          | O => None
          | S d => Some (mkCpu (if Nat.eqb d 0 then 0 else bp) (c1 d (c_saved c) :: low))
          end
      | Access => if existsb inside low then None
                  else Some (mkCpu bp (c1 (c_depth c) (c_saved c) :: low))
      end
  end.

(** What can happen: the running task starts a kernel call with critical sections
    [depth] deep (ignored while it is in one); an interrupt is requested, its
    handler going to make the calls [l] (kept pending, here: ignored, while it is
    not taken; a handler makes no call that is not in [kernel_calls]); the processor
    executes one step. The handlers are in stm32f7xx_it.c:183-560. *)
Inductive nvic_event :=
| TaskCall (depth : nat)
| Irq (i : irq) (l : list kcall)
| Step.

(** No code of its own; compares the calls of stm32f7xx_it.c:183-560 handlers. *)
Definition kcall_eqb (a b : kcall) : bool :=
  match a, b with
  | NotifyGive, NotifyGive | QueueSend, QueueSend | QueueReceive, QueueReceive
  | Tick, Tick | Switch, Switch => true
  | SbSend x, SbSend y | SbReceive x, SbReceive y => Bool.eqb x y
  | _, _ => false
  end.

(** No code of its own; drives the handlers of stm32f7xx_it.c:183-560. *)
Definition nvic_step (prio : irq -> Z) (s : cpu) (e : nvic_event) : option cpu :=
  match e with
  | TaskCall d =>
      match ctxs s with
      | [mkCtx None [] k sv] => Some (mkCpu (basepri s) [mkCtx None (section_ops d) k sv])
      | _ => Some s
      end
  | Irq i l =>
      if forallb (fun c => existsb (kcall_eqb c) (kernel_calls i)) l && takes prio s i
      then Some (mkCpu (basepri s) (mkCtx (Some i) (calls_ops l) 0 [] :: ctxs s))
      else Some s
  | Step =>
      match ctxs s with
      | c :: low => exec prio (basepri s) c low
      | [] => Some s
      end
  end.

(** A history of such events (stm32f7xx_it.c:183-560). *)
Fixpoint nvic_run (prio : irq -> Z) (s : cpu) (tr : list nvic_event) : option cpu :=
  match tr with
  | [] => Some s
  | e :: tl => match nvic_step prio s e with Some s' => nvic_run prio s' tl | None => None end
  end.
