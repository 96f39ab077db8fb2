(** The hardware timers: clock tree, configuration and who starts them, down to
    the samples of the wheel sensors. One step is one cycle of the timers' clock;
    an interrupt is served in the cycle that raises it (simplification). *)
From Verif.Base Require Export Words.
From Verif.Model Require Export Wheelspeed.

(** ** Clock tree *)
(** stm32f7xx_hal_conf.h:97 *)
Definition HSE_VALUE : Z := 16000000.
(** main.c:197-199: PLLM, PLLN, PLLP *)
Definition SYSCLK : Z := HSE_VALUE / 8 * 216 / 2.
(** main.c:219-221: AHB, APB1, APB2 dividers *)
Definition PCLK1 : Z := SYSCLK / 1 / 4.
(** main.c:221 *)
Definition PCLK2 : Z := SYSCLK / 1 / 2.
(** Reference manual: timers run at twice the bus clock when its divider is not 1
    (TIMPRE is 0). TIM2 and TIM3 are on APB1, TIM1 on APB2. main.c:220. *)
Definition APB1_TIMERS : Z := 2 * PCLK1.
(** main.c:221 *)
Definition APB2_TIMERS : Z := 2 * PCLK2.

(** ** A timer, counting up *)
(** Hardware registers, written by stm32f7xx_hal_tim.c:269-320, 462-500. *)
Record tim := mkTim {
  t_psc : Z; t_arr : Z;         (* PSC, ARR *)
  t_cen : bool; t_uie : bool;   (* CR1.CEN, DIER.UIE *)
  t_pc : Z; t_cnt : Z }.        (* prescaler counter, CNT *)

(** Reset values of a 16-bit timer (TIM2 is 32 bits wide: its ARR is written before
    it is used). Hardware; ARR of TIM2: main.c:674. *)
Definition tim_reset : tim := mkTim 0 65535 false false 0 0.

(** HAL_TIM_Base_Init: PSC and ARR, and the counters cleared by UG.
    stm32f7xx_hal_tim.c:269-320. *)
Definition HAL_TIM_Base_Init (psc arr : Z) (t : tim) : tim :=
  mkTim psc arr (t_cen t) (t_uie t) 0 0.
(** HAL_TIM_Base_Start_IT: UIE, then CEN. stm32f7xx_hal_tim.c:462-500. *)
Definition HAL_TIM_Base_Start_IT (t : tim) : tim :=
  mkTim (t_psc t) (t_arr t) true true (t_pc t) (t_cnt t).

(** One cycle; the flag: the counter overflows. Hardware (counting up, main.c:673).
    *)
Definition tim_cycle (t : tim) : tim * bool :=
  if negb (t_cen t) then (t, false)
  else if t_pc t <? t_psc t then
    (mkTim (t_psc t) (t_arr t) (t_cen t) (t_uie t) (t_pc t + 1) (t_cnt t), false)
  else if t_cnt t <? t_arr t then
    (mkTim (t_psc t) (t_arr t) (t_cen t) (t_uie t) 0 (t_cnt t + 1), false)
  else (mkTim (t_psc t) (t_arr t) (t_cen t) (t_uie t) 0 0, true).

(** Interrupts raised in the next [n] cycles. Hardware; served by
    stm32f7xx_it.c:183-560. *)
Fixpoint interrupts (t : tim) (n : nat) : Z :=
  match n with
  | O => 0
  | S k => let (t', o) := tim_cycle t in b2z (o && t_uie t) + interrupts t' k
  end.

(** ** Set-up *)
(** The timers and the operations on them in the shipped code:
    stm32f7xx_hal_timebase_tim.c:58-82 (TIM1, run again after the clock set-up),
    main.c:672-677 (TIM2), 717-722 (TIM3), tasktimer.c:57 with initialize.c:278
    (TIM2 started). There is no other call of HAL_TIM_Base_Start_IT or
    HAL_TIM_Base_Start in the sources. *)
Inductive timer_id := T1 | T2 | T3.
(** stm32f7xx_hal_tim.c:269-320, 462-500 *)
Inductive tim_op := TInit (t : timer_id) (psc arr : Z) | TStart (t : timer_id).

(** stm32f7xx_hal_timebase_tim.c:58-82, main.c:672-677, 717-722, tasktimer.c:57 *)
Definition shipped_tim_ops : list tim_op :=
  [TInit T1 (2 * PCLK2 / 1000000 - 1) (1000000 / 1000 - 1); TStart T1;
   TInit T2 999 1079; TInit T3 99 539; TStart T2].

(** The three timers of main.c:672-722 and stm32f7xx_hal_timebase_tim.c:58-82. *)
Record tims := mkTims { tm1 : tim; tm2 : tim; tm3 : tim }.
(** Reset values of the hardware, before main.c:672. *)
Definition tims_reset : tims := mkTims tim_reset tim_reset tim_reset.
(** Selects the timer a handle names (main.c:672, 717). No code of its own. *)
Definition on_timer (f : tim -> tim) (i : timer_id) (s : tims) : tims :=
  match i with
  | T1 => mkTims (f (tm1 s)) (tm2 s) (tm3 s)
  | T2 => mkTims (tm1 s) (f (tm2 s)) (tm3 s)
  | T3 => mkTims (tm1 s) (tm2 s) (f (tm3 s))
  end.
(** stm32f7xx_hal_tim.c:269-320, 462-500 *)
Definition tim_do (s : tims) (o : tim_op) : tims :=
  match o with
  | TInit i p a => on_timer (HAL_TIM_Base_Init p a) i s
  | TStart i => on_timer HAL_TIM_Base_Start_IT i s
  end.
(** The operations one after the other (main.c:672-722, tasktimer.c:57). *)
Definition set_up (ops : list tim_op) : tims := fold_left tim_do ops tims_reset.

(** ** The wheel sensors behind TIM2 and TIM3 *)
(** [wh_note]: a notification of the wheel speed task is pending.
    wheelspeed.c:27-57. *)
Record wheel_sys := mkWhs { wh_t2 : tim; wh_t3 : tim; wh_note : bool; wh_ws : ws_t }.
(** The timers as set up, the driver after wheelspeed.c:157-200. *)
Definition wheel_start (s : tims) : wheel_sys := mkWhs (tm2 s) (tm3 s) false ws_init.

(** A cycle of the APB1 timers with the levels on the two sensor pins, or the task
    gets to run with the given answer for the vehicle-state mutex.
    wheelspeed.c:113-143, 202-231. *)
Inductive wheel_event := Cycle (front rear : bool) | RunTask (lock : bool).

(** TIM2: tasktimer.c:94-124, the task is registered at wheelspeed.c:187.
    TIM3: deviceMapping.h:104, initialize.c:100, wheelspeed.c:202-231. *)
Definition wheel_step (teeth : Z) (s : wheel_sys) (e : wheel_event) : option wheel_sys :=
  match e with
  | Cycle f r =>
      let (t2, o2) := tim_cycle (wh_t2 s) in
      let (t3, o3) := tim_cycle (wh_t3 s) in
      Some (mkWhs t2 t3 (wh_note s || (o2 && t_uie t2))
                  (if o3 && t_uie t3 then TIM_IRQHandler (wh_ws s) f r else wh_ws s))
  | RunTask lock =>
      if wh_note s then
        match Wheelspeed_TaskMethod teeth (wh_ws s) lock with
        | Some w => Some (mkWhs (wh_t2 s) (wh_t3 s) false w)
        | None => None
        end
      else Some s
  end.

(** A history of these events. No code of its own (drives wheelspeed.c:113-143,
    202-231). *)
Fixpoint wheel_run (teeth : Z) (s : wheel_sys) (tr : list wheel_event) : option wheel_sys :=
  match tr with
  | [] => Some s
  | e :: tl => match wheel_step teeth s e with Some s' => wheel_run teeth s' tl | None => None end
  end.
