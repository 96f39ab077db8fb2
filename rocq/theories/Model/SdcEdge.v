(** When the shutdown-circuit interrupt really comes: the pins are configured
    with GPIO_MODE_IT_RISING (cube-proj/Core/Src/main.c:1017-1027), so only a
    rising edge on one of the four inputs raises HAL_GPIO_EXTI_Callback
    (startup/interrupts.c:17-20). The IMU pin (main.c:991-995), which shares an
    EXTI line group, is a further source of interrupts. *)
From Verif.Model Require Export Sdc.

(** The driver of sdc.c with the pending bit of the interrupt (EXTI,
    main.c:1017-1036). *)
Record sdc_hw := mkHw { hw_w : sdc_world; hw_pending : bool }.

(** sdc.c:75-101; no edge has been seen. *)
Definition sdc_hw_init (pins : sdc_t) : sdc_hw := mkHw (sdc_init pins) false.

(** A rising edge on some input. GPIO_MODE_IT_RISING (main.c:1017-1027). *)
Definition rises (old new : sdc_t) : bool :=
  (negb (s_bms old) && s_bms new) || (negb (s_bspd old) && s_bspd new) ||
  (negb (s_imd old) && s_imd new) || (negb (s_out old) && s_out new).

(** [HwImu]: an edge on the IMU pin. [HwIrq]: the processor takes a pending
    interrupt. main.c:991-1036. *)
Inductive hw_event := HwPins (levels : sdc_t) | HwImu | HwIrq | HwTask (lock : bool).

(** No code of its own; drives sdc.c:31-43, 109-123 through
    startup/interrupts.c:17-20. *)
Definition hw_step (h : sdc_hw) (e : hw_event) : sdc_hw :=
  match e with
  | HwPins l => mkHw (sdc_step (hw_w h) (SdcPins l)) (hw_pending h || rises (sw_pins (hw_w h)) l)
  | HwImu => mkHw (hw_w h) true
  | HwIrq => if hw_pending h then mkHw (sdc_step (hw_w h) SdcIrq) false else h
  | HwTask lock => mkHw (sdc_step (hw_w h) (SdcTask lock)) (hw_pending h)
  end.

(** A history of these events (sdc.c:31-43, 109-123). *)
Definition hw_run (h : sdc_hw) (es : list hw_event) : sdc_hw := fold_left hw_step es h.
