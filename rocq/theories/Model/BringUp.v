(** Bring-up of the peripherals: cube-proj/Core/Src/main.c:123-151 and the
    HAL_xxx_MspInit functions of stm32f7xx_hal_msp.c.

    Each MX_ function is the list of its clock enables and register accesses, in
    program order; repeated accesses to a peripheral are one [Use]. The DMA
    stream control registers are kept, because other modules rely on what is
    written there. Hardware contract (RM0410, RCC): the registers of a peripheral
    cannot be accessed while its clock is off; a write is lost. *)
From Verif.Base Require Export Words.

(** The peripherals whose clocks main.c:137-151 and stm32f7xx_hal_msp.c turn on. *)
Inductive periph :=
| PWR | SYSCFG | TIM1 | TIM2 | TIM3
| GPIOA | GPIOB | GPIOC | GPIOD | GPIOE | GPIOF | GPIOG | GPIOH
| ADC1 | CAN1 | CAN2 | CAN3 | I2C2 | I2C4 | USART1 | USART3 | USART6 | RTC | CRC
| DMA1 | DMA2.
Scheme Equality for periph.

(** The DMA streams in use, named by their purpose. (stm32f7xx_hal_msp.c:149, 503,
    521, 807, 825, 881, 899, 963, 981.) *)
Inductive stream :=
| S_ADC1 | S_USART1_RX | S_USART1_TX | S_USART3_RX | S_USART3_TX
| S_I2C2_RX | S_I2C2_TX | S_USART6_RX | S_USART6_TX.
Scheme Equality for stream.

(** msp 149, 807, 825, 881, 899, 521, 503, 963, 981. (Instance members in
    stm32f7xx_hal_msp.c.) *)
Definition controller (s : stream) : periph :=
  match s with
  | S_ADC1 | S_USART1_RX | S_USART1_TX | S_USART6_RX | S_USART6_TX => DMA2
  | S_USART3_RX | S_USART3_TX | S_I2C2_RX | S_I2C2_TX => DMA1
  end.

(** The fields of DMA_SxCR that HAL_DMA_Init writes and that matter here
    (stm32f7xx_hal_dma.c:233-252): channel, direction, memory increment, size of
    a transfer in bytes (the same on both sides everywhere), circular mode. *)
Record dma_cfg := mkDma {
  dc_channel : Z; dc_to_periph : bool; dc_minc : bool; dc_size : Z; dc_circular : bool }.
(** Hardware contract (RM0410, DMA_SxCR), before stm32f7xx_hal_dma.c:233-252 writes
    it. *)
Definition dma_reset : dma_cfg := mkDma 0 false false 1 false.   (* the register's reset value, 0 *)

(** msp 150-156, 808-814, 826-832, 882-888, 900-906, 522-528, 504-510, 964-970,
    982-988. (Init members in stm32f7xx_hal_msp.c.) *)
Definition dma_intended (s : stream) : dma_cfg :=
  match s with
  | S_ADC1 => mkDma 0 false true 2 true
  | S_USART1_RX | S_USART3_RX => mkDma 4 false true 1 false
  | S_USART1_TX | S_USART3_TX => mkDma 4 true true 1 false
  | S_I2C2_RX => mkDma 7 false true 1 false
  | S_I2C2_TX => mkDma 8 true true 1 false
  | S_USART6_RX => mkDma 5 false true 1 false
  | S_USART6_TX => mkDma 5 true true 1 false
  end.

(** What the functions of stm32f7xx_hal_msp.c:80-1000 and main.c:899-1037 do to the
    hardware. *)
Inductive hw_op :=
| Clk (p : periph)          (* __HAL_RCC_..._CLK_ENABLE *)
| Use (p : periph)          (* accesses to its registers *)
| DmaInit (s : stream).     (* HAL_DMA_Init with [dma_intended s] *)

(** The functions called at main.c:137-151. *)
Inductive mx :=
| MX_GPIO | MX_ADC1 | MX_CAN1 | MX_CAN2 | MX_CAN3 | MX_I2C4 | MX_USART1 | MX_USART3 | MX_I2C2
| MX_USART6 | MX_RTC | MX_DMA | MX_TIM2 | MX_CRC | MX_TIM3.
Scheme Equality for mx.

(** The msp function of each comes first: HAL_xxx_Init calls it before touching the
    peripheral. CAN2 needs the clock of CAN1, which holds the filters; the count at
    msp 219-273 makes whichever comes first enable it. (main.c:249-1037,
    stm32f7xx_hal_msp.c:112-1000, line by line below.) *)
Definition mx_ops (f : mx) : list hw_op :=
  match f with
  | MX_GPIO =>                                        (* main.c:899-1037 *)
      [Clk GPIOE; Clk GPIOC; Clk GPIOF; Clk GPIOH; Clk GPIOA; Clk GPIOB; Clk GPIOG; Clk GPIOD;
       Use GPIOE; Use GPIOC; Use GPIOF; Use GPIOH; Use GPIOA; Use GPIOB; Use GPIOG; Use GPIOD; Use SYSCFG]
  | MX_ADC1 =>                                        (* main.c:249-373, msp 112-164 *)
      [Clk ADC1; Clk GPIOA; Clk GPIOC; Clk GPIOB; Use GPIOA; Use GPIOC; Use GPIOB; DmaInit S_ADC1; Use ADC1]
  | MX_CAN1 => [Clk CAN1; Clk GPIOD; Use GPIOD; Use CAN1]                       (* msp 236-259 *)
  | MX_CAN2 => [Clk CAN2; Clk CAN1; Clk GPIOB; Use GPIOB; Use CAN2]             (* msp 270-294 *)
  | MX_CAN3 => [Clk CAN3; Clk GPIOA; Use GPIOA; Use CAN3]                       (* msp 305-325 *)
  | MX_I2C4 => [Clk GPIOD; Use GPIOD; Clk I2C4; Use I2C4]                       (* msp 557-570 *)
  | MX_USART1 =>                                                                (* msp 791-844 *)
      [Clk USART1; Clk GPIOA; Use GPIOA; DmaInit S_USART1_RX; DmaInit S_USART1_TX; Use USART1]
  | MX_USART3 =>                                                                (* msp 865-918 *)
      [Clk USART3; Clk GPIOD; Use GPIOD; DmaInit S_USART3_RX; DmaInit S_USART3_TX; Use USART3]
  | MX_I2C2 =>                                                                  (* msp 486-536 *)
      [Clk GPIOF; Use GPIOF; Clk I2C2; DmaInit S_I2C2_TX; DmaInit S_I2C2_RX; Use I2C2]
  | MX_USART6 =>                                                                (* msp 939-1000 *)
      [Clk USART6; Clk GPIOC; Clk GPIOG; Use GPIOC; Use GPIOG; DmaInit S_USART6_RX; DmaInit S_USART6_TX;
       Use USART6]
  | MX_RTC => [Use PWR; Clk RTC; Use RTC]                                       (* msp 649-657 *)
  | MX_DMA => [Clk DMA2; Clk DMA1]                                              (* main.c:855-856 *)
  | MX_TIM2 => [Clk TIM2; Use TIM2]                                             (* msp 701 *)
  | MX_CRC => [Clk CRC; Use CRC]                                                (* msp 431 *)
  | MX_TIM3 => [Clk TIM3; Use TIM3]                                             (* msp 715 *)
  end.

(** main.c:137-151 *)
Definition mx_order : list mx :=
  [MX_GPIO; MX_ADC1; MX_CAN1; MX_CAN2; MX_CAN3; MX_I2C4; MX_USART1; MX_USART3; MX_I2C2; MX_USART6;
   MX_RTC; MX_DMA; MX_TIM2; MX_CRC; MX_TIM3].

(** The state of the RCC clock enables and of the DMA streams, and whether an access
    was made without clock (main.c:123-151). *)
Record hw := mkHw { hw_clock : periph -> bool; hw_stream : stream -> dma_cfg; hw_fault : bool }.

(** After HAL_Init (main.c:123: msp 87-88, stm32f7xx_hal_timebase_tim.c:52). *)
Definition hw_start : hw :=
  mkHw (fun p => match p with PWR | SYSCFG | TIM1 => true | _ => false end) (fun _ => dma_reset) false.

(** Hardware contract for one operation of main.c:137-151. *)
Definition hw_do (h : hw) (o : hw_op) : hw :=
  match o with
  | Clk p => mkHw (fun q => if periph_beq q p then true else hw_clock h q) (hw_stream h) (hw_fault h)
  | Use p => mkHw (hw_clock h) (hw_stream h) (hw_fault h || negb (hw_clock h p))
  | DmaInit s =>
      if hw_clock h (controller s) then
        mkHw (hw_clock h) (fun t => if stream_beq t s then dma_intended s else hw_stream h t) (hw_fault h)
      else mkHw (hw_clock h) (hw_stream h) true
  end.

(** The peripherals after calling the functions of [order]. (main.c:137-151.) *)
Definition bring_up (order : list mx) : hw := fold_left hw_do (flat_map mx_ops order) hw_start.
