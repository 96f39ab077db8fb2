(** How the conversions reach the ADC driver's buffer: the ADC's DMA requests,
    the DMA stream and its interrupt. Model/Adc.v takes for granted that each
    conversion fills one word and that the transfer goes round for ever; here
    both follow from the configuration. *)
From Verif.Base Require Export Words.
From Verif.Base Require Import Mem.
From Verif.Model Require Export Adc BringUp.

(** [ah_adc]: the driver with its buffer, [a_pos] counting the items transferred in
    this round. [ah_on]: the ADC still issues requests and the stream is on.
    [ah_ht], [ah_tc]: the stream's half and complete flags, not yet served. The
    buffers are adc.c:23-42; the rest is the state of the ADC and its DMA stream. *)
Record adchw := mkAh { ah_adc : adc_t; ah_on : bool; ah_ht : bool; ah_tc : bool }.

(** Bits [sh] to [sh + wd - 1] of a word replaced by the low [wd] bits of [v]. No
    code: what a narrow store does to the uint32_t words of adc.c:23. *)
Definition set_field (w sh wd v : Z) : Z :=
  w - ((w / 2 ^ sh) mod 2 ^ wd) * 2 ^ sh + (v mod 2 ^ wd) * 2 ^ sh.

(** One transfer, of the item number [p], into the buffer seen as little-endian
    words. Hardware contract for the stream configured at
    stm32f7xx_hal_msp.c:150-156. *)
Definition dma_put (c : dma_cfg) (mem : list Z) (p v : Z) : option (list Z) :=
  let addr := if dc_minc c then p * dc_size c else 0 in
  w <- rd mem (addr / 4) ;;
  wr mem (addr / 4) (set_field w (8 * (addr mod 4)) (8 * dc_size c) v).

(** A conversion ends. HAL_ADC_Start_DMA (adc.c:129) sets the stream up for [a_n]
    items. After the last one the stream starts over in circular mode and stops
    otherwise; the ADC goes on issuing requests only with DDS set
    (DMAContinuousRequests, main.c:259, stm32f7xx_hal_adc.c:1984-1985). *)
Definition ah_conv (c : dma_cfg) (dds : bool) (s : adchw) (v : Z) : option adchw :=
  if negb (ah_on s) then Some s else
  let a := ah_adc s in
  d <- dma_put c (a_dma a) (a_pos a) v ;;
  let p := a_pos a + 1 in
  let last := p =? a_n a in
  Some (mkAh (mkAdc d (a_bufA a) (a_bufB a) (a_validA a) (a_validB a) (a_activeA a) (a_n a)
                    (if last then 0 else p))
             (if last then dc_circular c && dds else true)
             (ah_ht s || (p =? a_n a / 2)) (ah_tc s || last)).

(** The stream's interrupt: HAL_DMA_IRQHandler (stm32f7xx_hal_dma.c:806-929)
    serves the half flag, then the complete flag, through ADC_DMAHalfConvCplt and
    ADC_DMAConvCplt. As in Model/Adc.v one step. *)
Definition ah_irq (s : adchw) : option adchw :=
  a1 <- (if ah_ht s then ConvHalfCpltCallback (ah_adc s) else Some (ah_adc s)) ;;
  a2 <- (if ah_tc s then ConvCpltCallback a1 else Some a1) ;;
  Some (mkAh a2 (ah_on s) false false).

(** A conversion ends, or the interrupt of the stream is taken (interrupt enabled at
    main.c:872-873). *)
Inductive ah_event := Conv (v : Z) | Irq.
(** One event; see [ah_conv] (adc.c:129) and [ah_irq] (stm32f7xx_hal_dma.c:806-929).
    *)
Definition ah_step (c : dma_cfg) (dds : bool) (s : adchw) (e : ah_event) : option adchw :=
  match e with Conv v => ah_conv c dds s v | Irq => ah_irq s end.
(** A history of events. No code of its own. *)
Fixpoint ah_run (c : dma_cfg) (dds : bool) (s : adchw) (tr : list ah_event) : option adchw :=
  match tr with
  | [] => Some s
  | e :: tl => s' <- ah_step c dds s e ;; ah_run c dds s' tl
  end.

(** adc.c:79-138, as far as it gets; cf. [ADC_Init]. *)
Definition ah_start (n : Z) : adchw :=
  mkAh (mkAdc (repeat 0 16) (repeat 0 16) (repeat 0 16) false false true n 0) true false false.

(** main.c:258, 259; deviceMapping.h:28-33 *)
Definition SHIPPED_CHANNELS : Z := 12.
(** main.c:259: DMAContinuousRequests = DISABLE. *)
Definition SHIPPED_DDS : bool := false.
(** deviceMapping.h:30 *)
Definition THROTTLE_1 : Z := 8.
(** deviceMapping.h:31 *)
Definition THROTTLE_2 : Z := 9.
(** deviceMapping.h:32 *)
Definition BRAKE_FRONT : Z := 10.
(** deviceMapping.h:33 *)
Definition BRAKE_REAR : Z := 11.
