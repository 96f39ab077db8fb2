(** system-lib/adc/adc.c: sampling by circular DMA into [adcDMABuf], copied by
    the two DMA interrupts into one of two copy buffers, read by [ADC_Get]. *)
From Verif.Base Require Export Words F32.
From Verif.Base Require Import Mem.

Definition ADC_MAX_NUM_CHANNELS : Z := 16.   (* adc.h:51 *)

(** adc.h:22-32 *)
Definition ADC_STATUS_OK : Z := 0.
(** adc.h:25 *)
Definition ADC_STATUS_ERROR_DMA : Z := 1.
(** adc.h:26 *)
Definition ADC_STATUS_ERROR_CHANNEL_COUNT : Z := 2.
(** adc.h:27 *)
Definition ADC_STATUS_ERROR_DEPENDS : Z := 3.
(** adc.h:28 *)
Definition ADC_STATUS_ERROR_HW_CONFIG : Z := 4.
(** adc.h:29 *)
Definition ADC_STATUS_ERROR_INVALID_CHANNEL : Z := 5.
(** adc.h:31 *)
Definition ADC_STATUS_ERROR_DATANOTREADY : Z := 8.

(** adc.c:23-42. [a_activeA] is activeCopyBuffer == COPY_BUFFER_A_ACTIVE; the
    enum has no third value, so the default branches (171, 223, 257) are dead.
    [a_pos] is not a variable of the driver but the DMA controller's place in
    the circular transfer. *)
Record adc_t := mkAdc {
  a_dma : list Z; a_bufA : list Z; a_bufB : list Z;
  a_validA : bool; a_validB : bool; a_activeA : bool;
  a_n : Z; a_pos : Z }.

(** adc.c:118-124 *)
Definition halfCpltCopyLen (a : adc_t) : Z := a_n a / 2.
(** adc.c:119 *)
Definition cpltCopyOffset (a : adc_t) : Z := a_n a / 2.
(** adc.c:120-124 *)
Definition cpltCopyLen (a : adc_t) : Z :=
  if a_n a mod 2 =? 0 then a_n a / 2 else a_n a / 2 + 1.

(** adc.c:57-62, for the two calls made (216/220, 242/250): source and
    destination start at the same offset. [None]: outside an array. *)
Fixpoint bufferCopy (dest src : list Z) (off : Z) (len : nat) : option (list Z) :=
  match len with
  | O => Some dest
  | S k => v <- rd src off ;; d <- wr dest off v ;; bufferCopy d src (off + 1) k
  end.

(** The hardware configuration read by ADC_Init (adc.c:89-101) and the answers
    of the dependency check (83) and of HAL_ADC_Start_DMA (129). *)
Record adc_hwcfg := mkAdcHw {
  hw_nbrOfConversion : Z; hw_continuous : bool; hw_alignRight : bool;
  hw_dependsOk : bool; hw_startOk : bool }.

(** adc.c:79-138. The state is returned when the buffers were set up; before
    that the driver is left as it was ([None]). *)
Definition ADC_Init (hw : adc_hwcfg) (numChannelsUsed : Z) : Z * option adc_t :=
  if negb (hw_dependsOk hw) then (ADC_STATUS_ERROR_DEPENDS, None)
  else if numChannelsUsed >? ADC_MAX_NUM_CHANNELS then (ADC_STATUS_ERROR_CHANNEL_COUNT, None)
  else if negb (numChannelsUsed =? hw_nbrOfConversion hw) then (ADC_STATUS_ERROR_HW_CONFIG, None)
  else if negb (hw_continuous hw) then (ADC_STATUS_ERROR_HW_CONFIG, None)
  else if negb (hw_alignRight hw) then (ADC_STATUS_ERROR_HW_CONFIG, None)
  else
    let z := repeat 0 (Z.to_nat ADC_MAX_NUM_CHANNELS) in
    let a := mkAdc z z z false false true numChannelsUsed 0 in
    if hw_startOk hw then (ADC_STATUS_OK, Some a) else (ADC_STATUS_ERROR_DMA, Some a).

(** adc.c:141-179. The interrupt of the DMA stream is masked from 150 to 176
    (initialize.c:63, deviceMapping.h:131), so the read is one step. The
    result is the status and [*val]; [None] is a read outside a copy buffer. *)
Definition ADC_Get (a : adc_t) (channel : Z) : option (Z * Z) :=
  if channel >? a_n a then Some (ADC_STATUS_ERROR_INVALID_CHANNEL, 0)
  else if a_activeA a then
    if a_validB a then v <- rd (a_bufB a) channel ;; Some (ADC_STATUS_OK, u16 v)
    else Some (ADC_STATUS_ERROR_DATANOTREADY, 0)
  else
    if a_validA a then v <- rd (a_bufA a) channel ;; Some (ADC_STATUS_OK, u16 v)
    else Some (ADC_STATUS_ERROR_DATANOTREADY, 0).

(** adc.c:207-227 *)
Definition ConvHalfCpltCallback (a : adc_t) : option adc_t :=
  let len := Z.to_nat (halfCpltCopyLen a) in
  if a_activeA a then
    b <- bufferCopy (a_bufA a) (a_dma a) 0 len ;;
    Some (mkAdc (a_dma a) b (a_bufB a) (a_validA a) (a_validB a) (a_activeA a) (a_n a) (a_pos a))
  else
    b <- bufferCopy (a_bufB a) (a_dma a) 0 len ;;
    Some (mkAdc (a_dma a) (a_bufA a) b (a_validA a) (a_validB a) (a_activeA a) (a_n a) (a_pos a)).

(** adc.c:232-261 *)
Definition ConvCpltCallback (a : adc_t) : option adc_t :=
  let off := cpltCopyOffset a in
  let len := Z.to_nat (cpltCopyLen a) in
  if a_activeA a then
    b <- bufferCopy (a_bufA a) (a_dma a) off len ;;
    Some (mkAdc (a_dma a) b (a_bufB a) true (a_validB a) false (a_n a) (a_pos a))
  else
    b <- bufferCopy (a_bufB a) (a_dma a) off len ;;
    Some (mkAdc (a_dma a) (a_bufA a) b (a_validA a) true true (a_n a) (a_pos a)).

(** The circular DMA transfer started at adc.c:129: each conversion is stored
    in the next of the [a_n] words, then the transfer starts over. *)
Definition dma_store (a : adc_t) (v : Z) : option adc_t :=
  d <- wr (a_dma a) (a_pos a) v ;;
  Some (mkAdc d (a_bufA a) (a_bufB a) (a_validA a) (a_validB a) (a_activeA a) (a_n a)
              ((a_pos a + 1) mod a_n a)).

(** What can happen, in any order: a conversion is stored, one of the two interrupt
    handlers runs, a task reads a channel. A handler copies only words of one half;
    [DMA] stores during the handler that hit the other half commute with it, and
    stores that hit the same half are what [AdcSpec.timely] excludes. (adc.c:129;
    207-227; 232-261; 141-179.) *)
Inductive adc_event :=
| Sample (v : Z)
| HalfIsr
| CpltIsr
| Read (channel : Z).

(** One event: the functions above (adc.c:141-179, 207-261). *)
Definition adc_step (a : adc_t) (e : adc_event) : option adc_t :=
  match e with
  | Sample v => dma_store a v
  | HalfIsr => ConvHalfCpltCallback a
  | CpltIsr => ConvCpltCallback a
  | Read ch => match ADC_Get a ch with Some _ => Some a | None => None end
  end.

(** A history of events. No code of its own; the driver state lives in adc.c:23-42.
    *)
Fixpoint adc_run (a : adc_t) (tr : list adc_event) : option adc_t :=
  match tr with
  | [] => Some a
  | e :: tl => a' <- adc_step a e ;; adc_run a' tl
  end.

(** adc.h:60-65 *)
Record scaling_t := mkScaling { sc_lower : Z; sc_upper : Z; sc_saturate : bool }.

(** adc.c:182-201. The operands are uint16_t, so the int subtractions are exact. *)
Definition ADC_ApplyScaling (s : scaling_t) (raw : Z) : f32 :=
  let num := raw - sc_lower s in
  let den := sc_upper s - sc_lower s in
  let output := fdiv (f_of_Z num) (f_of_Z den) in
  if sc_saturate s then
    if fgt output f_one then f_one
    else if flt output f_zero then f_zero
    else output
  else output.
