(** What a reader of a channel can see. *)
From Verif.Model Require Import AdcHw DiscreteSense.
From Verif.Spec Require Import AdcSpec.

(** [r] is a possible answer to a read of channel [ch]: after some execution
    ADC_Get gives it. *)
Definition can_read (c : dma_cfg) (dds : bool) (n ch : Z) (r : Z * Z) : Prop :=
  exists tr s, ah_run c dds (ah_start n) tr = Some s /\ ADC_Get (ah_adc s) ch = Some r.

(** The first word of the buffer that [n] items do not reach. *)
Definition words_filled (c : dma_cfg) (n : Z) : Z :=
  if dc_minc c then (n * dc_size c + 3) / 4 else 1.

(** Conversions in a trace. *)
Fixpoint conversions (tr : list ah_event) : list Z :=
  match tr with [] => [] | Conv v :: tl => v :: conversions tl | Irq :: tl => conversions tl end.

(** The execution as Model/Adc.v sees it: each conversion a sample, each served
    interrupt one or both callbacks, depending on which halves of the round ended
    since the last one. [p]: items so far in this round. *)
Fixpoint as_adc (n p : Z) (ht tc : bool) (tr : list ah_event) : list adc_event :=
  match tr with
  | [] => []
  | Conv v :: tl =>
      Sample v :: as_adc n ((p + 1) mod n) (ht || (p + 1 =? n / 2)) (tc || (p + 1 =? n)) tl
  | Irq :: tl =>
      (if ht then [HalfIsr] else []) ++ (if tc then [CpltIsr] else []) ++ as_adc n p false false tl
  end.

(** A stream that suits the driver's buffer of words. *)
Definition word_stream (c : dma_cfg) : Prop :=
  dc_minc c = true /\ dc_size c = 4 /\ dc_circular c = true.

(** The pedal and brake readings of a task activation are possible answers of the
    ADC driver with stream configuration [c] and the shipped ADC settings; each may
    be taken at a different time. *)
Definition shipped_cycle (c : dma_cfg) (y : ds_cycle) : Prop :=
  can_read c SHIPPED_DDS SHIPPED_CHANNELS THROTTLE_1 (cy_A y) /\
  can_read c SHIPPED_DDS SHIPPED_CHANNELS THROTTLE_2 (cy_B y) /\
  can_read c SHIPPED_DDS SHIPPED_CHANNELS BRAKE_FRONT (cy_front y) /\
  can_read c SHIPPED_DDS SHIPPED_CHANNELS BRAKE_REAR (cy_rear y).

(** Pedal at rest, no brake pressure. *)
Definition all_zero (i : inputs_t) : Prop :=
  i_accel i = f_zero /\ i_brakePresFront i = f_zero /\ i_brakePresRear i = f_zero /\
  i_accelRawA i = 0 /\ i_accelRawB i = 0.
