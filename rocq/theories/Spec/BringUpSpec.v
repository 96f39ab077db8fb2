(** Order of initialisation. *)
From Verif.Model Require Import BringUp.

(** The streams whose configuration a function writes. *)
Definition streams_of (f : mx) : list stream :=
  match f with
  | MX_ADC1 => [S_ADC1]
  | MX_USART1 => [S_USART1_RX; S_USART1_TX]
  | MX_USART3 => [S_USART3_RX; S_USART3_TX]
  | MX_I2C2 => [S_I2C2_RX; S_I2C2_TX]
  | MX_USART6 => [S_USART6_RX; S_USART6_TX]
  | _ => []
  end.

(** Every function that configures a DMA stream comes after MX_DMA_Init. *)
Definition dma_first (order : list mx) : Prop :=
  forall a f b, order = a ++ f :: b -> streams_of f <> [] -> In MX_DMA a.

(** The channel of the stream on which its peripheral's request arrives, and
    whether data goes to the peripheral (RM0410, DMA1 and DMA2 request mapping:
    ADC1 on DMA2 stream 0, USART1 on DMA2 streams 2 and 7, USART3 on DMA1 streams 1
    and 3, I2C2 on DMA1 streams 2 and 4, USART6 on DMA2 streams 1 and 6). *)
Definition wired (s : stream) : Z * bool :=
  match s with
  | S_ADC1 => (0, false)
  | S_USART1_RX => (4, false) | S_USART1_TX => (4, true)
  | S_USART3_RX => (4, false) | S_USART3_TX => (4, true)
  | S_I2C2_RX => (7, false) | S_I2C2_TX => (8, true)
  | S_USART6_RX => (5, false) | S_USART6_TX => (5, true)
  end.

(** In a sequence of clock enables and accesses: every access comes after its
    clock was enabled, except those to the parts that already run. *)
Definition needs (o : hw_op) : list periph :=
  match o with Clk _ => [] | Use p => [p] | DmaInit s => [controller s] end.
Definition always_running : list periph := [PWR; SYSCFG; TIM1].
Definition clocked (ops : list hw_op) : Prop :=
  forall a o b p, ops = a ++ o :: b -> In p (needs o) -> In (Clk p) a \/ In p always_running.
