(** What C84 speaks about. *)
From Verif.Model Require Import SerialDma.

(** The function that sets up a port, and: it is called after MX_DMA_Init. *)
Definition setup_of (p : serial) : mx :=
  match p with USART_1 => MX_USART1 | USART_3 => MX_USART3 | USART_6 => MX_USART6 end.
Definition set_up_after_dma (order : list mx) (p : serial) : Prop :=
  exists a b, order = a ++ setup_of p :: b /\ In MX_DMA a.

(** Messages whose sending the driver reported as successful, bytes on the line,
    bytes delivered to the reader. *)
Definition accepted (u : uart) : list (list Z) := ua_ok u.
Definition on_the_wire (u : uart) : list Z := ua_wire u.
