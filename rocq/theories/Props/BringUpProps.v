(** C79: peripherals are configured with their clock on. *)
From Verif.Model Require Import BringUp.
From Verif.Spec Require Import BringUpSpec.
From Verif.Proof Require Import BringUpProof.
From Coq Require Import Permutation.

(** For every order of the initialisation functions, repetitions and omissions
    included: no register is accessed with its clock off if and only if every
    function that configures a DMA stream comes after MX_DMA_Init. Nothing else in
    the order matters. *)
Theorem C79_order_exact :
  forall order, hw_fault (bring_up order) = false <-> dma_first order.
Proof. exact no_fault_iff. Qed.
Print Assumptions C79_order_exact.

(** What counts as an access with the clock off, for any sequence of clock enables
    and register accesses. *)
Theorem C79_fault_is_unclocked_access :
  forall ops, hw_fault (fold_left hw_do ops hw_start) = false <-> clocked ops.
Proof. exact ops_fault. Qed.
Print Assumptions C79_fault_is_unclocked_access.

Example C79_unclocked_ex :
  clocked [Clk GPIOD; Use GPIOD; Use PWR] /\ ~ clocked [Use GPIOD; Clk GPIOD] /\ ~ clocked [Clk DMA1; DmaInit S_ADC1].
Proof.
  split; [apply C79_fault_is_unclocked_access; reflexivity|].
  split; intros H; apply C79_fault_is_unclocked_access in H; discriminate.
Qed.

(** The shipped order violates it. *)
Theorem C79_shipped_order_refuted :
  ~ dma_first mx_order /\ hw_fault (bring_up mx_order) = true.
Proof.
  assert (F : hw_fault (bring_up mx_order) = true) by reflexivity.
  split; [|exact F]. intros D. apply C79_order_exact in D. congruence.
Qed.
Print Assumptions C79_shipped_order_refuted.

(** What is lost: after the shipped sequence not one of the nine streams has its
    configuration; all still have the reset value, which for every stream is
    another one. *)
Theorem C79_no_stream_configured_refuted :
  forall s, hw_stream (bring_up mx_order) s = mkDma 0 false false 1 false /\ mkDma 0 false false 1 false <> dma_intended s.
Proof. intros s. split; [|now destruct s]. destruct s; reflexivity. Qed.
Print Assumptions C79_no_stream_configured_refuted.

(** The configurations themselves are right: each selects the request of its
    peripheral and the direction, and moves through memory. *)
Theorem C79_intended_configuration_fits :
  forall s, (dc_channel (dma_intended s), dc_to_periph (dma_intended s)) = wired s /\ dc_minc (dma_intended s) = true.
Proof. now destruct s. Qed.
Print Assumptions C79_intended_configuration_fits.

(** What a stream's configuration is in general: the intended one if its function
    is called after the first MX_DMA_Init, otherwise the reset value. *)
Theorem C79_streams_after_dma_partial :
  forall a b s, ~ In MX_DMA a ->
    let h := bring_up (a ++ MX_DMA :: b) in
    ((exists f, In f b /\ In s (streams_of f)) -> hw_stream h s = dma_intended s) /\
    ((forall f, In f b -> ~ In s (streams_of f)) -> hw_stream h s = mkDma 0 false false 1 false).
Proof.
  intros a b s N h. unfold h. rewrite streams_after by exact N. split.
  - intros (f & I & IS). replace (existsb _ b) with true; [reflexivity|]. symmetry.
    apply existsb_exists. exists f. split; [exact I|]. now apply beq_in.
  - intros H. destruct (existsb _ b) eqn:E; [exfalso|reflexivity].
    apply existsb_exists in E. destruct E as (f & I & E). apply beq_in in E. now apply (H f).
Qed.
Print Assumptions C79_streams_after_dma_partial.

(** Moving MX_DMA_Init to the second place repairs both. *)
Definition repaired_order : list mx :=
  [MX_GPIO; MX_DMA; MX_ADC1; MX_CAN1; MX_CAN2; MX_CAN3; MX_I2C4; MX_USART1; MX_USART3; MX_I2C2; MX_USART6;
   MX_RTC; MX_TIM2; MX_CRC; MX_TIM3].
Example C79_repair :
  dma_first repaired_order /\ Permutation repaired_order mx_order /\
  (forall s, hw_stream (bring_up repaired_order) s = dma_intended s).
Proof.
  split; [|split].
  - apply C79_order_exact. reflexivity.
  - unfold repaired_order, mx_order. apply perm_skip.
    change ([MX_ADC1; MX_CAN1; MX_CAN2; MX_CAN3; MX_I2C4; MX_USART1; MX_USART3; MX_I2C2; MX_USART6;
      MX_RTC; MX_DMA; MX_TIM2; MX_CRC; MX_TIM3]) with
      ([MX_ADC1; MX_CAN1; MX_CAN2; MX_CAN3; MX_I2C4; MX_USART1; MX_USART3; MX_I2C2; MX_USART6; MX_RTC] ++
       MX_DMA :: [MX_TIM2; MX_CRC; MX_TIM3]).
    apply Permutation_cons_app. apply Permutation_refl.
  - intros s. destruct s; reflexivity.
Qed.
