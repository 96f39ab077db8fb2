(** C77: interrupts during start-up. *)
From Verif.Model Require Import EarlyIrq.
From Verif.Spec Require Import EarlyIrqSpec.
From Verif.Proof Require Import EarlyIrqProof.
From Coq Require Import Lia.

(** Wherever interrupts fall among the stores of the initialisation, of the task
    registrations [ks] and the queue registrations [rs], the handlers of the task
    timer, wheel speed, UART, CAN and ADC modules do no harm. *)
Theorem C77_guarded_modules_harmless_partial :
  (forall ks, harmless (tasktimer_driver ks)) /\
  harmless wheelspeed_driver /\
  harmless uart_driver /\
  (forall rs, harmless (can_driver rs)) /\
  (forall n, 0 <= n <= 16 -> harmless (adc_driver n)).
Proof.
  repeat split.
  - exact tasktimer_harmless.
  - exact wheelspeed_harmless.
  - exact uart_harmless.
  - exact can_harmless.
  - exact adc_harmless.
Qed.
Print Assumptions C77_guarded_modules_harmless_partial.

(** A case: interrupts before, between and after the registration of two tasks
    and of a receive queue. *)
Example C77_ex :
  (exists s, run_driver (tasktimer_driver [3; 7]%nat)
     ([Interrupt true] ++ repeat NextStore 5 ++ [Interrupt true; NextStore; NextStore; Interrupt true;
       NextStore; NextStore; Interrupt true]) = Some s /\ tt_num s = 2%nat) /\
  (exists s, run_driver (can_driver [(0xA0, 0x7F0)])
     ([Interrupt (RxMsg 0xA5)] ++ repeat NextStore 6 ++ [Interrupt (RxMsg 0xA5); NextStore; NextStore;
       Interrupt (RxMsg 0xA5); Interrupt TxDone]) = Some s /\ ci_num s = 1%nat).
Proof. split; eexists; (split; [vm_compute; reflexivity|reflexivity]). Qed.

(** The shutdown-circuit handler has no such guard: its pins' interrupts are
    enabled by the first start-up call, and one that arrives before SDC_Init has
    copied its configuration dereferences a null pointer, whatever the pins read
    and whatever comes before and after. *)
Theorem C77_sdc_interrupt_before_init_refuted :
  forall tr, has_interrupt tr -> (stores_before_first tr < 5)%nat ->
    run_driver sdc_driver tr = None.
Proof. exact sdc_before_config. Qed.
Print Assumptions C77_sdc_interrupt_before_init_refuted.

Example C77_sdc_first_edge :
  run_driver sdc_driver [Interrupt (mkLv true false false false)] = None.
Proof. apply C77_sdc_interrupt_before_init_refuted; [eexists; now left|vm_compute; lia]. Qed.

(** One that arrives after that but before the task exists stops the firmware in
    a kernel assertion as soon as any pin is high. *)
Theorem C77_sdc_interrupt_before_task_refuted :
  forall l tr, l <> mkLv false false false false ->
    run_driver sdc_driver (repeat NextStore 5 ++ Interrupt l :: tr) = None.
Proof.
  intros [[] [] [] []] tr H; try reflexivity. now elim H.
Qed.
Print Assumptions C77_sdc_interrupt_before_task_refuted.

(** Once SDC_Init has stored the task handle every interrupt is handled. *)
Theorem C77_sdc_harmless_after_init_partial :
  forall tr, (length (dr_stores sdc_driver) <= stores_before_first tr)%nat ->
    run_driver sdc_driver tr <> None.
Proof. exact sdc_after_init. Qed.
Print Assumptions C77_sdc_harmless_after_init_partial.

Example C77_sdc_ex :
  (length (dr_stores sdc_driver) <=
   stores_before_first (repeat NextStore 6 ++ [Interrupt (mkLv true true false true)]))%nat.
Proof. vm_compute. lia. Qed.
