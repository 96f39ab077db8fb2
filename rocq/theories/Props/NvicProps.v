(** C76: interrupt priorities and the kernel. *)
From Verif.Model Require Import Nvic.
From Verif.Spec Require Import NvicSpec.
From Verif.Proof Require Import NvicProof.
From Coq Require Import Lia ZifyBool ZifyNat.

(** For any assignment of priorities: no sequence of task calls, interrupts and
    processor steps, with the handlers making any of their kernel calls, fails a
    kernel assertion or uses the kernel's data while a preempted context is using
    it, if and only if no handler that uses the kernel has a priority above the
    kernel's limit. *)
Theorem C76_priorities_exact :
  forall prio : irq -> Z,
    respects_limit prio <-> (forall tr, nvic_run prio cpu_start tr <> None).
Proof.
  intros prio. split.
  - intros LIM tr. destruct (inv_run prio tr LIM cpu_start (inv_start prio)) as (s & -> & _).
    discriminate.
  - intros H i K. destruct (Z.lt_ge_cases (prio i) MAX_SYSCALL) as [L|L]; [exfalso|exact L].
    unfold MAX_SYSCALL in L.
    destruct (kernel_calls i) as [|c cs] eqn:KC; [now apply K|].
    apply (H [TaskCall 1; Step; Irq i [c]; Step; Step]).
    cbn [nvic_run nvic_step cpu_start ctxs basepri section_ops app exec c_ops c_irq c_depth c_saved].
    rewrite KC. cbn [forallb existsb]. rewrite kcall_eqb_refl. cbn [orb andb].
    unfold takes, ctx_prio. cbn [ctxs basepri c_irq]. unfold MAX_SYSCALL.
    replace (prio i <? 256) with true by lia. replace (prio i <? 5) with true by lia.
    cbn [Z.eqb orb andb].
    destruct i; cbn [kernel_calls] in KC; try discriminate; injection KC as <- <-;
      cbn [nvic_run nvic_step calls_ops flat_map call_ops notify_ops app ctxs basepri exec c_ops c_irq
           c_depth c_saved user_irq andb existsb inside Nat.ltb Nat.leb orb];
      unfold MAX_SYSCALL;
      try match goal with |- context[prio ?j <? 5] => replace (prio j <? 5) with true by lia end;
      reflexivity.
Qed.
Print Assumptions C76_priorities_exact.

(** The shipped priorities satisfy it: the firmware never stops at a priority
    assertion and the kernel's data is never used by two contexts at once. *)
Theorem C76_shipped_priorities_safe :
  forall tr, exists s, nvic_run prio_shipped cpu_start tr = Some s.
Proof.
  intros tr.
  destruct (inv_run prio_shipped tr) with (s := cpu_start) as (s & E & _);
    [|apply inv_start|now exists s].
  intros i K. destruct i; cbn in *; unfold MAX_SYSCALL; try lia; now elim K.
Qed.
Print Assumptions C76_shipped_priorities_safe.

(** A case: a task inside the kernel is interrupted by the highest-priority timer
    and by nothing else; the tick waits. *)
Example C76_ex :
  exists s, nvic_run prio_shipped cpu_start
    [TaskCall 2; Step; Irq CAN1_RX0 [QueueSend]; Irq TIM1_UP []; Irq SYSTICK [Tick]] = Some s /\
    handlers s = [TIM1_UP] /\ basepri s = 5.
Proof. eexists. split; [vm_compute; reflexivity|]. split; reflexivity. Qed.
(** A DMA interrupt of a receiving UART left at priority 0, like the I2C ones,
    would break it. *)
Example C76_ex_bad :
  ~ respects_limit (fun i => match i with USART1_RX_DMA => 0 | i => prio_shipped i end).
Proof. intros H. specialize (H USART1_RX_DMA). cbn in H. unfold MAX_SYSCALL in H. assert (5 <= 0) by (apply H; discriminate). lia. Qed.

(** At any time at most one context is using the kernel. *)
Theorem C76_one_user_at_a_time :
  forall prio tr s, respects_limit prio -> nvic_run prio cpu_start tr = Some s ->
    forall a b l1 l2 l3, ctxs s = l1 ++ a :: l2 ++ b :: l3 -> ~ (using_kernel a /\ using_kernel b).
Proof.
  intros prio tr s LIM R a b l1 l2 l3 E [A B].
  destruct (inv_run prio tr LIM cpu_start (inv_start prio)) as (s' & R' & I).
  rewrite R in R'. injection R' as <-. destruct I as [_ I]. unfold using_kernel in *.
  destruct I as [[D _]|(up & c & low & E2 & UP & IN & D & _)].
  - rewrite Forall_forall in D. specialize (D a). unfold d0 in D. rewrite D in A; [lia|].
    rewrite E. apply in_or_app. right. now left.
  - rewrite E in E2. clear E. revert l1 E2.
    induction UP as [|u up U UP IH]; intros l1 E2.
    + destruct l1 as [|x l1]; cbn in E2; injection E2 as -> E2; rewrite Forall_forall in D.
      * specialize (D b). unfold d0 in D. rewrite D in B; [lia|]. rewrite <- E2.
        apply in_or_app. right. now left.
      * specialize (D a). unfold d0 in D. rewrite D in A; [lia|]. rewrite <- E2.
        apply in_or_app. right. now left.
    + destruct l1 as [|x l1]; cbn in E2; injection E2 as -> E2.
      * destruct U as (_ & U & _). lia.
      * now apply (IH l1).
Qed.
Print Assumptions C76_one_user_at_a_time.

(** Interrupts are never left masked: whenever no context is using the kernel the
    mask is off, and it is on while one is. *)
Theorem C76_mask_restored :
  forall prio tr s, respects_limit prio -> nvic_run prio cpu_start tr = Some s ->
    basepri s = (if existsb inside (ctxs s) then MAX_SYSCALL else 0).
Proof.
  intros prio tr s LIM R.
  destruct (inv_run prio tr LIM cpu_start (inv_start prio)) as (s' & R' & I).
  rewrite R in R'. injection R' as <-. destruct I as [_ I].
  destruct I as [[D B]|(up & c & low & E2 & UP & IN & D & B)].
  - now rewrite d0_not_inside.
  - rewrite E2, existsb_app. cbn [existsb]. unfold inside at 2.
    replace (0 <? c_depth c)%nat with true by lia. cbn [orb]. now rewrite Bool.orb_true_r.
Qed.
Print Assumptions C76_mask_restored.

(** Handlers nest at most five deep, in order of priority, whatever happens; so
    the stack they share is bounded. *)
Theorem C76_nesting_bounded :
  forall tr s, nvic_run prio_shipped cpu_start tr = Some s -> (length (handlers s) <= 5)%nat.
Proof.
  intros tr s R. apply (nested_le_levels prio_shipped [0; 5; 6; 7; 15] tr s); [|exact R].
  intros i. destruct i; cbn; tauto.
Qed.
Print Assumptions C76_nesting_bounded.

Example C76_nesting_reached :
  exists s, nvic_run prio_shipped cpu_start
    [Irq SYSTICK [Tick]; Irq USART1 [SbSend true]; Irq CAN1_RX0 [QueueSend]; Irq TIM2 [NotifyGive];
     Irq TIM1_UP []] = Some s /\ length (handlers s) = 5%nat.
Proof. eexists. split; [vm_compute; reflexivity|reflexivity]. Qed.
