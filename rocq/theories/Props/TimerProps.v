(** C49: the task timer; C56: the status LED and the dashboard indication. *)
From Coq Require Import ZifyBool ZifyNat.
From Verif.Spec Require Import TimerSpec.
From Verif.Proof Require Import TimerProof.

(** ** C49 *)
(** Every history of registrations and timer interrupts is answered as the
    specification says; no access leaves the table. *)
Theorem C49_timer_wakes_exactly_the_registered :
  forall inst es, timers_unsigned es ->
  exists t, tt_run (tt_started inst) es = Some (t, timer_spec inst [] es).
Proof.
  intros inst es U. destruct (tt_run_spec inst es [] (tt_started inst) (tt_inv_init inst) U) as (t & ts & R & _). eauto.
Qed.
Print Assumptions C49_timer_wakes_exactly_the_registered.

(** An interrupt between the stores of a registration in progress sees the old
    list, and the new one right after the count is raised. *)
Theorem C49_interrupt_inside_registration :
  forall inst es t l new, timers_unsigned es -> tt_run (tt_started inst) es = Some (t, l) ->
    reg_check true t 0 = TT_OK ->
  exists t' woken, reg_store t new = Some t' /\
    TaskTimer_TIM_PeriodElapsedCallback t inst = Some woken /\
    TaskTimer_TIM_PeriodElapsedCallback t' inst = Some woken /\
    TaskTimer_TIM_PeriodElapsedCallback (reg_count t') inst = Some (woken ++ [new]).
Proof.
  intros inst es t l new U R C.
  destruct (tt_run_spec inst es [] (tt_started inst) (tt_inv_init inst) U) as (t1 & ts & R1 & I).
  rewrite R in R1. injection R1 as <- _.
  assert (H : (length ts < 16)%nat).
  { pose proof I as (_ & _ & N & L & _). unfold reg_check, TASKTIMER_FREQUENCY_COUNT, TASKTIMER_MAX_TASKS in C.
    cbn [negb] in C. rewrite Z.geb_leb in C. destruct (Z.leb_spec 1 0); [lia|].
    destruct (Z.eqb_spec 16 (tt_num t)); [discriminate|]. lia. }
  destruct (store_spec inst ts t new I H) as (t' & S & I1 & I2). exists t', ts.
  split; [exact S|]. rewrite (tick_spec inst ts t inst I), (tick_spec inst ts t' inst I1), (tick_spec inst _ _ inst I2).
  now rewrite Z.eqb_refl.
Qed.
Print Assumptions C49_interrupt_inside_registration.

(** Before TaskTimer_Init has finished writing its data, interrupts do nothing. *)
Theorem C49_interrupt_before_init_ignored :
  forall inst h, let t1 := tt_clear tt_zero in let t2 := tt_set_timer t1 h in
    TaskTimer_TIM_PeriodElapsedCallback tt_zero inst = Some [] /\
    TaskTimer_TIM_PeriodElapsedCallback t1 inst = Some [] /\
    TaskTimer_TIM_PeriodElapsedCallback t2 inst = Some [].
Proof. intros. repeat split. Qed.
Print Assumptions C49_interrupt_before_init_ignored.

Example C49_hypotheses_met :
  let es := [TtRegister 7 0; TtTick 2; TtRegister 8 0; TtRegister 9 1; TtTick 2; TtTick 3] in
  timers_unsigned es /\
  timer_spec 2 [] es = [AStatus TT_OK; AWoken [7]; AStatus TT_OK; AStatus TT_INVALID; AWoken [7; 8]; AWoken []].
Proof.
  split; [|reflexivity]. intros t k H. cbn in H.
  repeat (destruct H as [H|H]; [first [discriminate | injection H as <- <-; lia]|]). destruct H.
Qed.

(** The seventeenth registration is refused and leaves the list alone. *)
Example C49_seventeenth_refused :
  timer_spec 2 [] (map (fun t => TtRegister t 0) (map Z.of_nat (seq 1 17)) ++ [TtTick 2]) =
  repeat (AStatus TT_OK) 16 ++ [AStatus TT_FULL; AWoken (map Z.of_nat (seq 1 16))].
Proof. reflexivity. Qed.

(** ** C56 *)
(** With two different pins: the status LED toggles once per 100 ticks and the
    dashboard pin shows the last request; no other pin changes. *)
Theorem C56_blink_and_dashboard_partial :
  forall blink out g es, blink <> out ->
    let w := led_run blink out (led_boot out g) es in
    lw_pins w blink = xorb (g blink) (Z.odd (ticks es / 100)) /\
    lw_pins w out = last_request es /\
    (forall q, q <> blink -> q <> out -> lw_pins w q = g q).
Proof. intros blink out g es N w. now apply led_inv. Qed.
Print Assumptions C56_blink_and_dashboard_partial.

(** As shipped both are the same pin: whatever is requested for the dashboard is
    inverted by the next blink, which comes within 100 ticks. *)
Theorem C56_dashboard_overwritten_refuted :
  forall g es on, exists n, (1 <= n <= 100)%nat /\
    let w := led_run shipped_blink shipped_dash (led_boot shipped_dash g)
               (es ++ [LedDash on] ++ repeat LedTick n) in
    lw_pins w shipped_dash = negb on.
Proof.
  intros g es on.
  assert (C : forall es, 0 <= lw_counter (led_run shipped_blink shipped_dash (led_boot shipped_dash g) es) < 100).
  { clear. induction es as [|e es IH] using rev_ind; [cbn; lia|]. unfold led_run in *. rewrite fold_left_app.
    cbn [fold_left]. destruct e; cbn [led_step]; [|exact IH]. unfold WatchdogTrigger, u16.
    rewrite Z.mod_small by lia. destruct (Z.eqb_spec 100 (lw_counter (fold_left (led_step shipped_blink shipped_dash) es (led_boot shipped_dash g)) + 1)); cbn [lw_counter]; lia. }
  specialize (C (es ++ [LedDash on])).
  set (w1 := led_run shipped_blink shipped_dash (led_boot shipped_dash g) (es ++ [LedDash on])) in *.
  assert (P : lw_pins w1 shipped_dash = on).
  { unfold w1, led_run. rewrite fold_left_app. cbn [fold_left led_step DashboardOut_Set lw_pins].
    unfold GPIO_WritePin. now rewrite pin_eqb_refl. }
  exists (Z.to_nat (100 - lw_counter w1)). split; [lia|].
  rewrite app_assoc. unfold led_run. rewrite fold_left_app. fold (led_run shipped_blink shipped_dash (led_boot shipped_dash g) (es ++ [LedDash on])). fold w1.
  replace (Z.to_nat (100 - lw_counter w1)) with (Z.to_nat (99 - lw_counter w1) + 1)%nat by lia.
  rewrite repeat_app, fold_left_app.
  fold (led_run shipped_blink shipped_dash w1 (repeat LedTick (Z.to_nat (99 - lw_counter w1)))).
  rewrite dark_ticks by lia. cbn [repeat fold_left led_step]. unfold WatchdogTrigger, u16. cbn [lw_counter lw_pins].
  rewrite Z.mod_small by lia.
  destruct (Z.eqb_spec 100 (lw_counter w1 + Z.of_nat (Z.to_nat (99 - lw_counter w1)) + 1)); [|lia].
  cbn [lw_pins]. unfold GPIO_TogglePin, shipped_blink. change Mapping_GPO_LED with shipped_dash.
  rewrite pin_eqb_refl. now rewrite P.
Qed.
Print Assumptions C56_dashboard_overwritten_refuted.

(** And a dashboard request disturbs the blinking: here the LED never lights. *)
Theorem C56_blink_disturbed_refuted :
  forall g, exists es, ticks es = 100 /\
    lw_pins (led_run shipped_blink shipped_dash (led_boot shipped_dash g) es) shipped_blink =
    lw_pins (led_boot shipped_dash g) shipped_blink.
Proof.
  intros g. exists (LedDash true :: repeat LedTick 100). split; [reflexivity|]. reflexivity.
Qed.
Print Assumptions C56_blink_disturbed_refuted.

Example C56_hypotheses_met :
  let es := repeat LedTick 150 ++ [LedDash true] ++ repeat LedTick 60 in
  let w := led_run (0, 1) (0, 2) (led_boot (0, 2) (fun _ => false)) es in
  ticks es = 210 /\ lw_pins w (0, 1) = false /\ lw_pins w (0, 2) = true.
Proof. repeat split. Qed.
