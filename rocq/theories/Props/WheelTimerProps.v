(** C78: the timers the firmware relies on run, at the rate relied on. *)
From Verif.Model Require Import WheelTimer.
From Verif.Spec Require Import WheelTimerSpec.
From Verif.Proof Require Import WheelTimerProof.
From Coq Require Import Lia.

(** A started timer with prescaler [psc] and period [arr] has raised exactly
    n / ((psc + 1) (arr + 1)) interrupts after [n] cycles. *)
Theorem C78_period_exact :
  forall psc arr t n, 0 <= psc -> 0 <= arr ->
    interrupts (HAL_TIM_Base_Start_IT (HAL_TIM_Base_Init psc arr t)) n =
    periodic ((psc + 1) * (arr + 1)) (Z.of_nat n).
Proof.
  intros psc arr t n P A. rewrite (interrupts_phase psc arr n _ 0 (phase_fresh psc arr t P A)).
  unfold periodic. rewrite Z.add_0_l, Z.div_0_l by nia. lia.
Qed.
Print Assumptions C78_period_exact.

Example C78_ex :
  interrupts (HAL_TIM_Base_Start_IT (HAL_TIM_Base_Init 2 3 tim_reset)) 35 = 2.
Proof. reflexivity. Qed.

(** With the shipped clock tree and set-up, any second of running time contains
    exactly 100 interrupts of the task timer and 1000 of the HAL's time base. *)
Theorem C78_task_timer_100Hz_partial :
  rate (tm2 (set_up shipped_tim_ops)) 100 APB1_TIMERS /\
  rate (tm1 (set_up shipped_tim_ops)) 1000 APB2_TIMERS.
Proof.
  split.
  - apply (rate_phase _ 999 1079 0); [|discriminate|reflexivity].
    apply (phase_fresh 999 1079 tim_reset); lia.
  - apply (rate_phase _ 215 999 0); [|discriminate|reflexivity].
    apply (phase_fresh 215 999 tim_reset); lia.
Qed.
Print Assumptions C78_task_timer_100Hz_partial.

(** The timer that samples the wheel sensors is configured for 2 kHz, but nothing
    starts it: it raises no interrupt at all. *)
Theorem C78_sampling_timer_2kHz_refuted :
  ~ In (TStart T3) shipped_tim_ops /\
  (forall n, interrupts (tm3 (set_up shipped_tim_ops)) n = 0).
Proof.
  assert (N : ~ In (TStart T3) shipped_tim_ops)
    by (unfold shipped_tim_ops; cbn [In]; intros H; repeat destruct H as [H|H]; discriminate || exact H).
  split; [exact N|]. induction n as [|n IH]; [reflexivity|].
  cbn [interrupts]. rewrite (stopped_cycle _ (not_started _ T3 N)). exact IH.
Qed.
Print Assumptions C78_sampling_timer_2kHz_refuted.

(** So, for any set-up that does not start it, whatever the wheels do and
    however long: the published wheel speeds and counts stay zero. *)
Theorem C78_wheel_speed_stays_zero_refuted :
  forall ops teeth tr, ~ In (TStart T3) ops ->
    exists s, wheel_run teeth (wheel_start (set_up ops)) tr = Some s /\
      ws_pub (wh_ws s) = zero_wheel /\ ws_stream (wh_ws s) = [].
Proof.
  intros ops teeth tr N.
  destruct (dead_run teeth tr (wheel_start (set_up ops))) as (s & R & _ & St & P).
  - repeat split. exact (not_started ops T3 N).
  - exists s. auto.
Qed.
Print Assumptions C78_wheel_speed_stays_zero_refuted.

(** If the sampling timer were started too, the samples would be the pin levels at
    every 54000th cycle, the task runs those with a 100 Hz notification pending,
    and the execution that of the wheel speed module (C41) on them. *)
Theorem C78_with_sampling_timer_partial :
  forall teeth tr,
    option_map wh_ws (wheel_run teeth (wheel_start (set_up (shipped_tim_ops ++ [TStart T3]))) tr) =
    ws_run teeth ws_init (seen 1080000 54000 0 false tr) /\
    rate (tm3 (set_up (shipped_tim_ops ++ [TStart T3]))) 2000 APB1_TIMERS.
Proof.
  intros teeth tr. split.
  - apply (live_run teeth 999 1079 99 539 tr).
    + apply (phase_fresh 999 1079 tim_reset); lia.
    + apply (phase_fresh 99 539 tim_reset); lia.
  - apply (rate_phase _ 99 539 0); [|discriminate|reflexivity].
    apply (phase_fresh 99 539 tim_reset); lia.
Qed.
Print Assumptions C78_with_sampling_timer_partial.

(** One second's samples are exactly one batch of the wheel speed task: in 100
    periods of the task timer the sampling timer would fire
    [WSS_BATCH_RECV_SIZE] times. *)
Theorem C78_batch_is_one_second_partial :
  rate (tm3 (set_up (shipped_tim_ops ++ [TStart T3]))) (Z.of_nat WSS_BATCH_RECV_SIZE) (100 * 1080000).
Proof.
  apply (rate_phase _ 99 539 0); [|discriminate|reflexivity].
  apply (phase_fresh 99 539 tim_reset); lia.
Qed.
Print Assumptions C78_batch_is_one_second_partial.
