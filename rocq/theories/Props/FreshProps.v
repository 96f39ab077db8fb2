(** C92: the control tasks use readings of the current period. [fresh_run d v tr]
    is the system after the run [tr] of timer ticks and task actions that the
    kernel's priorities allow. *)
From Verif.Model Require Import Fresh.
From Verif.Spec Require Import FreshSpec.
From Verif.Proof Require Import FreshProof.
Open Scope Z_scope.

(** Whenever the throttle task, the state manager, the task of the PC link, of the
    shutdown circuit or of the GPS holds the vehicle state in an activation that
    began after [at_] ticks, the state shows a cycle of the sensing task that began
    at tick [at_] or later: all its readings were taken after that tick. *)
Theorem C92_readings_are_current :
  forall d v tr t at_, not_starved d v tr ->
    In t [T_THROTTLE; T_VSM; T_PC; T_SDC; T_GPS] ->
    f_stage (fresh_run d v tr) t = Inside at_ -> 1 <= at_ ->
    exists n cy, f_last (fresh_run d v tr) = Some (n, cy) /\
      at_ <= n <= ticks tr /\
      shows_cycle d cy (f_vs (fresh_run d v tr)).
Proof.
  intros d v tr t at_ NS IN ST A. rewrite <- (now_ticks d v tr). revert ST A. apply inside_is_fresh; auto. now apply low_tasks.
Qed.
Print Assumptions C92_readings_are_current.

(** Such a task cannot even begin an activation while a cycle of the sensing task
    is due or under way. *)
Theorem C92_sensing_goes_first :
  forall d v tr t, not_starved d v tr ->
    In t [T_THROTTLE; T_VSM; T_PC; T_SDC; T_GPS] ->
    let s := fresh_run d v tr in
    f_stage s t = Waiting -> f_stage (fresh_step d s (FRun t AStart)) t <> Waiting ->
    f_stage s T_SENSE = Waiting /\ f_note s T_SENSE = 0.
Proof. intros d v tr t NS IN s. apply low_goes_second; auto. now apply low_tasks. Qed.
Print Assumptions C92_sensing_goes_first.

(** Runs: the sensing task with the value [x] on all four channels, a task that
    enters the mutex, and one that leaves it. *)
Definition ds0 : ds_scaling := ds_from_config default_config.
Definition cyc (x : Z) : ds_cycle := mkCycle (0, x) (0, x) (0, x) (0, x) true true.
Definition sense (x : Z) : list f_event :=
  map (FRun T_SENSE) [AStart; ACall; ATake; APublish (cyc x); AGive; ADone].
(** The other tasks of the highest priority, woken by the same tick. *)
Definition peers : list f_event :=
  flat_map (fun t => map (FRun t) [AStart; ADone]) [T_WHEEL; T_INV; T_BMS; T_WDT].
Definition enter (t : Z) : list f_event := map (FRun t) [AStart; ACall; ATake].
Definition leave (t : Z) : list f_event := map (FRun t) [AGive; ADone].

(** The stage of [t], when the published cycle began, and the raw pedal value. *)
Definition seen (tr : list f_event) (t : Z) : stage * option Z * Z :=
  let s := fresh_run ds0 zero_vstate tr in
  (f_stage s t, option_map fst (f_last s), i_accelRawA (vs_inputs (f_vs s))).

(** Two periods in which the throttle task enters after the sensing task. *)
Definition two_periods : list f_event :=
  [FTick] ++ sense 1000 ++ peers ++ enter T_THROTTLE ++ leave T_THROTTLE ++
  [FTick] ++ sense 2000 ++ peers ++ enter T_THROTTLE.

Example C92_nonvacuous :
  not_starved ds0 zero_vstate two_periods /\ seen two_periods T_THROTTLE = (Inside 2, Some 2, 2000).
Proof. split; [apply waits_okb_ok|]; vm_compute; reflexivity. Qed.

(** The throttle task tries to go first: it cannot. *)
Example C92_cannot_go_first :
  seen ([FTick] ++ sense 1000 ++ [FTick] ++ peers ++ enter T_THROTTLE) T_THROTTLE
  = (Waiting, Some 1, 1000).
Proof. vm_compute. reflexivity. Qed.

(** The tick falls while the state manager holds the mutex, so that the sensing
    task must wait: the throttle task cannot begin before the mutex was passed on
    and the new readings were published. The state manager itself, whose
    activation began before the tick, still saw the readings of that period. *)
Definition contended : list f_event :=
  [FTick] ++ sense 1000 ++ peers ++ enter T_VSM ++ [FTick; FRun T_SENSE AStart; FRun T_SENSE ACall] ++ peers.
Example C92_lock_is_held :
  seen contended T_VSM = (Inside 1, Some 1, 1000) /\
  seen (contended ++ enter T_THROTTLE) T_THROTTLE = (Waiting, Some 1, 1000) /\
  seen (contended ++ [FRun T_VSM AGive] ++
        map (FRun T_SENSE) [ATake; APublish (cyc 2000); AGive; ADone] ++
        map (FRun T_VSM) [ADone] ++ enter T_THROTTLE) T_THROTTLE = (Inside 2, Some 2, 2000).
Proof. vm_compute. auto. Qed.

(** The priorities are needed: the BMS task has the priority of the sensing task
    and may hold the state with readings of the period before. It does not use them. *)
Example C92_equal_priority_sees_older :
  seen ([FTick] ++ sense 1000 ++ enter T_BMS ++ leave T_BMS ++ [FTick] ++ enter T_BMS) T_BMS
  = (Inside 2, Some 1, 1000).
Proof. vm_compute. reflexivity. Qed.
