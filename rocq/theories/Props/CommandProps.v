(** C103: one torque command for the inverter in each period of the timer.
    [veh_run c tick m0 a] is the vehicle controller after the run [a]; [b] is what
    happens next; [commands c tick m0 a b] are the frames of the throttle task's
    requests in [b]. *)
From Verif.Model Require Import Vehicle.
From Verif.Spec Require Import InverterSpec EcuSpec VehicleSpec CommandSpec EcuBusSpec.
From Verif.Proof Require Import EcuProof VehicleProof VehicleClaims CommandProof EcuBusProof.
From Verif.Props Require Import FaultProps VsmProps EcuProps VehicleProps.
Open Scope Z_scope.

(** ** Exactly one in each period *)
(** Once the inverter was enabled, and while the throttle task finishes before the
    next tick, there is one command for every tick, whatever else happens: pedal,
    faults, state changes. Each keeps the inverter enabled and is within its
    limits. With [b] from one tick to the next: exactly one. *)
Theorem C103_one_command_each_period :
  forall c tick m0 a b,
    vsm_init c tick = Some m0 -> calibrated c -> readings_u16 c tick m0 (a ++ b) ->
    switched_on (veh_run c tick m0 a) ->
    thr_on_time c tick m0 a b -> Forall request_waits b ->
    Z.of_nat (length (commands c tick m0 a b)) = veh_ticks b /\
    Forall keeps_on (commands c tick m0 a b).
Proof.
  intros c tick m0 a b HI CA U ON (I1 & I2 & K) W.
  destruct (exactly c tick m0 a b HI CA U ON W K) as (E & G & _).
  rewrite (idle_debt _ I1), (idle_debt _ I2) in E. split; [lia|exact G].
Qed.
Print Assumptions C103_one_command_each_period.

(** What the CAN driver is given in that time: as many frames that keep the inverter
    enabled as there were ticks, or more. *)
Theorem C103_inverter_not_left_alone :
  forall c tick m0 a b,
    vsm_init c tick = Some m0 -> calibrated c -> readings_u16 c tick m0 (a ++ b) ->
    switched_on (veh_run c tick m0 a) ->
    thr_on_time c tick m0 a b -> Forall request_waits b ->
    exists l, e_sent (vh_e (veh_run c tick m0 (a ++ b))) = e_sent (vh_e (veh_run c tick m0 a)) ++ l /\
      veh_ticks b <= Z.of_nat (length (filter (fun t => frame_enable (tx_data t)) l)).
Proof.
  intros c tick m0 a b HI CA U ON T W.
  destruct (C103_one_command_each_period c tick m0 a b HI CA U ON T W) as (E & G).
  destruct (sent_split c tick m0 a b) as (l & S & _ & L). exists l. split; [exact S|].
  specialize (L G). lia.
Qed.
Print Assumptions C103_inverter_not_left_alone.

(** ** On the bus *)
(** If the driver takes every frame, this is a run of the controller on a bus that
    keeps up (EcuBus.v: driver, mailboxes, bus), and in [b] the bus carries as many
    frames that keep the inverter enabled as there were ticks, or more. *)
Theorem C103_reaches_the_bus :
  forall c tick m0 a b,
    vsm_init c tick = Some m0 -> calibrated c -> readings_u16 c tick m0 (a ++ b) ->
    switched_on (veh_run c tick m0 a) ->
    thr_on_time c tick m0 a b -> Forall request_waits b -> Forall all_accepted (a ++ b) ->
    exists es1 es2 l,
      bd_ecu (board_run c tick m0 (keeps_up es1)) = vh_e (veh_run c tick m0 a) /\
      bd_ecu (board_run c tick m0 (keeps_up (es1 ++ es2))) = vh_e (veh_run c tick m0 (a ++ b)) /\
      bus_of (board_run c tick m0 (keeps_up (es1 ++ es2))) = bus_of (board_run c tick m0 (keeps_up es1)) ++ l /\
      veh_ticks b <= Z.of_nat (length (filter (fun f => frame_enable (snd f)) l)).
Proof.
  intros c tick m0 a b HI CA U ON T W AC. apply Forall_app in AC. destruct AC as (A1 & A2).
  destruct (C103_inverter_not_left_alone c tick m0 a b HI CA U ON T W) as (l & S & L).
  destruct (e_proj_taken c tick m0 [] a A1) as (es1 & E1 & M1).
  destruct (e_proj_taken c tick m0 a b A2) as (es2 & E2 & M2).
  change (vh_e (veh_run c tick m0 [])) with (ecu_init m0) in E1. cbn [app] in E1.
  destruct (keeps_up_run c tick m0 es1) as (B1 & _ & _ & W1).
  destruct (keeps_up_run c tick m0 (es1 ++ es2)) as (B2 & _ & _ & W2).
  rewrite M1 in B1, W1. rewrite map_app, M1, M2 in B2, W2.
  assert (Q1 : ecu_run c tick m0 es1 = vh_e (veh_run c tick m0 a)) by (rewrite E1; reflexivity).
  assert (Q2 : ecu_run c tick m0 (es1 ++ es2) = vh_e (veh_run c tick m0 (a ++ b))).
  { rewrite E2, <- Q1. unfold ecu_run. now rewrite fold_left_app. }
  exists es1, es2, (map on_wire l). rewrite B1, B2, W1, W2, Q1, Q2, S, map_app.
  split; [reflexivity|]. split; [reflexivity|]. split; [reflexivity|].
  replace (length (filter (fun f => frame_enable (snd f)) (map on_wire l)))
    with (length (filter (fun t => frame_enable (tx_data t)) l)); [exact L|].
  clear. induction l as [|t l IH]; cbn; auto. destruct (frame_enable (tx_data t)); cbn; now rewrite IH.
Qed.
Print Assumptions C103_reaches_the_bus.

(** ** Never more *)
(** In any run at all, kept up with or not, there are no more commands, and no more
    frames that ask for torque, than ticks. *)
Theorem C103_never_more_than_ticks :
  forall c tick m0 tr,
    Z.of_nat (length (commands c tick m0 [] tr)) <= veh_ticks tr /\
    Z.of_nat (length (filter asks_torque (e_sent (vh_e (veh_run c tick m0 tr))))) <= veh_ticks tr.
Proof.
  intros c tick m0 tr.
  pose proof (at_most c tick m0 tr) as A. pose proof (debt_nonneg (veh_run c tick m0 tr)) as D.
  destruct (sent_split c tick m0 [] tr) as (l & S & L & _). cbn [app] in S.
  change (e_sent (vh_e (veh_run c tick m0 []))) with (@nil tx) in S. cbn [app] in S. rewrite S. split; lia.
Qed.
Print Assumptions C103_never_more_than_ticks.

(** ** Examples *)
(** Three periods of driving: three commands of 97.1 Nm. *)
Definition drive_on (n : nat) : list veh_event :=
  concat (repeat (period (cycle 2000 2000 false) (inv_at 5)) n).
Definition thr_idleb (s : vehicle) : bool :=
  is_waiting (f_stage (vh_f s) T_THROTTLE) && (f_note (vh_f s) T_THROTTLE =? 0).
Lemma thr_idleb_ok : forall s, thr_idleb s = true -> thr_idle s.
Proof.
  intros s H. apply andb_prop in H. destruct H as (A & B). apply is_waiting_iff in A.
  split; [exact A|now apply Z.eqb_eq].
Qed.

Example C103_drive_example :
  vsm_init quick 10 = Some quick_vsm /\ calibrated quick /\
  readings_u16 quick 10 quick_vsm (set_out ++ drive_on 3) /\
  switched_on (veh set_out) /\ thr_on_time quick 10 quick_vsm set_out (drive_on 3) /\
  Forall request_waits (drive_on 3) /\ veh_ticks (drive_on 3) = 3 /\
  map (fun t => frame_torque (tx_data t)) (commands quick 10 quick_vsm set_out (drive_on 3)) = [971; 971; 971].
Proof.
  destruct (checkb_ok quick 10 quick_vsm true u16b (set_out ++ drive_on 3)) as (NS & U & K); [vm_compute; reflexivity|].
  split; [exact quick_vsm_ok|]. split; [exact quick_calibrated|].
  split; [intros n cy P; exact (u16b_ok n cy (U n cy P))|].
  split.
  { assert (X : existsb (fun t => frame_enable (tx_data t)) (e_sent (vh_e (veh set_out))) = true) by (vm_compute; reflexivity).
    apply existsb_exists in X. exact X. }
  split.
  { split; [apply thr_idleb_ok; vm_compute; reflexivity|].
    split; [apply thr_idleb_ok; vm_compute; reflexivity|].
    intros b1 b2 E. apply (K eq_refl set_out (drive_on 3) eq_refl b1 b2 E). now left. }
  split.
  { apply Forall_forall. intros ev IN. apply in_concat in IN. destruct IN as (l & IL & IN).
    apply repeat_spec in IL. subst l. revert ev IN. apply Forall_forall.
    repeat (constructor; [cbn; auto|]). constructor. }
  split; vm_compute; reflexivity.
Qed.

(** In this run the driver takes every frame, so C103_reaches_the_bus applies to it. *)
Definition all_acceptedb (ev : veh_event) : bool :=
  match ev with
  | VWork (EvRequest _ ok) => ok
  | VWork (EvCmd _ _ ok1 ok2) => ok1 && ok2
  | _ => true
  end.
Example C103_bus_example : Forall all_accepted (set_out ++ drive_on 3).
Proof.
  assert (X : forallb all_acceptedb (set_out ++ drive_on 3) = true) by (vm_compute; reflexivity).
  rewrite forallb_forall in X. apply Forall_forall. intros ev IN. specialize (X ev IN).
  destruct ev as [| | | | | | |e]; try exact Logic.I; destruct e; try exact Logic.I; cbn in *; try exact X; now apply andb_prop in X.
Qed.

(** Before the inverter was enabled there is none, and two ticks before the throttle
    task runs give one: both conditions are needed. *)
Example C103_conditions_needed :
  e_sent (vh_e (veh (period (cycle 0 0 false) (inv_at 0)))) = [] /\
  veh_ticks (VTick :: drive_on 1) = 2 /\
  length (commands quick 10 quick_vsm set_out (VTick :: drive_on 1)) = 1%nat.
Proof. vm_compute. auto. Qed.
