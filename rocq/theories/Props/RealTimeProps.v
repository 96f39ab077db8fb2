(** C91: how long a fault condition can last before the drive stops. [rt_run c
    tick m0 tr] is the ECU after the run [tr] of timer ticks and task work; one
    tick of the timer is 10 ms. *)
From Verif.Model Require Import RealTime.
From Verif.Spec Require Import FaultSpec VsmSpec InverterSpec EcuSpec RealTimeSpec.
From Verif.Proof Require Import FaultProof VsmProof EcuProof RealTimeProof.
From Verif.Props Require Import FaultProps VsmProps EcuProps.
Open Scope Z_scope.

(** Concrete runs. [normal i x]: a tick, then both tasks run once to the end, the
    throttle task first. *)
Definition normal (i : vsm_in) (x : f32) : list rt_event :=
  RtTick :: map RtEcu (pedal x ++ step i 3).
Definition rt_drive : list rt_event :=
  concat (map (fun i => normal i f_zero) to_forward_h).
Notation rt_now tr := (rt_run default_config 10 shipped_vsm tr).
Definition rt_torques (x : timed) (ev : rt_event) : list Z :=
  map (fun t => frame_torque (tx_data t))
      (skipn (length (e_sent (rt_ecu x))) (e_sent (rt_ecu (rt_step default_config 10 x ev)))).

Definition bad_run (n : nat) : list rt_event := concat (repeat (normal bad_in f_one) n).
Definition driven : timed := Eval vm_compute in rt_now rt_drive.
Example driven_ok : rt_now rt_drive = driven.
Proof. vm_compute. reflexivity. Qed.

Lemma driven_after : forall b,
  rt_now (rt_drive ++ b) = fold_left (rt_step default_config 10) b driven.
Proof.
  intros b. apply run_from. exact driven_ok.
Qed.

(** ** One control step per tick *)
Theorem C91_one_step_per_tick :
  forall c tick m0 tr,
    keeps_up c tick (rt_init m0) tr -> Forall rt_waits tr -> idle (rt_run c tick m0 tr) ->
    exists h, Z.of_nat (length h) = ticks_in tr /\
      e_vsm (rt_ecu (rt_run c tick m0 tr)) = vsm_run c tick m0 h /\
      Forall (fun i => In (RtEcu (EvVsm i)) tr) h.
Proof. exact one_step_per_tick. Qed.
Print Assumptions C91_one_step_per_tick.

Example C91_one_step_per_tick_example :
  keeps_up default_config 10 (rt_init shipped_vsm) rt_drive /\ Forall rt_waits rt_drive /\
  idle (rt_now rt_drive) /\ ticks_in rt_drive = 78 /\
  vm_state (e_vsm (rt_ecu (rt_now rt_drive))) = StActiveForward.
Proof.
  split; [apply keeps_upb_ok; vm_compute; reflexivity|].
  split; [apply waitsb_ok; vm_compute; reflexivity|].
  rewrite driven_ok. repeat split; vm_compute; reflexivity.
Qed.

(** ** The reaction time *)
(** As long as both tasks finish their work before the next tick, a fault
    condition present in every snapshot stops the drive after its tolerance plus
    three ticks: from then on no frame asks for torque, and, unless the PC sets the
    output itself, the error output stays on. What is missing from the property:
    the tasks are assumed to keep up with the timer (see the refutation). *)
Theorem C91_reaction_time_partial :
  forall c tick m0 a b k,
    cfg_ok c tick -> (forall k', tolerance c tick k' < 65535) ->
    vsm_init c tick = Some m0 ->
    vm_state (e_vsm (rt_ecu (rt_run c tick m0 a))) <> StInit ->
    keeps_up c tick (rt_run c tick m0 a) b ->
    Forall rt_waits b -> Forall (sees (shows c k)) b ->
    tolerance c tick k + 3 <= ticks_in b ->
    (forall later ev t,
       rt_sends c tick (rt_run c tick m0 (a ++ b ++ later)) ev t -> asks_torque t = false) /\
    (forall later, Forall no_pc (b ++ later) ->
       e_pin (rt_ecu (rt_run c tick m0 (a ++ b ++ later))) = true).
Proof.
  intros c tick m0 a b k Hc HT Hi NI K W S HL.
  assert (P0 : forall k', 0 <= tolerance c tick k').
  { intros k'. destruct Hc as (H1 & H2 & H3). unfold tolerance.
    destruct k'; try lia; apply Z.div_pos; lia. }
  assert (TS : tol_small c tick) by (intros k'; split; auto).
  assert (T0 := P0 k).
  split.
  - intros later ev t SN. apply (stopped_silent False c tick _ ev t) in SN; auto.
    rewrite app_assoc, rt_run_app. apply stopped_run; [intros []|].
    apply (reaction False c tick m0 a b k); auto; intros [] .
  - intros later NP. apply Forall_app in NP. destruct NP as (N1 & N2).
    apply (st_pin True); auto. rewrite app_assoc, rt_run_app. apply stopped_run; auto.
    apply (reaction True c tick m0 a b k); auto.
Qed.
Print Assumptions C91_reaction_time_partial.

(** The shipped configuration: the pedal sensors disagree from the moment the car
    drives with the pedal down. Torque stops within 13 ticks, and not within 12. *)
Example C91_reaction_time_example :
  tolerance default_config 10 AccelDisagree = 10 /\
  vm_state (e_vsm (rt_ecu (rt_now rt_drive))) <> StInit /\
  keeps_up default_config 10 (rt_now rt_drive) (bad_run 13) /\
  Forall rt_waits (bad_run 13) /\
  Forall (sees (shows default_config AccelDisagree)) (bad_run 13) /\
  Forall no_pc (bad_run 13) /\ ticks_in (bad_run 13) = 13.
Proof.
  rewrite driven_ok.
  split; [reflexivity|]. split; [vm_compute; discriminate|].
  split; [apply keeps_upb_ok; vm_compute; reflexivity|].
  split; [apply waitsb_ok; vm_compute; reflexivity|].
  split; [apply showsb_ok; vm_compute; reflexivity|].
  split; [apply no_pcb_ok|]; vm_compute; reflexivity.
Qed.

(** The bound is exact: after 12 ticks the throttle task still asks for torque. *)
Example C91_bound_is_exact :
  let x := rt_now (rt_drive ++ bad_run 11 ++ RtTick :: map RtEcu (firstn 4 (pedal f_one))) in
  ticks_in (bad_run 11 ++ RtTick :: map RtEcu (firstn 4 (pedal f_one))) = 12 /\
  rt_torques x (RtEcu (EvRequest true true)) = [5000].
Proof.
  cbv zeta. rewrite driven_after.
  split; vm_compute; reflexivity.
Qed.

(** ** Ticks that find the tasks busy are lost *)
Theorem C91_ticks_collapse :
  forall c tick q x live i, idle x -> 1 <= Z.of_nat q < 4294967296 ->
    let start := [RtEcu (EvPedal live); RtEcu (EvVsm i)] in
    fold_left (rt_step c tick) (repeat RtTick q ++ start) x =
    fold_left (rt_step c tick) (RtTick :: start) x.
Proof. exact collapse. Qed.
Print Assumptions C91_ticks_collapse.

(** So without that assumption there is no bound: for every number [q] of ticks
    the tasks may take per activation, the shipped configuration still asks for
    torque [12 * q] ticks after the sensors began to disagree, although every
    snapshot shows it and both tasks complete every activation. *)
Definition rest_of : list rt_event :=
  map RtEcu ([EvReadEnabled; EvReadDir; EvReadDir2; EvRequest true true] ++ repeat run_cmd 4).
Definition slow_run (q : nat) : list rt_event :=
  concat (repeat (slow q (foot f_one) bad_in rest_of) 11) ++
  slow q (foot f_one) bad_in (map RtEcu [EvReadEnabled; EvReadDir; EvReadDir2]).

Theorem C91_no_bound_under_load_refuted :
  forall q : nat, 1 <= Z.of_nat q < 4294967296 ->
    exists tr ev t, ticks_in tr = 12 * Z.of_nat q /\
      Forall (sees (shows default_config AccelDisagree)) tr /\ Forall rt_waits tr /\
      vm_state (e_vsm (rt_ecu (rt_now rt_drive))) = StActiveForward /\
      rt_sends default_config 10 (rt_now (rt_drive ++ tr)) ev t /\ asks_torque t = true.
Proof.
  intros q Q.
  assert (EQ : rt_now (rt_drive ++ slow_run q) = rt_now (rt_drive ++ slow_run 1)).
  { rewrite !driven_after. unfold slow_run. rewrite !fold_left_app.
    rewrite slow_many; auto; [|apply keeps_upb_ok; vm_compute; reflexivity].
    apply slow_one; auto. apply idleb_ok. vm_compute. reflexivity. }
  exists (slow_run q), (RtEcu (EvRequest true true)).
  assert (T : rt_torques (rt_now (rt_drive ++ slow_run 1)) (RtEcu (EvRequest true true)) = [5000]).
  { rewrite driven_after. vm_compute. reflexivity. }
  assert (A : forall x, rt_torques x (RtEcu (EvRequest true true)) = [5000] ->
            exists t, rt_sends default_config 10 x (RtEcu (EvRequest true true)) t /\
                      asks_torque t = true).
  { intros x H. unfold rt_torques in H. cbn [rt_step rt_ecu] in H.
    destruct (frames_added default_config 10 (rt_ecu x) (EvRequest true true)) as (l & E & _).
    rewrite E, skipn_app, skipn_all, Nat.sub_diag in H. cbn [app] in H. rewrite skipn_O in H.
    apply map_one in H. destruct H as (t & -> & H). exists t. split.
    - exists [t]. split; [exact E|now left].
    - unfold asks_torque. now rewrite H. }
  destruct (A _ T) as (t & SN & AT). exists t.
  assert (EVS : forall ev, In ev (slow_run q) ->
            ev = RtTick \/ In ev (slow_run 1)).
  { unfold slow_run, slow. intros ev IN.
    assert (ONE : forall r, In ev (repeat RtTick q ++ r) -> ev = RtTick \/ In ev r).
    { intros r I1. apply in_app_or in I1. destruct I1 as [I1|I1]; auto.
      apply repeat_spec in I1. auto. }
    apply in_app_or in IN. destruct IN as [IN|IN].
    - apply in_concat in IN. destruct IN as (l & IL & IN). apply repeat_spec in IL. subst l.
      destruct (ONE _ IN) as [|I2]; auto. right. apply in_or_app. left. apply in_concat.
      eexists. split; [left; reflexivity|]. apply in_or_app. right. exact I2.
    - destruct (ONE _ IN) as [|I2]; auto. right. apply in_or_app. right. apply in_or_app. now right. }
  assert (ALL : forall (R : rt_event -> Prop), R RtTick -> Forall R (slow_run 1) ->
            Forall R (slow_run q)).
  { intros R R1 R2. apply Forall_forall. intros ev IN. destruct (EVS ev IN) as [->|I]; auto.
    rewrite Forall_forall in R2. auto. }
  split.
  { unfold slow_run. rewrite ticks_app, ticks_concat, !ticks_slow by reflexivity. lia. }
  split.
  { apply ALL; [exact Logic.I|]. apply showsb_ok. vm_compute. reflexivity. }
  split; [apply ALL; [exact Logic.I|]; apply waitsb_ok; vm_compute; reflexivity|].
  split; [rewrite driven_ok; reflexivity|].
  rewrite EQ. auto.
Qed.
Print Assumptions C91_no_bound_under_load_refuted.
