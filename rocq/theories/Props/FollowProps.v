(** C104: while the car drives, every command follows the pedal of its own period.
    [veh_run c tick m0 a] is the vehicle controller after the run [a]; [b] is what
    happens next, and the throttle task is idle before it. *)
From Coq Require Import Reals Lra SpecFloat.
From Verif.Base Require Import F32Real.
From Verif.Model Require Import Vehicle.
From Verif.Spec Require Import InverterSpec EcuSpec TorqueSpec VehicleSpec CommandSpec FollowSpec.
From Verif.Proof Require Import F32Facts TorqueProof VsmProof EcuProof VehicleProof VehicleClaims CommandProof FollowProof.
From Verif.Props Require Import FaultProps VsmProps EcuProps VehicleProps CommandProps.
Open Scope Z_scope.

(** ** The command holds the torque of the pedal *)
(** Every command sent in [b], also one of no torque, holds the torque that the
    calibrated curve gives for a pedal position read in a cycle of the sensing task
    that began, like the activation of the throttle task itself, after a tick of
    [b]. *)
Theorem C104_every_command_follows_the_pedal :
  forall c tick m0 a b b1 t,
    vsm_init c tick = Some m0 -> calibrated c ->
    veh_not_starved c tick m0 (a ++ b) -> readings_u16 c tick m0 (a ++ b) ->
    Forall veh_waits (a ++ b) ->
    thr_idle (veh_run c tick m0 a) -> drives_through c tick m0 a b ->
    (forall n cy, published c tick m0 (a ++ b) n cy ->
       f_now (vh_f (veh_run c tick m0 a)) < n -> both_read cy) ->
    command_at c tick m0 a b b1 t ->
    exists at_ n cy y,
      f_stage (vh_f (veh_run c tick m0 (a ++ b1))) T_THROTTLE = Running at_ /\
      f_now (vh_f (veh_run c tick m0 a)) < at_ /\
      at_ <= n <= f_now (vh_f (veh_run c tick m0 (a ++ b1))) /\
      published c tick m0 (a ++ b1) n cy /\
      pedal_torque (pedal_of c cy) y /\ stands_for (frame_torque (tx_data t)) y.
Proof. exact command_follows. Qed.
Print Assumptions C104_every_command_follows_the_pedal.

(** ** In every period *)
Lemma period_command : forall c tick m0 a b,
  vsm_init c tick = Some m0 -> calibrated c -> readings_u16 c tick m0 (a ++ VTick :: b) ->
  Forall request_waits b -> veh_ticks b = 0 ->
  thr_idle (veh_run c tick m0 a) -> thr_idle (veh_run c tick m0 (a ++ VTick :: b)) ->
  switched_on (veh_run c tick m0 a) ->
  exists t, commands c tick m0 a (VTick :: b) = [t] /\ keeps_on t.
Proof.
  intros c tick m0 a b HI CA U RW NT I1 I2 ON.
  assert (NB : forall b1 b2, b <> b1 ++ VTick :: b2).
  { intros b1 b2 ->. rewrite veh_ticks_app in NT. cbn [veh_ticks] in NT.
    assert (Q : forall l, 0 <= veh_ticks l) by (clear; induction l as [|[] l IH]; cbn [veh_ticks]; lia).
    pose proof (Q b1). pose proof (Q b2). lia. }
  destruct (C103_one_command_each_period c tick m0 a (VTick :: b) HI CA U ON) as (L & G).
  - split; [exact I1|]. split; [exact I2|]. intros b1 b2 E. destruct b1 as [|e b1].
    + now rewrite app_nil_r.
    + cbn [app] in E. injection E as _ E. now apply NB in E.
  - constructor; [exact Logic.I|exact RW].
  - cbn [veh_ticks] in L. rewrite NT in L.
    destruct (commands c tick m0 a (VTick :: b)) as [|t [|]] eqn:C; cbn [length] in L; try lia.
    exists t. split; [reflexivity|now inversion G].
Qed.

(** [b] is one period: a tick and what follows until the throttle task waits for the
    next. If all cycles of this period measured the pedal position [x], the period
    has exactly one command, and it asks for the torque of [x]. *)
Theorem C104_pedal_answered_in_the_same_period :
  forall c tick m0 a b x,
    vsm_init c tick = Some m0 -> calibrated c ->
    veh_not_starved c tick m0 (a ++ VTick :: b) -> readings_u16 c tick m0 (a ++ VTick :: b) ->
    Forall veh_waits (a ++ VTick :: b) -> Forall request_waits b -> veh_ticks b = 0 ->
    thr_idle (veh_run c tick m0 a) -> thr_idle (veh_run c tick m0 (a ++ VTick :: b)) ->
    switched_on (veh_run c tick m0 a) -> drives_through c tick m0 a (VTick :: b) ->
    (forall n cy, published c tick m0 (a ++ VTick :: b) n cy ->
       f_now (vh_f (veh_run c tick m0 a)) < n -> both_read cy /\ pedal_of c cy = x) ->
    exists t y, commands c tick m0 a (VTick :: b) = [t] /\
      pedal_torque x y /\ stands_for (frame_torque (tx_data t)) y.
Proof.
  intros c tick m0 a b x HI CA NS U W RW NT I1 I2 ON DR PX.
  destruct (period_command c tick m0 a b HI CA U RW NT I1 I2 ON) as (t & C & _).
  destruct (commands_in c tick m0 a (VTick :: b) t) as (b1 & CA1); [rewrite C; now left|].
  destruct (command_follows c tick m0 a (VTick :: b) b1 t HI CA NS U W I1 DR) as (at_ & n & cy & y & _ & A & B & P & Y1 & Y2);
    [intros n cy P Q; apply (PX n cy P Q)|exact CA1|].
  exists t, y. split; [exact C|]. split; [|exact Y2].
  destruct CA1 as (ev & b2 & E & _).
  destruct (PX n cy) as (_ & <-); [rewrite E, app_assoc; now apply published_init|lia|exact Y1].
Qed.
Print Assumptions C104_pedal_answered_in_the_same_period.

(** ** The pedal is let go *)
(** If all cycles of the period found the pedal below a tenth of its way, the period
    has exactly one command, it keeps the inverter enabled and asks for no torque. *)
Lemma dead_zone_torque : forall x y, (FR x < FR (f_lit 1 10))%R -> pedal_torque x y -> (y <= 0)%R.
Proof.
  intros x y L [(_ & _ & P)|(_ & ->)]; [|lra].
  apply (polygon_mono TorqueMap_Default (FR x) (FR (f_lit 1 10)) y 0); [now left|lra|exact P|].
  exists 0%nat. split; [lia|].
  assert (A0 : point_accel TorqueMap_Default 0 = 0%R) by reflexivity.
  assert (A1 : point_accel TorqueMap_Default 1 = FR (f_lit 1 10)) by reflexivity.
  assert (T0 : point_torque TorqueMap_Default 0 = 0%R) by reflexivity.
  assert (T1 : point_torque TorqueMap_Default 1 = 0%R) by reflexivity.
  assert (B : (0 <= FR (f_lit 1 10))%R).
  { replace (f_lit 1 10) with (S754_finite false 13421773 (-27)) by (vm_compute; reflexivity).
    rewrite FR_finite, bpow_neg_val. change (2 ^ 27)%Z with 134217728%Z. lra. }
  rewrite A0, A1, T0, T1. split; [lra|]. unfold Rdiv. ring.
Qed.

Theorem C104_released_pedal_no_torque :
  forall c tick m0 a b,
    vsm_init c tick = Some m0 -> calibrated c ->
    veh_not_starved c tick m0 (a ++ VTick :: b) -> readings_u16 c tick m0 (a ++ VTick :: b) ->
    Forall veh_waits (a ++ VTick :: b) -> Forall request_waits b -> veh_ticks b = 0 ->
    thr_idle (veh_run c tick m0 a) -> thr_idle (veh_run c tick m0 (a ++ VTick :: b)) ->
    switched_on (veh_run c tick m0 a) -> drives_through c tick m0 a (VTick :: b) ->
    (forall n cy, published c tick m0 (a ++ VTick :: b) n cy ->
       f_now (vh_f (veh_run c tick m0 a)) < n -> both_read cy /\ (FR (pedal_of c cy) < FR (f_lit 1 10))%R) ->
    exists t, commands c tick m0 a (VTick :: b) = [t] /\ keeps_on t /\ frame_torque (tx_data t) = 0.
Proof.
  intros c tick m0 a b HI CA NS U W RW NT I1 I2 ON DR PX.
  destruct (period_command c tick m0 a b HI CA U RW NT I1 I2 ON) as (t & C & G).
  exists t. split; [exact C|]. split; [exact G|]. destruct G as (_ & _ & _ & _ & G).
  destruct (commands_in c tick m0 a (VTick :: b) t) as (b1 & CA1); [rewrite C; now left|].
  destruct (command_follows c tick m0 a (VTick :: b) b1 t HI CA NS U W I1 DR) as (at_ & n & cy & y & _ & A & B & P & Y1 & Y2);
    [intros n cy P Q; apply (PX n cy P Q)|exact CA1|].
  destruct CA1 as (ev & b2 & E & _).
  destruct (PX n cy) as (_ & Q); [rewrite E, app_assoc; now apply published_init|lia|].
  pose proof (dead_zone_torque _ _ Q Y1) as Y. destruct Y2 as (_ & Y2).
  assert (L : (IZR (frame_torque (tx_data t)) < 1)%R) by lra. apply lt_IZR in L. lia.
Qed.
Print Assumptions C104_released_pedal_no_torque.

(** ** Example *)
Definition drives_onb (s : vehicle) : bool :=
  vsm_st_eqb (vm_state (e_vsm (vh_e s))) StActiveForward &&
  match e_pend (vh_e s) with Some (_, m') => vsm_st_eqb (vm_state m') StActiveForward | None => true end.
Fixpoint throughb (s : vehicle) (b : list veh_event) : bool :=
  drives_onb s && match b with [] => true | ev :: t => throughb (veh_step quick 10 (ds_from_config quick) s ev) t end.
Lemma drives_onb_ok : forall s, drives_onb s = true -> drives_on s.
Proof.
  intros s H. apply andb_prop in H. destruct H as (A & B). split; [now apply eqb_st|].
  intros cmds m' E. rewrite E in B. now apply eqb_st.
Qed.
Lemma throughb_ok : forall b s, throughb s b = true -> forall b1 b2, b = b1 ++ b2 ->
  drives_on (fold_left (veh_step quick 10 (ds_from_config quick)) b1 s).
Proof.
  induction b as [|ev b IH]; intros s H b1 b2 E; cbn [throughb] in H; apply andb_prop in H; destruct H as (A & B).
  - destruct b1; [|discriminate]. now apply drives_onb_ok.
  - destruct b1 as [|e b1]; [now apply drives_onb_ok|]. cbn [app] in E. injection E as <- E. exact (IH _ B b1 b2 E).
Qed.

Definition waitsb (ev : veh_event) : bool := match ev with VWork (EvCmd tl _ _ _) => tl | _ => true end.
Definition reqb (ev : veh_event) : bool := match ev with VWork (EvRequest l _) => l | _ => true end.
Lemma allb_ok : forall (f : veh_event -> bool) (P : veh_event -> Prop) l, (forall ev, f ev = true -> P ev) ->
  forallb f l = true -> Forall P l.
Proof. intros f P l H F. apply Forall_forall. intros ev IN. apply H. rewrite forallb_forall in F. now apply F. Qed.

(** The pedal goes from 1000 to 2000 counts of 4095: the command of that very period
    asks for 97.1 Nm, the one before for the torque of 1000 counts. *)
Definition before : list veh_event := set_out ++ period (cycle 1000 1000 false) (inv_at 5).
Definition pressed : list veh_event := tl (period (cycle 2000 2000 false) (inv_at 5)).
Definition pressb (n : Z) (cy : ds_cycle) : bool :=
  u16b n cy && ((n <=? 9) || ((fst (cy_A cy) =? 0) && (fst (cy_B cy) =? 0) &&
                              (snd (cy_A cy) =? 2000) && (snd (cy_B cy) =? 2000))).
Example C104_press_example :
  veh_not_starved quick 10 quick_vsm (before ++ VTick :: pressed) /\
  readings_u16 quick 10 quick_vsm (before ++ VTick :: pressed) /\
  Forall veh_waits (before ++ VTick :: pressed) /\ Forall request_waits pressed /\ veh_ticks pressed = 0 /\
  thr_idle (veh before) /\ thr_idle (veh (before ++ VTick :: pressed)) /\ switched_on (veh before) /\
  drives_through quick 10 quick_vsm before (VTick :: pressed) /\
  (forall n cy, published quick 10 quick_vsm (before ++ VTick :: pressed) n cy ->
     f_now (vh_f (veh before)) < n -> both_read cy /\ pedal_of quick cy = pedal_of quick (cycle 2000 2000 false)) /\
  map (fun t => frame_torque (tx_data t)) (commands quick 10 quick_vsm set_out (skipn (length set_out) before ++ VTick :: pressed))
    = [360; 971].
Proof.
  destruct (checkb_ok quick 10 quick_vsm true pressb (before ++ VTick :: pressed)) as (NS & U & K); [vm_compute; reflexivity|].
  assert (FN : f_now (vh_f (veh before)) = 9) by (vm_compute; reflexivity).
  split; [exact NS|].
  split; [intros n cy P; exact (u16b_ok n cy (proj1 (andb_prop _ _ (U n cy P))))|].
  split; [apply (allb_ok waitsb); [now intros [| | | | | | |[]]|vm_compute; reflexivity]|].
  split; [apply (allb_ok reqb); [now intros [| | | | | | |[]]|vm_compute; reflexivity]|].
  split; [reflexivity|].
  split; [apply thr_idleb_ok; vm_compute; reflexivity|].
  split; [apply thr_idleb_ok; vm_compute; reflexivity|].
  split.
  { assert (X : existsb (fun t => frame_enable (tx_data t)) (e_sent (vh_e (veh before))) = true) by (vm_compute; reflexivity).
    apply existsb_exists in X. exact X. }
  split.
  { intros b1 b2 E. rewrite veh_run_app. apply (throughb_ok (VTick :: pressed) (veh before)) with (b2 := b2); [vm_compute; reflexivity|exact E]. }
  split; [|vm_compute; reflexivity].
  rewrite FN. intros n cy P N. specialize (U n cy P). apply andb_prop in U. destruct U as (_ & U).
  apply Bool.orb_prop in U. destruct U as [U|U]; [lia|].
  apply andb_prop in U. destruct U as (U & B2). apply andb_prop in U. destruct U as (U & B1).
  apply andb_prop in U. destruct U as (A1 & A2).
  split; [split; unfold ADC_STATUS_OK; lia|]. unfold pedal_of. cbn [cycle cy_A cy_B snd].
  replace (snd (cy_A cy)) with 2000 by lia. replace (snd (cy_B cy)) with 2000 by lia. reflexivity.
Qed.

(** Let go after that: the command of this very period asks for nothing. *)
Definition at_speed : list veh_event := set_out ++ period (cycle 2000 2000 false) (inv_at 5).
Definition released : list veh_event := tl (period (cycle 0 0 false) (inv_at 5)).
Definition releaseb (n : Z) (cy : ds_cycle) : bool :=
  u16b n cy && ((n <=? 9) || ((fst (cy_A cy) =? 0) && (fst (cy_B cy) =? 0) &&
                              (snd (cy_A cy) =? 0) && (snd (cy_B cy) =? 0))).
Example C104_release_example :
  veh_not_starved quick 10 quick_vsm (at_speed ++ VTick :: released) /\
  readings_u16 quick 10 quick_vsm (at_speed ++ VTick :: released) /\
  Forall veh_waits (at_speed ++ VTick :: released) /\ Forall request_waits released /\ veh_ticks released = 0 /\
  thr_idle (veh at_speed) /\ thr_idle (veh (at_speed ++ VTick :: released)) /\ switched_on (veh at_speed) /\
  drives_through quick 10 quick_vsm at_speed (VTick :: released) /\
  (forall n cy, published quick 10 quick_vsm (at_speed ++ VTick :: released) n cy ->
     f_now (vh_f (veh at_speed)) < n -> both_read cy /\ (FR (pedal_of quick cy) < FR (f_lit 1 10))%R) /\
  map (fun t => frame_torque (tx_data t)) (commands quick 10 quick_vsm set_out (skipn (length set_out) at_speed ++ VTick :: released))
    = [971; 0].
Proof.
  destruct (checkb_ok quick 10 quick_vsm true releaseb (at_speed ++ VTick :: released)) as (NS & U & K); [vm_compute; reflexivity|].
  assert (FN : f_now (vh_f (veh at_speed)) = 9) by (vm_compute; reflexivity).
  split; [exact NS|].
  split; [intros n cy P; exact (u16b_ok n cy (proj1 (andb_prop _ _ (U n cy P))))|].
  split; [apply (allb_ok waitsb); [now intros [| | | | | | |[]]|vm_compute; reflexivity]|].
  split; [apply (allb_ok reqb); [now intros [| | | | | | |[]]|vm_compute; reflexivity]|].
  split; [reflexivity|].
  split; [apply thr_idleb_ok; vm_compute; reflexivity|].
  split; [apply thr_idleb_ok; vm_compute; reflexivity|].
  split.
  { assert (X : existsb (fun t => frame_enable (tx_data t)) (e_sent (vh_e (veh at_speed))) = true) by (vm_compute; reflexivity).
    apply existsb_exists in X. exact X. }
  split.
  { intros b1 b2 E. rewrite veh_run_app. apply (throughb_ok (VTick :: released) (veh at_speed)) with (b2 := b2); [vm_compute; reflexivity|exact E]. }
  split; [|vm_compute; reflexivity].
  rewrite FN. intros n cy P N. specialize (U n cy P). apply andb_prop in U. destruct U as (_ & U).
  apply Bool.orb_prop in U. destruct U as [U|U]; [lia|].
  apply andb_prop in U. destruct U as (U & B2). apply andb_prop in U. destruct U as (U & B1).
  apply andb_prop in U. destruct U as (A1 & A2).
  split; [split; unfold ADC_STATUS_OK; lia|]. unfold pedal_of.
  replace (snd (cy_A cy)) with 0 by lia. replace (snd (cy_B cy)) with 0 by lia.
  match goal with |- (FR ?x < _)%R => let v := eval vm_compute in x in replace x with v by (vm_compute; reflexivity) end.
  replace (f_lit 1 10) with (S754_finite false 13421773 (-27)) by (vm_compute; reflexivity).
  rewrite FR_finite, bpow_neg_val. change (2 ^ 27)%Z with 134217728%Z. change (FR (S754_zero false)) with 0%R. lra.
Qed.
