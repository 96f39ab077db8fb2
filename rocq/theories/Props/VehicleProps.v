(** C94: from the pedal sensors to the torque requests. [veh_run c tick m0 tr] is
    the vehicle controller after the run [tr] of timer ticks, task actions that the
    kernel's priorities allow, and the work of the two control tasks. *)
From Verif.Model Require Import Vehicle.
From Verif.Spec Require Import FaultSpec VsmSpec FreshSpec SenseSpec InverterSpec EcuSpec TorqueSpec VehicleSpec.
From Verif.Proof Require Import FaultProof EcuProof RealTimeProof VehicleProof VehicleClaims.
From Verif.Props Require Import FaultProps VsmProps EcuProps.
Open Scope Z_scope.

(** ** The torque is that of the pedal now *)
(** A frame that asks for torque leaves in an activation of the throttle task that
    began after some tick [at_]; a cycle of the sensing task that began at tick
    [at_] or later read both sensors and was published; and the frame holds the
    torque of the pedal position it measured, a positive one. *)
Theorem C94_torque_is_of_the_pedal_now :
  forall c tick m0 tr ev t,
    vsm_init c tick = Some m0 -> calibrated c ->
    veh_not_starved c tick m0 tr -> readings_u16 c tick m0 tr -> stays_readable c tick m0 tr ->
    veh_sends c tick (veh_run c tick m0 tr) ev t -> asks_torque t = true ->
    exists at_ n cy y,
      f_stage (vh_f (veh_run c tick m0 tr)) T_THROTTLE = Running at_ /\
      at_ <= n <= f_now (vh_f (veh_run c tick m0 tr)) /\
      published c tick m0 tr n cy /\ both_read cy /\
      0 < frame_torque (tx_data t) /\
      pedal_torque (pedal_of c cy) y /\ stands_for (frame_torque (tx_data t)) y.
Proof.
  intros c tick m0 tr ev t HI CA NS U SR SN A.
  destruct (torque_now c tick m0 tr ev t HI CA NS U SN A)
    as (at_ & n & cy & v & R & L & P & SH & RB & NN & y & Y1 & Y2).
  assert (B : both_read cy).
  { destruct (RB SR) as [Z|B]; auto. exfalso. apply (zero_pedal _ _ Z) in Y1. subst y.
    rewrite (quiet_frame t NN Y2) in A. discriminate. }
  exists at_, n, cy, y. split; [exact R|]. split; [exact L|]. split; [exact P|]. split; [exact B|].
  rewrite <- (shown_pedal c cy v SH B). split; [|auto].
  unfold asks_torque in A. destruct (Z.eqb_spec (frame_torque (tx_data t)) 0); [discriminate|lia].
Qed.
Print Assumptions C94_torque_is_of_the_pedal_now.

(** The converter's driver gives [stays_readable]: a channel that was read once
    can be read after any further conversions and interrupts. *)
Theorem C94_converter_stays_readable :
  forall a0 tr tr' a a' ch r r',
    adc_run a0 tr = Some a -> adc_run a0 (tr ++ tr') = Some a' ->
    ADC_Get a ch = Some r -> fst r = ADC_STATUS_OK -> ADC_Get a' ch = Some r' ->
    fst r' = ADC_STATUS_OK.
Proof.
  intros a0 tr tr' a a' ch r r' H1 H2 G OK G'.
  assert (H : adc_run a tr' = Some a') by (rewrite (adc_run_app _ _ _ _ H1) in H2; exact H2).
  apply (adc_get_ready a ch r G) in OK. destruct OK as (R & L).
  apply (adc_get_ready a' ch r' G'). split; [now apply (adc_ready_run tr' a a')|].
  now rewrite (adc_n_run tr' a a' H).
Qed.
Print Assumptions C94_converter_stays_readable.

(** ** A released pedal asks for nothing *)
(** If every cycle since the present activation of the throttle task began read
    both sensors and found the pedal below a tenth of its travel, no frame asks for
    torque, whatever was measured before. *)
Theorem C94_released_pedal_no_torque :
  forall c tick m0 tr ev t at_,
    vsm_init c tick = Some m0 -> calibrated c ->
    veh_not_starved c tick m0 tr -> readings_u16 c tick m0 tr ->
    (forall n cy, published c tick m0 tr n cy -> at_ <= n -> released c cy) ->
    f_stage (vh_f (veh_run c tick m0 tr)) T_THROTTLE = Running at_ ->
    veh_sends c tick (veh_run c tick m0 tr) ev t -> asks_torque t = false.
Proof. exact released_quiet. Qed.
Print Assumptions C94_released_pedal_no_torque.

(** With the shipped calibration: readings up to 409 of 4095 on both channels. *)
Theorem C94_released_in_counts :
  forall cy, both_read cy -> 0 <= snd (cy_A cy) <= 409 -> 0 <= snd (cy_B cy) <= 409 ->
    released default_config cy.
Proof. intros cy. now apply raw_released. Qed.
Print Assumptions C94_released_in_counts.

(** ** Sensors that fail stop the drive *)
(** After [a], when the start-up check is over: if from the next cycle on every
    published cycle shows the fault condition [k], then once the timer has ticked
    its tolerance and three times more, no frame asks for torque any more, and,
    unless the PC sets the output itself, the error output is on. Both control
    tasks must finish before the next tick (without that there is no bound, C91). *)
Theorem C94_sensor_fault_stops_the_drive :
  forall c tick m0 a b k,
    cfg_ok c tick -> (forall k', tolerance c tick k' < 65535) ->
    vsm_init c tick = Some m0 ->
    vm_state (e_vsm (vh_e (veh_run c tick m0 a))) <> StInit ->
    veh_not_starved c tick m0 (a ++ b) -> veh_keeps_up c tick m0 a b -> Forall veh_waits b ->
    (forall n cy, published c tick m0 (a ++ b) n cy ->
       f_now (vh_f (veh_run c tick m0 a)) < n -> cycle_shows c k cy) ->
    tolerance c tick k + 3 <= veh_ticks b ->
    (forall later ev t,
       veh_sends c tick (veh_run c tick m0 (a ++ b ++ later)) ev t -> asks_torque t = false) /\
    (forall later, Forall veh_no_pc (b ++ later) ->
       e_pin (vh_e (veh_run c tick m0 (a ++ b ++ later))) = true).
Proof.
  intros c tick m0 a b k HC HT HI NI NS K W PU TK.
  assert (P0 : forall k', 0 <= tolerance c tick k').
  { intros k'. destruct HC as (H1 & H2 & H3). unfold tolerance.
    destruct k'; try lia; apply Z.div_pos; lia. }
  assert (TS : tol_small c tick) by (intros k'; split; auto).
  assert (T0 := P0 k).
  split.
  - intros later ev t SN. apply (stopped_veh_silent False c tick _ ev t) in SN; auto.
    rewrite app_assoc. apply stopped_veh; [intros []|].
    apply (sensor_reaction False c tick m0 a b k); auto; intros [].
  - intros later NP. apply Forall_app in NP. destruct NP as (N1 & N2).
    apply (st_pin True); auto. rewrite app_assoc. apply stopped_veh; auto.
    apply (sensor_reaction True c tick m0 a b k); auto.
Qed.
Print Assumptions C94_sensor_fault_stops_the_drive.

(** With the shipped calibration and limit: two readings that differ by 411 counts
    or more show the fault condition. *)
Theorem C94_disagreement_in_counts :
  forall cy, both_read cy -> 0 <= snd (cy_A cy) <= 4095 -> 0 <= snd (cy_B cy) <= 4095 ->
    411 <= Z.abs (snd (cy_A cy) - snd (cy_B cy)) -> cycle_shows default_config AccelDisagree cy.
Proof. intros cy. now apply raw_disagree. Qed.
Print Assumptions C94_disagreement_in_counts.

(** ** Examples *)
(** The shipped configuration with shorter times: 20 ms until a pedal fault counts,
    no wait after high voltage is on. *)
Definition quick : config :=
  let ci := cf_inputs default_config in
  mkConfig (mkCfgInputs (ci_calA ci) (ci_calB ci) (ci_consistencyLimit ci) (ci_brakeFront ci) (ci_brakeRear ci)
              (ci_abuseEnabled ci) (ci_abuseAccel ci) (ci_abuseBrake ci) 20 (ci_numTeeth ci))
           (cf_bms default_config) (cf_inverter default_config) 0 7000.
Definition quick_vsm : vsm := Eval vm_compute in
  match vsm_init quick 10 with Some m => m | None => shipped_vsm end.
Example quick_vsm_ok : vsm_init quick 10 = Some quick_vsm.
Proof. vm_compute. reflexivity. Qed.

(** One period: the sensing task reads [a] and [b] and the button, the BMS task
    writes the state [w] (battery and inverter), the other tasks of high priority
    run, then the throttle task up to its request [req] and the state manager. *)
Definition cycle (a b : Z) (btn : bool) : ds_cycle := mkCycle (0, a) (0, b) (0, 0) (0, 0) btn true.
Definition does (t : Z) (l : list action) : list veh_event := map (VRun t) l.
Definition early (cy : ds_cycle) (w : vstate) : list veh_event :=
  VTick :: does T_SENSE [AStart; ACall; ATake; APublish cy; AGive; ADone] ++
  does T_BMS [AStart; ACall; ATake; AWrite w; AGive; ADone] ++
  flat_map (fun t => does t [AStart; ADone]) [T_WHEEL; T_INV; T_WDT].
Definition throttle_part : list veh_event :=
  does T_THROTTLE [AStart; ACall; ATake] ++ [VPedal] ++ does T_THROTTLE [AGive] ++
  map VWork [EvReadEnabled; EvReadDir; EvReadDir2].
Definition request : veh_event := VWork (EvRequest true true).
Definition state_part : list veh_event :=
  does T_VSM [AStart; ACall; ATake] ++ [VCopy] ++ does T_VSM [AGive; ACall; ATake] ++ [VLook] ++
  does T_VSM [AGive] ++ [VDecide] ++ map VWork (repeat run_cmd 4) ++ does T_VSM [ADone].
Definition period (cy : ds_cycle) (w : vstate) : list veh_event :=
  early cy w ++ throttle_part ++ [request] ++ does T_THROTTLE [ADone] ++ state_part ++
  does T_PC [AStart; ADone].
Definition inv_at (s : Z) : vstate := with_inverter s healthy.

(** The driver switches on, presses the button twice, and drives with the pedal
    at 1000 of 4095 counts. *)
Definition set_out : list veh_event :=
  concat (map (fun p => period (cycle 0 0 (fst p)) (inv_at (snd p)))
    [(false, 0); (false, 0); (false, 0); (true, 0); (false, 0); (false, 5); (false, 5); (true, 5)]).
Notation veh tr := (veh_run quick 10 quick_vsm tr).
Definition new_asks (s : vehicle) (ev : veh_event) : list Z :=
  map (fun t => frame_torque (tx_data t))
      (skipn (length (e_sent (vh_e s))) (e_sent (vh_e (veh_step quick 10 (ds_from_config quick) s ev)))).
Definition on_pedal (a b : Z) : list veh_event := early (cycle a b false) (inv_at 5) ++ throttle_part.

Lemma asks_one : forall s ev x, new_asks s ev = [x] -> x <> 0 ->
  exists t, veh_sends quick 10 s ev t /\ asks_torque t = true.
Proof.
  intros s ev x H NZ. unfold new_asks in H.
  assert (E : exists l, e_sent (vh_e (veh_step quick 10 (ds_from_config quick) s ev)) = e_sent (vh_e s) ++ l).
  { destruct (step_e quick 10 (ds_from_config quick) s ev) as [S|(e & S & _)]; rewrite S.
    - exists []. now rewrite app_nil_r.
    - destruct (frames_added quick 10 (vh_e s) e) as (l & E & _). eauto. }
  destruct E as (l & E). rewrite E, skipn_app, skipn_all, Nat.sub_diag, skipn_O in H. cbn [app] in H.
  apply map_one in H. destruct H as (t & -> & H). exists t. split.
  - exists [t]. split; [exact E|now left].
  - unfold asks_torque. rewrite H. destruct (Z.eqb_spec x 0); [contradiction|reflexivity].
Qed.

Definition u16b (_ : Z) (cy : ds_cycle) : bool :=
  forallb (fun r : Z * Z => (0 <=? snd r) && (snd r <? 65536)) [cy_A cy; cy_B cy; cy_front cy; cy_rear cy].
Lemma u16b_ok : forall n cy, u16b n cy = true -> cycle_u16 cy.
Proof.
  intros n cy H. unfold u16b in H. rewrite forallb_forall in H.
  assert (Q : forall r, In r [cy_A cy; cy_B cy; cy_front cy; cy_rear cy] -> is_u16 (snd r)).
  { intros r IN. specialize (H r IN). unfold is_u16. apply andb_prop in H. destruct H. lia. }
  repeat split; apply Q; cbn; auto.
Qed.
Definition readb (n : Z) (cy : ds_cycle) : bool :=
  u16b n cy && ((fst (cy_A cy) =? 0) && (fst (cy_B cy) =? 0)).
Lemma quick_calibrated : calibrated quick.
Proof. repeat constructor; cbn; unfold is_u16; lia. Qed.

(** Driving with the pedal near half of its travel: the request asks for 97.1 Nm. *)
Example C94_torque_example :
  exists t, veh_not_starved quick 10 quick_vsm (set_out ++ on_pedal 2000 2000) /\
    readings_u16 quick 10 quick_vsm (set_out ++ on_pedal 2000 2000) /\
    stays_readable quick 10 quick_vsm (set_out ++ on_pedal 2000 2000) /\
    veh_sends quick 10 (veh (set_out ++ on_pedal 2000 2000)) request t /\ asks_torque t = true.
Proof.
  destruct (checkb_ok quick 10 quick_vsm false readb (set_out ++ on_pedal 2000 2000)) as (NS & U & _);
    [vm_compute; reflexivity|].
  destruct (asks_one (veh (set_out ++ on_pedal 2000 2000)) request 971) as (t & S & A);
    [vm_compute; reflexivity|discriminate|].
  exists t. split; [exact NS|]. split; [|split; [|auto]].
  - intros n cy P. specialize (U n cy P). apply andb_prop in U. now apply (u16b_ok n).
  - intros a b e n1 cy1 n2 cy2 E L1 L2.
    assert (P : published quick 10 quick_vsm (set_out ++ on_pedal 2000 2000) n2 cy2).
    { exists (a ++ b), e. rewrite E. now rewrite app_assoc. }
    specialize (U n2 cy2 P). apply andb_prop in U. destruct U as (_ & U). apply andb_prop in U.
    unfold ADC_STATUS_OK. lia.
Qed.

(** Foot off the pedal in the following period: the request of that period already
    asks for nothing. *)
Definition lift : list veh_event :=
  set_out ++ period (cycle 2000 2000 false) (inv_at 5) ++ on_pedal 0 0.
Definition offb (n : Z) (cy : ds_cycle) : bool :=
  u16b n cy && ((n <? 10) || ((fst (cy_A cy) =? 0) && (fst (cy_B cy) =? 0) &&
                              (snd (cy_A cy) =? 0) && (snd (cy_B cy) =? 0))).
Example C94_released_example :
  veh_not_starved quick 10 quick_vsm lift /\ readings_u16 quick 10 quick_vsm lift /\
  (forall n cy, published quick 10 quick_vsm lift n cy -> 10 <= n -> released quick cy) /\
  f_stage (vh_f (veh lift)) T_THROTTLE = Running 10 /\ new_asks (veh lift) request = [0].
Proof.
  destruct (checkb_ok quick 10 quick_vsm false offb lift) as (NS & U & _); [vm_compute; reflexivity|].
  split; [exact NS|]. split; [|split; [|split; vm_compute; reflexivity]].
  - intros n cy P. specialize (U n cy P). apply andb_prop in U. now apply (u16b_ok n).
  - intros n cy P N. specialize (U n cy P). apply andb_prop in U. destruct U as (_ & U).
    apply Bool.orb_prop in U. destruct U as [U|U]; [lia|].
    apply andb_prop in U. destruct U as (U & B2). apply andb_prop in U. destruct U as (U & B1).
    apply andb_prop in U. destruct U as (A1 & A2).
    apply raw_released; try reflexivity; try lia. split; unfold ADC_STATUS_OK; lia.
Qed.

(** The sensors disagree from the moment the car drives: torque stops within five
    ticks, and not within four. *)
Definition bad (n : nat) : list veh_event :=
  concat (repeat (period (cycle 3000 1000 false) (inv_at 5)) n).
Definition apartb (n : Z) (cy : ds_cycle) : bool :=
  (n <=? 8) || ((fst (cy_A cy) =? 0) && (fst (cy_B cy) =? 0) &&
               (snd (cy_A cy) =? 3000) && (snd (cy_B cy) =? 1000)).
Example C94_sensor_fault_example :
  cfg_ok quick 10 /\ tolerance quick 10 AccelDisagree = 2 /\
  vm_state (e_vsm (vh_e (veh set_out))) = StActiveForward /\
  veh_not_starved quick 10 quick_vsm (set_out ++ bad 5) /\
  veh_keeps_up quick 10 quick_vsm set_out (bad 5) /\ Forall veh_waits (bad 5) /\
  Forall veh_no_pc (bad 5) /\
  (forall n cy, published quick 10 quick_vsm (set_out ++ bad 5) n cy ->
     f_now (vh_f (veh set_out)) < n -> cycle_shows quick AccelDisagree cy) /\
  veh_ticks (bad 5) = 5 /\
  veh_ticks (bad 3 ++ on_pedal 3000 1000) = 4 /\
  new_asks (veh (set_out ++ bad 3 ++ on_pedal 3000 1000)) request = [971].
Proof.
  destruct (checkb_ok quick 10 quick_vsm true apartb (set_out ++ bad 5)) as (NS & U & K); [vm_compute; reflexivity|].
  assert (FN : f_now (vh_f (veh set_out)) = 8) by (vm_compute; reflexivity).
  split; [unfold cfg_ok; cbn; lia|]. split; [reflexivity|]. split; [vm_compute; reflexivity|].
  split; [exact NS|]. split; [now apply K|].
  assert (W : Forall (fun ev => veh_waits ev /\ veh_no_pc ev) (bad 5)).
  { apply Forall_forall. intros ev IN. apply in_concat in IN. destruct IN as (l & IL & IN).
    apply repeat_spec in IL. subst l. revert ev IN. apply Forall_forall.
    repeat (constructor; [cbn; auto|]). constructor. }
  split; [eapply Forall_impl; [|exact W]; now intros ev (A & _)|].
  split; [eapply Forall_impl; [|exact W]; now intros ev (_ & A)|].
  split; [|repeat split; vm_compute; reflexivity].
  rewrite FN. intros n cy P N. specialize (U n cy P). unfold apartb in U.
  apply Bool.orb_prop in U. destruct U as [U|U]; [lia|].
  apply andb_prop in U. destruct U as (U & B2). apply andb_prop in U. destruct U as (U & B1).
  apply andb_prop in U. destruct U as (A1 & A2).
  apply raw_disagree; try reflexivity; try lia. split; unfold ADC_STATUS_OK; lia.
Qed.

(** [stays_readable] is needed: were the readings to fail, the last pedal position
    would go on asking for torque, and no fault would be noticed; here for 12
    periods, six times the tolerance. *)
Definition lost : ds_cycle := mkCycle (8, 0) (8, 0) (8, 0) (8, 0) false true.
Definition unread : list veh_event :=
  set_out ++ period (cycle 2000 2000 false) (inv_at 5) ++
  concat (repeat (period lost (inv_at 5)) 11) ++ early lost (inv_at 5) ++ throttle_part.
Example C94_readability_needed :
  f_now (vh_f (veh unread)) = 21 /\ f_last (vh_f (veh unread)) = Some (21, lost) /\
  vm_state (e_vsm (vh_e (veh unread))) = StActiveForward /\ new_asks (veh unread) request = [971].
Proof. vm_compute. auto. Qed.
