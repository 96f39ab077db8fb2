(** C95 and C96: what the battery reports on its CAN bus and what the drive makes of
    it. [rp_run c tick m0 tr] is the vehicle controller after the run [tr] of timer
    ticks, received frames, task actions that the kernel's priorities allow, and the
    work of the control tasks. *)
From Coq Require Import Reals Lra.
From Verif.Model Require Import Reports.
From Verif.Spec Require Import FaultSpec VsmSpec CanDriverSpec FreshSpec RxSpec InverterSpec EcuSpec TorqueSpec VehicleSpec
  ReportsSpec BmsDocSpec.
From Verif.Proof Require Import FaultProof RxProof EcuProof RealTimeProof VehicleProof VehicleClaims ReportsProof ReportsClaims.
From Verif.Props Require Import FaultProps VsmProps RxProps BatteryLimitProps EcuProps VehicleProps.
Open Scope Z_scope.

(** ** C95 *)
(** After [a], when the start-up check is over, the frame [f] arrives, whose values
    meet the fault condition [k]; there is room in the queue; and in [b] the battery
    does not take it back. Once the timer has ticked the tolerance of [k] and four
    times more, no frame asks for torque any more, and, unless the PC sets the output
    itself, the error output is on. The battery task and both control tasks must
    finish before the next tick (without that there is no bound, C91). *)
Theorem C95_battery_report_stops_the_drive :
  forall c tick m0 a f b k,
    cfg_ok c tick -> (forall k', tolerance c tick k' < 65535) ->
    vsm_init c tick = Some m0 ->
    vm_state (e_vsm (vh_e (rp_v (rp_run c tick m0 a)))) <> StInit ->
    of_battery k -> frame_bytes f -> is_report k f -> reports_fault c k f ->
    (length (rp_q (rp_run c tick m0 a) T_BMS) < RX_QUEUE_LENGTH)%nat ->
    (forall g, In g (frames_in b) -> frame_bytes g /\ (is_report k g -> reports_fault c k g)) ->
    rp_keeps_up c tick m0 (a ++ [RFrame f]) b -> Forall rp_waits b ->
    tolerance c tick k + 4 <= rp_ticks b ->
    (forall later ev t,
       rp_sends c tick (rp_run c tick m0 (a ++ RFrame f :: b ++ later)) ev t -> asks_torque t = false) /\
    (forall later, Forall rp_no_pc (b ++ later) ->
       e_pin (vh_e (rp_v (rp_run c tick m0 (a ++ RFrame f :: b ++ later)))) = true).
Proof.
  intros c tick m0 a f b k HC HT HI NI OB FB IR RF RM FO K W TK.
  assert (P0 : forall k', 0 <= tolerance c tick k').
  { intros k'. destruct HC as (H1 & H2 & H3). unfold tolerance.
    destruct k'; try lia; apply Z.div_pos; lia. }
  assert (TS : tol_small c tick) by (intros k'; split; auto).
  assert (T0 := P0 k).
  assert (AS : forall later, a ++ RFrame f :: b ++ later = (a ++ RFrame f :: b) ++ later)
    by (intros later; now rewrite <- app_assoc).
  split.
  - intros later ev t SN. apply rp_sends_veh in SN. destruct SN as (e & _ & SN).
    apply (stopped_veh_silent False c tick _ e t) in SN; auto.
    rewrite AS. apply stopped_rp; [intros []|].
    apply (report_stops c tick m0 k f); auto; intros [].
  - intros later NP. apply Forall_app in NP. destruct NP as (N1 & N2).
    apply (st_pin True); auto. rewrite AS. apply stopped_rp; auto.
    apply (report_stops c tick m0 k f); auto.
Qed.
Print Assumptions C95_battery_report_stops_the_drive.

(** Room in the queue: when the battery task finished in the period of a tick, then
    until it runs again after the next tick its queue holds at most the frames of its
    bus that arrived since the first tick. So 255 frames in two periods fit. *)
Theorem C95_queue_holds_two_periods :
  forall c tick m0 x b1 b2,
    rp_idle (rp_run c tick m0 x) -> rp_ticks b1 = 0 ->
    rp_idle (rp_run c tick m0 (x ++ RVeh VTick :: b1)) ->
    (length (on_bms (frames_in (b1 ++ b2))) < 256)%nat ->
    (length (rp_q (rp_run c tick m0 (x ++ RVeh VTick :: b1 ++ b2)) T_BMS) < RX_QUEUE_LENGTH)%nat.
Proof.
  intros c tick m0 x b1 b2 I0 Z0 I1 L. pose proof (queue_two_periods c tick m0 x b1 b2 I0 Z0 I1) as Q.
  apply Nat.le_lt_trans with (length (on_bms (frames_in (b1 ++ b2)))); [lia|exact L].
Qed.
Print Assumptions C95_queue_holds_two_periods.

(** The receive interrupt of the CAN driver and the event [RFrame] agree: with the
    queues registered as at start-up, an interrupt that finds the standard frames
    [hs] leaves in both queues what the events of these frames leave. *)
Theorem C95_driver_fills_the_queue :
  forall c tick s w w0 bus hs,
    can_run (fun _ => RX_QUEUE_LENGTH) can_init
      [CanReg BMS_BUS BMS_CAN_DEVICEID DEVICEIDMASK T_BMS;
       CanReg INVERTER_BUS INVERTER_CAN_DEVICEID DEVICEIDMASK T_INV] = Some w0 ->
    cw_inst w = cw_inst w0 -> (forall t, In t [T_BMS; T_INV] -> cw_q w t = rp_q s t) ->
    In bus [BMS_BUS; INVERTER_BUS] -> Forall (fun h => hw_ext h = false) hs ->
    exists w', ISR_RxMsgPending (fun _ => RX_QUEUE_LENGTH) w bus (map (fun h => (h, true)) hs) = Some w' /\
      cw_inst w' = cw_inst w0 /\
      forall t, In t [T_BMS; T_INV] ->
        cw_q w' t = rp_q (fold_left (rp_step c tick) (map (fun h => RFrame (as_received bus h)) hs) s) t.
Proof.
  intros c tick s w w0 bus hs R WI Q B F.
  assert (RT : forall t, is_rx_task t = true -> In t [T_BMS; T_INV]).
  { intros t H. unfold is_rx_task in H. cbn [In]. apply Bool.orb_prop in H. destruct H as [H|H]; apply Z.eqb_eq in H; auto. }
  assert (TR : forall t, In t [T_BMS; T_INV] -> is_rx_task t = true) by (intros t [<-|[<-|[]]]; reflexivity).
  assert (IB : bus = BMS_BUS \/ bus = INVERTER_BUS) by (destruct B as [<-|[<-|[]]]; auto).
  assert (WR : cw_inst w bus = cw_inst registered bus /\ ci_inUse (cw_inst w bus) = true).
  { rewrite WI. injection R as <-. destruct IB as [->| ->]; split; reflexivity. }
  destruct WR as (WR & U).
  destruct (interrupt_frames c tick bus hs s (cw_q w) None IB F (fun t H => Q t (RT t H))) as (qs & E & H).
  unfold ISR_RxMsgPending. rewrite U, WR. cbn [negb]. rewrite E. eexists. split; [reflexivity|].
  split; [exact WI|]. intros t T. apply H, TR, T.
Qed.
Print Assumptions C95_driver_fills_the_queue.

(** With the shipped limits: a hottest cell above 75 degrees, or a charge below 20
    percent, meets the condition. *)
Theorem C95_in_degrees_and_percent :
  forall f,
    (bms_frame BMS_BUS 0x301 f -> (75 < doc_temperature (fr_data f))%R ->
     is_report CellOverTemp f /\ reports_fault default_config CellOverTemp f) /\
    (bms_frame BMS_BUS 0x303 f -> (doc_charge (fr_data f) < 20)%R ->
     is_report LowCharge f /\ reports_fault default_config LowCharge f).
Proof.
  intros f. split; intros F D; pose proof F as (B & I & L & Y); (split; [repeat split; assumption|]);
    intros v; rewrite <- bms_one by exact Y; change (rx_apply T_BMS f v) with (BMSProcessing BMS_BUS v ([] ++ [(f, true)])).
  - apply C05_temperature_limit_partial; auto.
  - apply C05_charge_limit_is_20_percent; auto.
Qed.
Print Assumptions C95_in_degrees_and_percent.

(** ** C96 *)
(** A battery that falls silent is not noticed. Its last values stay: *)
Theorem C96_battery_values_kept :
  forall c tick m0 a b,
    battery_handled (rp_run c tick m0 a) -> battery_silent b ->
    vs_battery (f_vs (vh_f (rp_v (rp_run c tick m0 (a ++ b))))) =
    vs_battery (f_vs (vh_f (rp_v (rp_run c tick m0 a)))).
Proof. intros c tick m0 a b H S. apply (silent_keeps c tick m0 a b H S). Qed.
Print Assumptions C96_battery_values_kept.

(** and the drive goes on: while the pedals show no fault and nobody presses the
    button, however long the battery (and, if so, the inverter) is silent and
    whatever time-outs are configured, the state stays that of driving forward, and
    the throttle controller stays as enabled as it was. *)
Theorem C96_silent_battery_keeps_driving :
  forall c tick m0 a b,
    vsm_init c tick = Some m0 ->
    vm_state (e_vsm (vh_e (rp_v (rp_run c tick m0 a)))) = StActiveForward ->
    rp_idle (rp_run c tick m0 a) -> battery_handled (rp_run c tick m0 a) -> battery_silent b ->
    (forall k, of_battery k \/ k = BmsIndicator ->
       fault_cond c k (f_vs (vh_f (rp_v (rp_run c tick m0 a)))) = false) ->
    rp_not_starved c tick m0 (a ++ b) ->
    (forall n cy, rp_published c tick m0 (a ++ b) n cy ->
       f_now (vh_f (rp_v (rp_run c tick m0 a))) < n -> cycle_clear c cy) ->
    vm_state (e_vsm (vh_e (rp_v (rp_run c tick m0 (a ++ b))))) = StActiveForward /\
    e_thr (vh_e (rp_v (rp_run c tick m0 (a ++ b)))) = e_thr (vh_e (rp_v (rp_run c tick m0 a))).
Proof.
  intros c tick m0 a b HI FW ID BH BS BC NS PU.
  destruct (silent_drives c tick m0 a b HI FW ID BH BS BC NS PU) as ((_ & S & _) & _ & T). auto.
Qed.
Print Assumptions C96_silent_battery_keeps_driving.

(** ** Examples *)
(** As [quick] in C94, with 20 ms until a battery fault counts. *)
Definition brisk : config :=
  mkConfig (cf_inputs quick) (mkCfgBms 768 750 4500 420 1000 20 100) (cf_inverter quick) 0 7000.
Definition brisk_vsm : vsm := Eval vm_compute in
  match vsm_init brisk 10 with Some m => m | None => shipped_vsm end.
Example brisk_vsm_ok : vsm_init brisk 10 = Some brisk_vsm.
Proof. vm_compute. reflexivity. Qed.
Notation rp tr := (rp_run brisk 10 brisk_vsm tr).

(** One period in which the frames [l] arrive before the tick. *)
Definition reads (t : Z) (l : list can_frame) : list rp_event :=
  RVeh (VRun t AStart) ::
  flat_map (fun _ => [RReceive t; RVeh (VRun t ACall); RVeh (VRun t ATake); RWrite t; RVeh (VRun t AGive)])
           (filter (rx_accepts t) l) ++ [RReceive t; RVeh (VRun t ADone)].
Definition rp_early (l : list can_frame) (cy : ds_cycle) : list rp_event :=
  RVeh VTick :: map RVeh (does T_SENSE [AStart; ACall; ATake; APublish cy; AGive; ADone]) ++
  reads T_BMS l ++ map RVeh (does T_WHEEL [AStart; ADone]) ++ reads T_INV l ++ map RVeh (does T_WDT [AStart; ADone]).
Definition rp_period (l : list can_frame) (cy : ds_cycle) : list rp_event :=
  map RFrame l ++ rp_early l cy ++
  map RVeh (throttle_part ++ [request] ++ does T_THROTTLE [ADone] ++ state_part ++ does T_PC [AStart; ADone]).
Definition asked (s : reports) (ev : rp_event) : list Z :=
  map (fun t => frame_torque (tx_data t))
      (skipn (length (e_sent (vh_e (rp_v s)))) (e_sent (vh_e (rp_v (rp_step brisk 10 s ev))))).

Lemma asks_any : forall c x s ev,
  map (fun t => frame_torque (tx_data t))
      (skipn (length (e_sent (vh_e s))) (e_sent (vh_e (veh_step c 10 (ds_from_config c) s ev)))) = [x] -> x <> 0 ->
  exists t, veh_sends c 10 s ev t /\ asks_torque t = true.
Proof.
  intros c x s ev H NZ.
  assert (E : exists l, e_sent (vh_e (veh_step c 10 (ds_from_config c) s ev)) = e_sent (vh_e s) ++ l).
  { destruct (step_e c 10 (ds_from_config c) s ev) as [Q|(e & Q & _)]; rewrite Q.
    - exists []. now rewrite app_nil_r.
    - destruct (frames_added c 10 (vh_e s) e) as (l & E & _). eauto. }
  destruct E as (l & E). rewrite E, skipn_app, skipn_all, Nat.sub_diag, skipn_O in H. cbn [app] in H.
  apply map_one in H. destruct H as (t & -> & H). exists t. split.
  - exists [t]. split; [exact E|now left].
  - unfold asks_torque. rewrite H. destruct (Z.eqb_spec x 0); [contradiction|reflexivity].
Qed.

(** The battery reports 80 percent of charge, the inverter that it is ready; the
    driver presses the button twice. *)
Definition charged : can_frame := mkFrame BMS_BUS 0x303 8 [0; 0; 0; 0; 0x40; 0x1F; 0; 0].
Definition ready : can_frame := mkFrame INVERTER_BUS 0x0AA 8 [5; 0; 0; 0; 0; 0; 0; 0].
Definition rp_out : list rp_event :=
  concat (map (fun p => rp_period (snd p) (cycle 0 0 (fst p)))
    [(false, [charged]); (false, []); (false, []); (true, []); (false, []); (false, [ready]); (false, [charged]); (true, [])]).

(** The hottest cell is at 80 degrees; torque has stopped after six ticks, and
    not after four. *)
Definition hot : can_frame := mkFrame BMS_BUS 0x301 8 [0x20; 0x03; 0; 0; 0; 0; 0; 0].
Definition driving_on (n : nat) : list rp_event := concat (repeat (rp_period [] (cycle 2000 2000 false)) n).
Definition after_hot (n : nat) : list rp_event :=
  match rp_period [hot] (cycle 2000 2000 false) with _ :: p => p ++ driving_on n | [] => [] end.
Definition plainb (ev : rp_event) : bool :=
  match ev with
  | RVeh (VWork (EvCmd a _ _ _)) => a
  | RVeh (VWork e) => negb (is_pc e)
  | _ => true
  end.
Example C95_report_example :
  cfg_ok brisk 10 /\ tolerance brisk 10 CellOverTemp = 2 /\
  vm_state (e_vsm (vh_e (rp_v (rp rp_out)))) = StActiveForward /\
  frame_bytes hot /\ is_report CellOverTemp hot /\ reports_fault brisk CellOverTemp hot /\
  rp_q (rp rp_out) T_BMS = [] /\
  rp_keeps_up brisk 10 brisk_vsm (rp_out ++ [RFrame hot]) (after_hot 5) /\
  Forall rp_waits (after_hot 5) /\ Forall rp_no_pc (after_hot 5) /\
  rp_ticks (after_hot 5) = 6 /\ frames_in (after_hot 5) = [].
Proof.
  split; [unfold cfg_ok; cbn; lia|]. split; [reflexivity|]. split; [vm_compute; reflexivity|].
  split; [apply small_bytes; reflexivity|]. split; [repeat split|].
  split; [intros v; vm_compute; reflexivity|].
  split; [vm_compute; reflexivity|]. split.
  { destruct (rp_checkb_ok brisk 10 brisk_vsm true (fun _ _ => true) ((rp_out ++ [RFrame hot]) ++ after_hot 5)) as (_ & _ & K);
      [vm_compute; reflexivity|]. now apply K. }
  split; [|split; [|split; vm_compute; reflexivity]].
  - apply Forall_forall. intros ev IN.
    assert (F : forallb plainb (after_hot 5) = true) by (vm_compute; reflexivity). rewrite forallb_forall in F.
    specialize (F ev IN). destruct ev as [[| | | | | | |[]]| | |]; cbn in *; auto; discriminate.
  - apply Forall_forall. intros ev IN.
    assert (F : forallb plainb (after_hot 5) = true) by (vm_compute; reflexivity). rewrite forallb_forall in F.
    specialize (F ev IN). destruct ev as [[| | | | | | |[]]| | |]; cbn in *; auto; discriminate.
Qed.
Example C95_report_cases :
  let go n := rp (rp_out ++ RFrame hot :: after_hot n ++ rp_early [] (cycle 2000 2000 false) ++ map RVeh throttle_part) in
  asked (go 2%nat) (RVeh request) = [971] /\ asked (go 4%nat) (RVeh request) = [0].
Proof. vm_compute. auto. Qed.

(** Driving with a silent battery. *)
Definition clearb (n : Z) (cy : ds_cycle) : bool :=
  (n <=? 8) || ((fst (cy_A cy) =? 0) && (fst (cy_B cy) =? 0) && (fst (cy_front cy) =? 0) && (fst (cy_rear cy) =? 0) &&
               (snd (cy_A cy) =? 2000) && (snd (cy_B cy) =? 2000) && (snd (cy_front cy) =? 0) && (snd (cy_rear cy) =? 0) &&
               negb (cy_button cy)).
Lemma clear_cycle : forall cy, clearb 9 cy = true -> cycle_clear brisk cy.
Proof.
  intros [[a1 a2] [b1 b2] [f1 f2] [r1 r2] btn l] H. unfold clearb in H. change (9 <=? 8) with false in H. cbn [orb] in H.
  repeat (apply andb_prop in H; destruct H as (H & ?)).
  cbn [cy_A cy_B cy_front cy_rear cy_button fst snd] in *.
  repeat match goal with Q : (_ =? _) = true |- _ => apply Z.eqb_eq in Q; subst end.
  destruct btn; [discriminate|]. split; [reflexivity|].
  intros v k SH K. unfold shows_cycle in SH. cbn [cy_A cy_B cy_front cy_rear cy_button fst snd] in SH. cbn zeta in SH.
  destruct SH as (S1 & S2 & S3 & S4 & S5 & _).
  destruct (S1 eq_refl) as (A1 & A2). destruct (S2 eq_refl) as (B1 & B2). destruct (S3 eq_refl eq_refl) as (C1 & _).
  destruct (S4 eq_refl) as (D1 & D2). destruct (S5 eq_refl) as (E1 & E2). unfold fault_cond. cbn zeta.
  destruct K as [<-|[<-|[<-|[<-|[]]]]]; rewrite ?A1, ?A2, ?B1, ?B2, ?C1, ?D1, ?D2, ?E1, ?E2; vm_compute; reflexivity.
Qed.
Example C96_silent_example :
  vm_state (e_vsm (vh_e (rp_v (rp rp_out)))) = StActiveForward /\
  rp_idle (rp rp_out) /\ battery_handled (rp rp_out) /\ battery_silent (driving_on 12) /\
  (forall k, of_battery k \/ k = BmsIndicator -> fault_cond brisk k (f_vs (vh_f (rp_v (rp rp_out)))) = false) /\
  rp_not_starved brisk 10 brisk_vsm (rp_out ++ driving_on 12) /\
  (forall n cy, rp_published brisk 10 brisk_vsm (rp_out ++ driving_on 12) n cy ->
     f_now (vh_f (rp_v (rp rp_out))) < n -> cycle_clear brisk cy) /\
  rp_ticks (driving_on 12) = 12.
Proof.
  destruct (rp_checkb_ok brisk 10 brisk_vsm true clearb (rp_out ++ driving_on 12)) as (NS & U & _);
    [vm_compute; reflexivity|].
  assert (FN : f_now (vh_f (rp_v (rp rp_out))) = 8) by (vm_compute; reflexivity).
  split; [vm_compute; reflexivity|]. split; [apply rp_idleb_ok; vm_compute; reflexivity|].
  split; [split; vm_compute; reflexivity|].
  split; [intros g IN; replace (frames_in (driving_on 12)) with (@nil can_frame) in IN by (vm_compute; reflexivity); destruct IN|].
  split; [intros k [[<-|[<-|[<-|[<-|[]]]]]| ->]; vm_compute; reflexivity|].
  split; [exact NS|]. split; [|vm_compute; reflexivity].
  rewrite FN. intros n cy P N. apply clear_cycle. specialize (U n cy P). unfold clearb in *.
  destruct (Z.leb_spec n 8); [lia|exact U].
Qed.

(** The property itself fails. The configuration holds time-outs for the CAN messages
    of the battery and of the inverter, 100 ms each; 120 ms after the last frame of
    either the car is still asked for torque. *)
Theorem C96_silent_battery_refuted :
  exists a b ev t,
    battery_handled (rp a) /\ frames_in b = [] /\
    cb_canTimeout (cf_bms brisk) < rp_ticks b * 10 /\ cv_canTimeout (cf_inverter brisk) < rp_ticks b * 10 /\
    rp_keeps_up brisk 10 brisk_vsm [] (a ++ b) /\
    rp_sends brisk 10 (rp (a ++ b)) ev t /\ asks_torque t = true.
Proof.
  exists rp_out, (driving_on 11 ++ rp_early [] (cycle 2000 2000 false) ++ map RVeh throttle_part), (RVeh request).
  set (b := driving_on 11 ++ rp_early [] (cycle 2000 2000 false) ++ map RVeh throttle_part).
  assert (A : exists t, veh_sends brisk 10 (rp_v (rp (rp_out ++ b))) request t /\ asks_torque t = true).
  { apply (asks_any brisk 971); [vm_compute; reflexivity|discriminate]. }
  destruct A as (t & (l & E & IN) & A). exists t.
  split; [split; vm_compute; reflexivity|]. split; [vm_compute; reflexivity|].
  split; [vm_compute; reflexivity|]. split; [vm_compute; reflexivity|].
  split; [|split; [|exact A]].
  - destruct (rp_checkb_ok brisk 10 brisk_vsm true (fun _ _ => true) (rp_out ++ b)) as (_ & _ & K);
      [vm_compute; reflexivity|]. exact (K eq_refl [] (rp_out ++ b) eq_refl).
  - exists l. split; [exact E|exact IN].
Qed.
Print Assumptions C96_silent_battery_refuted.
