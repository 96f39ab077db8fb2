(** C100: the dashboard button, from the driver's hand to the inverter. [veh_run c
    tick m0 tr] is the vehicle after the events [tr] from power-up, with the
    sensing task, the throttle task, the state manager, the kernel's priorities and
    the mutex of the vehicle state. *)
From Coq Require Import ZifyBool ZifyNat.
From Verif.Model Require Import Vehicle.
From Verif.Spec Require Import VsmSpec InverterSpec EcuSpec VehicleSpec ButtonSpec.
From Verif.Proof Require Import EcuProof VehicleProof VehicleClaims ButtonProof ButtonTime.
From Verif.Props Require Import VsmProps EcuProps VehicleProps.
Open Scope Z_scope.

(** ** Nothing without the driver *)
(** No high voltage before the button was published pressed. *)
Theorem C100_high_voltage_needs_press :
  forall c tick m0 tr, vsm_init c tick = Some m0 ->
    hv_state (vm_state (e_vsm (vh_e (veh_run c tick m0 tr)))) ->
    button_went c tick m0 tr [true].
Proof. exact hv_needs_press. Qed.
Print Assumptions C100_high_voltage_needs_press.

(** No frame enables the inverter before the button was published pressed. *)
Theorem C100_inverter_needs_press :
  forall c tick m0 tr ev t, vsm_init c tick = Some m0 ->
    veh_sends c tick (veh_run c tick m0 tr) ev t -> frame_enable (tx_data t) = true ->
    button_went c tick m0 tr [true].
Proof. exact enable_needs_press. Qed.
Print Assumptions C100_inverter_needs_press.

(** No frame asks for torque before the button was published pressed, then
    released, then pressed again. *)
Theorem C100_torque_needs_two_presses :
  forall c tick m0 tr ev t, vsm_init c tick = Some m0 ->
    veh_sends c tick (veh_run c tick m0 tr) ev t -> asks_torque t = true ->
    button_went c tick m0 tr [true; false; true].
Proof. exact torque_needs_presses. Qed.
Print Assumptions C100_torque_needs_two_presses.

(** So a button that is stuck, pressed or released, never makes the car drive. *)
Theorem C100_stuck_button_never_drives :
  forall c tick m0 p tr ev t, vsm_init c tick = Some m0 ->
    (forall n cy, published c tick m0 tr n cy -> cy_button cy = p) ->
    veh_sends c tick (veh_run c tick m0 tr) ev t -> asks_torque t = false.
Proof.
  intros c tick m0 p tr ev t HI ST SN. destruct (asks_torque t) eqn:A; auto. exfalso.
  destruct (torque_needs_presses c tick m0 tr ev t HI SN A) as (x & y & -> & L1 & u & v & -> & L2 & _).
  unfold last_button in *.
  destruct (f_last (vh_f (veh_run c tick m0 (u ++ v)))) as [[n1 c1]|] eqn:F1; [|discriminate].
  destruct (f_last (vh_f (veh_run c tick m0 u))) as [[n2 c2]|] eqn:F2; [|discriminate].
  assert (P1 : cy_button c1 = p) by (apply (ST n1); exists (u ++ v), y; auto).
  assert (P2 : cy_button c2 = p) by (apply (ST n2); exists u, (v ++ y); rewrite app_assoc; auto).
  congruence.
Qed.
Print Assumptions C100_stuck_button_never_drives.

(** ** Neutral *)
(** Standing in neutral, both control tasks idle, the vehicle asks for no torque as
    long as the button is published released, whatever the pedal does. *)
Theorem C100_neutral_until_pressed :
  forall c tick m0 a b ev t, vsm_init c tick = Some m0 -> Forall veh_waits a ->
    veh_idle (veh_run c tick m0 a) ->
    vm_state (e_vsm (vh_e (veh_run c tick m0 a))) = StActiveNeutral ->
    button_stays c tick m0 a b false ->
    veh_sends c tick (veh_run c tick m0 (a ++ b)) ev t -> asks_torque t = false.
Proof.
  intros c tick m0 a b ev t HI W ID N BS SN.
  destruct (neutral_run c tick m0 a HI W ID N b BS) as (_ & UL & _).
  now apply (quiet_sends c tick (veh_run c tick m0 (a ++ b)) ev t).
Qed.
Print Assumptions C100_neutral_until_pressed.

(** ** Pressing the button stops the drive *)
(** After [a] the vehicle drives, both control tasks are idle and the state manager
    saw the button released when it looked last. If every cycle that the sensing
    task publishes from then on shows it pressed, no frame asks for torque once the
    timer has ticked three times. *)
Theorem C100_press_stops_the_drive :
  forall c tick m0 a b ev t, vsm_init c tick = Some m0 ->
    veh_idle (veh_run c tick m0 a) ->
    vm_state (e_vsm (vh_e (veh_run c tick m0 a))) = StActiveForward ->
    vm_prevBtn (e_vsm (vh_e (veh_run c tick m0 a))) = false ->
    veh_not_starved c tick m0 (a ++ b) -> veh_keeps_up c tick m0 a b -> Forall veh_waits b ->
    looks_at_button c tick m0 a b ->
    (forall n cy, published c tick m0 (a ++ b) n cy ->
       f_now (vh_f (veh_run c tick m0 a)) < n -> cy_button cy = true) ->
    3 <= veh_ticks b ->
    veh_sends c tick (veh_run c tick m0 (a ++ b)) ev t -> asks_torque t = false.
Proof.
  intros c tick m0 a b ev t HI ID F PB NS K W LK PU T SN.
  destruct (prog_run c tick m0 a HI ID F PB b NS K W LK PU) as (_ & _ & _ & Q).
  destruct (Q T) as (_ & UL). now apply (quiet_sends c tick (veh_run c tick m0 (a ++ b)) ev t).
Qed.
Print Assumptions C100_press_stops_the_drive.

(** ** Examples *)
(** The frames that an event adds: the torque and the enable bit of each. *)
Definition new_frames (s : vehicle) (ev : veh_event) : list (Z * bool) :=
  map (fun t => (frame_torque (tx_data t), frame_enable (tx_data t)))
      (skipn (length (e_sent (vh_e s))) (e_sent (vh_e (veh_step quick 10 (ds_from_config quick) s ev)))).
Lemma frames_one : forall s ev x b, new_frames s ev = [(x, b)] -> x <> 0 ->
  exists t, veh_sends quick 10 s ev t /\ asks_torque t = true /\ frame_enable (tx_data t) = b.
Proof.
  intros s ev x b H NZ. unfold new_frames in H.
  assert (E : exists l, e_sent (vh_e (veh_step quick 10 (ds_from_config quick) s ev)) = e_sent (vh_e s) ++ l).
  { destruct (step_e quick 10 (ds_from_config quick) s ev) as [S|(e & S & _)]; rewrite S.
    - exists []. now rewrite app_nil_r.
    - destruct (frames_added quick 10 (vh_e s) e) as (l & E & _). eauto. }
  destruct E as (l & E). rewrite E, skipn_app, skipn_all, Nat.sub_diag, skipn_O in H. cbn [app] in H.
  destruct l as [|t [|t' l]]; try discriminate H. cbn [map] in H. injection H as HT HB.
  exists t. split; [|split; [|exact HB]].
  - exists [t]. split; [exact E|now left].
  - unfold asks_torque. rewrite HT. destruct (Z.eqb_spec x 0); [contradiction|reflexivity].
Qed.

(** The driver of C94's examples: the frame asks for torque, so the button went
    down, up and down again. *)
Example C100_torque_example :
  exists t, veh_sends quick 10 (veh (set_out ++ on_pedal 2000 2000)) request t /\
    asks_torque t = true /\ frame_enable (tx_data t) = true.
Proof. apply (frames_one _ _ 971 true); [vm_compute; reflexivity|discriminate]. Qed.

(** Button stuck from power-up with the pedal down: high voltage comes on, the
    inverter is enabled and ready, the vehicle reaches neutral, and stays there. *)
Definition stuck : list veh_event :=
  concat (map (fun s => period (cycle 2000 2000 true) (inv_at s)) [0; 0; 0; 0; 0; 5; 5; 5; 5]).
Definition pressedb (_ : Z) (cy : ds_cycle) : bool := cy_button cy.
Example C100_stuck_example :
  (forall n cy, published quick 10 quick_vsm stuck n cy -> cy_button cy = true) /\
  vm_state (e_vsm (vh_e (veh stuck))) = StActiveNeutral /\
  existsb (fun t => frame_enable (tx_data t)) (e_sent (vh_e (veh stuck))) = true /\
  existsb asks_torque (e_sent (vh_e (veh stuck))) = false.
Proof.
  destruct (checkb_ok quick 10 quick_vsm false pressedb stuck) as (_ & P & _); [vm_compute; reflexivity|].
  split; [exact P|]. vm_compute. auto.
Qed.

(** In neutral, three periods with the pedal half down and the button released. *)
Definition in_neutral : list veh_event :=
  concat (map (fun p => period (cycle 0 0 (fst p)) (inv_at (snd p)))
    [(false, 0); (false, 0); (false, 0); (true, 0); (false, 0); (false, 5); (false, 5)]).
Definition revving : list veh_event := concat (repeat (period (cycle 2000 2000 false) (inv_at 5)) 3).
Example C100_neutral_example :
  Forall veh_waits in_neutral /\ veh_idle (veh in_neutral) /\
  vm_state (e_vsm (vh_e (veh in_neutral))) = StActiveNeutral /\
  button_stays quick 10 quick_vsm in_neutral revving false /\
  new_asks (veh (in_neutral ++ revving ++ on_pedal 2000 2000)) request = [0].
Proof.
  split; [|split; [|split; [|split]]].
  - apply Forall_forall. intros ev IN. apply in_concat in IN. destruct IN as (l & IL & IN).
    apply in_map_iff in IL. destruct IL as (p & <- & _). revert ev IN. apply Forall_forall.
    repeat (constructor; [cbn; auto|]). constructor.
  - apply veh_idleb_ok. vm_compute. reflexivity.
  - vm_compute. reflexivity.
  - apply stays_check. vm_compute. reflexivity.
  - vm_compute. reflexivity.
Qed.

(** Driving, then the button is pressed and held with the pedal half down: one
    more frame asks for torque, in the period of the press, and none after it. *)
Definition under_way : list veh_event := set_out ++ period (cycle 2000 2000 false) (inv_at 5).
Definition held_down (n : nat) : list veh_event := concat (repeat (period (cycle 2000 2000 true) (inv_at 5)) n).
Definition from_nine (n : Z) (cy : ds_cycle) : bool := (n <=? 9) || cy_button cy.
Example C100_press_example :
  veh_idle (veh under_way) /\ vm_state (e_vsm (vh_e (veh under_way))) = StActiveForward /\
  vm_prevBtn (e_vsm (vh_e (veh under_way))) = false /\
  veh_not_starved quick 10 quick_vsm (under_way ++ held_down 3) /\
  veh_keeps_up quick 10 quick_vsm under_way (held_down 3) /\ Forall veh_waits (held_down 3) /\
  looks_at_button quick 10 quick_vsm under_way (held_down 3) /\
  (forall n cy, published quick 10 quick_vsm (under_way ++ held_down 3) n cy ->
     f_now (vh_f (veh under_way)) < n -> cy_button cy = true) /\
  veh_ticks (held_down 3) = 3 /\
  vm_state (e_vsm (vh_e (veh (under_way ++ held_down 3)))) = StActiveNeutral /\
  new_asks (veh (under_way ++ early (cycle 2000 2000 true) (inv_at 5) ++ throttle_part)) request = [971] /\
  new_asks (veh (under_way ++ held_down 3 ++ on_pedal 2000 2000)) request = [0].
Proof.
  destruct (checkb_ok quick 10 quick_vsm true from_nine (under_way ++ held_down 3)) as (NS & U & K); [vm_compute; reflexivity|].
  assert (FN : f_now (vh_f (veh under_way)) = 9) by (vm_compute; reflexivity).
  split; [apply veh_idleb_ok; vm_compute; reflexivity|].
  split; [vm_compute; reflexivity|]. split; [vm_compute; reflexivity|].
  split; [exact NS|]. split; [now apply K|]. split.
  { apply Forall_forall. intros ev IN. apply in_concat in IN. destruct IN as (l & IL & IN).
    apply repeat_spec in IL. subst l. revert ev IN. apply Forall_forall.
    repeat (constructor; [cbn; auto|]). constructor. }
  split; [apply looks_check; vm_compute; reflexivity|].
  split; [|repeat split; vm_compute; reflexivity].
  rewrite FN. intros n cy P N. specialize (U n cy P). unfold from_nine in U.
  apply Bool.orb_prop in U. destruct U as [U|U]; [lia|exact U].
Qed.
