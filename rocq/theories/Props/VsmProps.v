(** C06-C12: the vehicle state machine. [vsm_run c tick m0 h] is the machine
    after the history [h] of control steps from power-up state [m0]. *)
From Verif.Model Require Import StateMachine.
From Verif.Spec Require Import VsmSpec.
From Verif.Proof Require Import VsmProof.
From Verif.Props Require Import FaultProps.

(** Concrete inputs for the examples: a healthy vehicle with a given button and
    inverter state. *)
Definition with_inverter (s : Z) (d : vstate) : vstate :=
  set_inverter d
    (mkInverter f_zero f_zero f_zero f_zero f_zero f_zero f_zero f_zero f_zero
             f_zero f_zero f_zero f_zero f_zero f_zero f_zero f_zero f_zero
             f_zero f_zero s 0 0 0 0 0 0 0).
Definition ok_in (btn : bool) (invState : Z) : vsm_in :=
  let d := with_inverter invState (set_dash healthy (mkDash btn false)) in
  mkVsmIn (Some d) (Some d).
Definition bad_in : vsm_in := mkVsmIn (Some disagreeing) (Some disagreeing).
Definition shipped_vsm : vsm := mkVsm StInit StInit 0 false shipped_fm.
Example shipped_vsm_is_init : vsm_init default_config 10 = Some shipped_vsm.
Proof. reflexivity. Qed.

Definition to_ready_h : list vsm_in := [ok_in false 0; ok_in false 0].
Definition to_hv_h := to_ready_h ++ [ok_in false 0; ok_in true 0].
Definition to_charging_h := to_hv_h ++ repeat (ok_in false 0) 51.
Definition to_neutral_h := to_charging_h ++ repeat (ok_in false 2) 20 ++ [ok_in false 5].
Definition to_forward_h := to_neutral_h ++ [ok_in false 5; ok_in true 5].

Example drive_states :
  map (fun h => vm_state (vsm_run default_config 10 shipped_vsm h))
      [[]; to_ready_h; to_hv_h; to_charging_h; to_neutral_h; to_forward_h;
       to_forward_h ++ repeat bad_in 11]
  = [StInit; StLvReady; StHvActive; StHvCharging; StActiveNeutral; StActiveForward; StFault].
Proof. vm_compute. reflexivity. Qed.

(** ** C06 *)
Theorem C06_fault_is_absorbing :
  forall c tick m0 past future,
    vsm_init c tick = Some m0 ->
    vm_state (vsm_run c tick m0 past) = StFault ->
    vm_state (vsm_run c tick m0 (past ++ future)) = StFault.
Proof. intros. rewrite run_app. apply fault_stays; auto. now apply run_init_inv. Qed.
Print Assumptions C06_fault_is_absorbing.

(** ** C07 *)
Theorem C07_drive_fault_reaches_fault_state :
  forall c tick m0 h i,
    vsm_init c tick = Some m0 ->
    report c (vsm_run c tick m0 h) i = FS_Fault ->
    vm_state (vsm_run c tick m0 h) <> StInit ->
    vm_state (vsm_run c tick m0 (h ++ [i])) = StFault.
Proof.
  intros. rewrite run_snoc. apply fault_report_step; auto. now apply run_init_inv.
Qed.
Print Assumptions C07_drive_fault_reaches_fault_state.

(** From INIT it takes one step more: [w] are steps in which the fault monitor
    could not copy the vehicle state, [j] is the next one in which it could. *)
Theorem C07_drive_fault_during_init :
  forall c tick m0 i w j,
    vsm_init c tick = Some m0 ->
    report c m0 i = FS_Fault ->
    Forall (fun x => vi_snap x = None) w ->
    vi_snap j <> None ->
    vm_state (vsm_run c tick m0 (i :: w)) = StLvStartup /\
    vm_state (vsm_run c tick m0 (i :: w ++ [j])) = StFault.
Proof. exact init_fault_path. Qed.
Print Assumptions C07_drive_fault_during_init.

Theorem C07_lv_error :
  forall c tick m0 h i,
    vsm_init c tick = Some m0 ->
    report c (vsm_run c tick m0 h) i = FS_LvError ->
    let before := vm_state (vsm_run c tick m0 h) in
    let after := vm_state (vsm_run c tick m0 (h ++ [i])) in
    (before = StInit \/ before = StLvStartup -> after = StLvStartup) /\
    (before <> StInit -> before <> StLvStartup -> after = StFault).
Proof.
  intros c tick m0 h i Hi HR before after. subst before after. rewrite run_snoc.
  rewrite (lv_error_step c tick _ i) by (auto; now apply run_init_inv).
  split; [now intros [-> | ->]|]. destruct (vm_state _); congruence.
Qed.
Print Assumptions C07_lv_error.

Example C07_nonvacuous :
  report default_config (vsm_run default_config 10 shipped_vsm
     (to_forward_h ++ repeat bad_in 10)) bad_in = FS_Fault /\
  report default_config shipped_vsm (mkVsmIn (Some zero_vstate) None) = FS_Fault /\
  report default_config shipped_vsm (mkVsmIn None None) = FS_LvError.
Proof. repeat split; vm_compute; reflexivity. Qed.

(** ** C08 *)
(** Every control step that starts in FAULT commands direction forward, torque
    off and the ECU error output on (their effects: see C13, C58). *)
Theorem C08_fault_state_outputs_safe :
  forall c tick m0 h i,
    vm_state (vsm_run c tick m0 h) = StFault ->
    snd (vsm_step c tick (vsm_run c tick m0 h) i) =
      [CmdMotorDirection DIR_FORWARD; CmdTorqueEnabled false; CmdEcuError true].
Proof. intros. now apply fault_cmds. Qed.
Print Assumptions C08_fault_state_outputs_safe.

(** But the step that enters FAULT commands nothing at all: torque stays
    enabled and the ECU error output stays off until the following step. *)
Theorem C08_safe_at_once_refuted :
  (forall c tick m0 h i, vsm_init c tick = Some m0 ->
     vm_state (vsm_run c tick m0 h) <> StFault ->
     vm_state (vsm_run c tick m0 (h ++ [i])) = StFault ->
     snd (vsm_step c tick (vsm_run c tick m0 h) i) = []) /\
  (exists h i, vm_state (vsm_run default_config 10 shipped_vsm h) = StActiveForward /\
     vm_state (vsm_run default_config 10 shipped_vsm (h ++ [i])) = StFault).
Proof.
  split.
  - intros c tick m0 h i Hi HS HF. apply entering_fault_cmds; auto.
    + now apply (run_init_inv c tick).
    + now rewrite <- run_snoc.
  - exists (to_forward_h ++ repeat bad_in 10), bad_in. split; vm_compute; reflexivity.
Qed.
Print Assumptions C08_safe_at_once_refuted.

(** ** C09 *)
Theorem C09_only_documented_transitions :
  forall c tick m0 h i,
    vsm_init c tick = Some m0 ->
    let before := vm_state (vsm_run c tick m0 h) in
    let after := vm_state (vsm_run c tick m0 (h ++ [i])) in
    after <> before -> diagram before after.
Proof.
  intros c tick m0 h i Hi before after. subst before after. rewrite run_snoc.
  apply step_diagram. now apply run_init_inv.
Qed.
Print Assumptions C09_only_documented_transitions.

(** The complete history of any vehicle found in ACTIVE_FORWARD. *)
Theorem C09_drive_sequence :
  forall c tick m0 h,
    0 <= tick ->
    vsm_init c tick = Some m0 ->
    vm_state (vsm_run c tick m0 h) = StActiveForward ->
    exists h1 i1 w1 i2 w2 i3 h4 i4 h5,
      h = h1 ++ i1 :: w1 ++ i2 :: w2 ++ i3 :: h4 ++ i4 :: h5 /\
      (* ready, asked to engage HV *)
      vm_state (vsm_run c tick m0 h1) = StLvReady /\ button i1 = Some true /\
      (* the HV wait completed in HV_ACTIVE *)
      (forall p q, w1 = p ++ q ->
         vm_state (vsm_run c tick m0 (h1 ++ i1 :: p)) = StHvActive) /\
      cf_hvActiveStateWait c <= tick * Z.of_nat (length w1) /\
      (* inverter seen ready while charging, and not timed out before *)
      (forall p q, w2 = p ++ q ->
         vm_state (vsm_run c tick m0 (h1 ++ i1 :: w1 ++ i2 :: p)) = StHvCharging) /\
      (forall p j q, w2 = p ++ j :: q -> vi_live j <> None ->
         (tick * Z.of_nat (length p)) mod 2 ^ 32 <= cf_hvChargeTimeout c) /\
      inverter_ready i3 = true /\
      vm_state (vsm_run c tick m0 (h1 ++ i1 :: w1 ++ i2 :: w2 ++ [i3])) = StActiveNeutral /\
      (* asked again, to drive *)
      vm_state (vsm_run c tick m0 (h1 ++ i1 :: w1 ++ i2 :: w2 ++ i3 :: h4)) = StActiveNeutral /\
      button i4 = Some true.
Proof. exact drive_path_holds. Qed.
Print Assumptions C09_drive_sequence.

Example C09_nonvacuous :
  vm_state (vsm_run default_config 10 shipped_vsm to_forward_h) = StActiveForward.
Proof. vm_compute. reflexivity. Qed.

(** ** C10 *)
(** HV_ACTIVE lasts exactly ceil(wait/tick) steps after the entering one, then
    the next step enables the inverter and moves on. *)
Theorem C10_hv_wait :
  forall c tick m h i,
    vsm_cfg_ok c tick ->
    vm_next m = vm_state m -> vm_state m = StHvActive -> vm_ticks m = 0 ->
    fault_free c tick m (h ++ [i]) ->
    cf_hvActiveStateWait c <= tick * Z.of_nat (length h) < cf_hvActiveStateWait c + tick ->
    tick * Z.of_nat (length h) < 2 ^ 32 ->
    vm_state (vsm_run c tick m h) = StHvActive /\
    vm_state (vsm_run c tick m (h ++ [i])) = StHvCharging /\
    snd (vsm_step c tick (vsm_run c tick m h) i) = [CmdEnableInverter].
Proof. exact hv_active_leaves. Qed.
Print Assumptions C10_hv_wait.

(** The hypotheses describe every entry into a state from power-up. *)
Theorem C10_entry :
  forall c tick m0 h i,
    vsm_init c tick = Some m0 ->
    vm_state (vsm_run c tick m0 (h ++ [i])) <> vm_state (vsm_run c tick m0 h) ->
    let m := vsm_run c tick m0 (h ++ [i]) in
    vm_next m = vm_state m /\ vm_ticks m = 0.
Proof.
  intros c tick m0 h i Hi HS m. split.
  - now apply (run_init_inv c tick).
  - subst m. rewrite run_snoc in *. now apply entry_ticks.
Qed.
Print Assumptions C10_entry.

(** HV_CHARGING: after [h] steps without READY the next evaluated step leaves
    for neutral if the inverter is ready, for FAULT if the timeout has passed;
    so the state is left at the latest at the first step after
    timeout/tick + 1 steps. *)
Theorem C10_charge_timeout :
  forall c tick m h i,
    vsm_cfg_ok c tick ->
    cf_hvChargeTimeout c + tick < 2 ^ 32 ->
    vm_next m = vm_state m -> vm_state m = StHvCharging -> vm_ticks m = 0 ->
    fault_free c tick m (h ++ [i]) ->
    Forall (fun j => vi_live j <> None /\ inverter_ready j = false) h ->
    vi_live i <> None ->
    tick * Z.of_nat (length h) <= cf_hvChargeTimeout c + tick ->
    vm_state (vsm_run c tick m h) = StHvCharging /\
    vm_state (vsm_run c tick m (h ++ [i])) =
      if inverter_ready i then StActiveNeutral
      else if cf_hvChargeTimeout c <? tick * Z.of_nat (length h) then StFault
      else StHvCharging.
Proof. exact hv_charging_decides. Qed.
Print Assumptions C10_charge_timeout.

Example C10_nonvacuous :
  let m := vsm_run default_config 10 shipped_vsm to_hv_h in
  let m' := vsm_run default_config 10 shipped_vsm to_charging_h in
  vm_state m = StHvActive /\ vm_ticks m = 0 /\
  vm_state (vsm_run default_config 10 m (repeat (ok_in false 0) 50)) = StHvActive /\
  vm_state (vsm_run default_config 10 m (repeat (ok_in false 0) 51)) = StHvCharging /\
  vm_state m' = StHvCharging /\ vm_ticks m' = 0 /\
  vm_state (vsm_run default_config 10 m' (repeat (ok_in false 2) 701)) = StHvCharging /\
  vm_state (vsm_run default_config 10 m' (repeat (ok_in false 2) 702)) = StFault.
Proof. vm_compute. repeat split. Qed.

(** The hypothesis that the elapsed milliseconds fit in 32 bits is needed: with
    the largest configurable wait and the shipped tick the product never
    compares as reached and the machine stays in HV_ACTIVE for ever. *)
Theorem C10_largest_wait_refuted :
  forall c h m,
    cf_hvActiveStateWait c = 4294967295 ->
    vm_next m = vm_state m -> vm_state m = StHvActive -> fault_free c 10 m h ->
    vm_state (vsm_run c 10 m h) = StHvActive.
Proof. exact wait_hidden. Qed.
Print Assumptions C10_largest_wait_refuted.

(** ** C11 *)
Theorem C11_change_needs_edge :
  forall c tick m0 h i,
    vsm_init c tick = Some m0 ->
    button_change (vm_state (vsm_run c tick m0 h)) (vm_state (vsm_run c tick m0 (h ++ [i]))) ->
    button i = Some true.
Proof.
  intros c tick m0 h i Hi. rewrite run_snoc. intros B.
  apply button_change_why in B; [tauto|]. now apply (run_init_inv c tick).
Qed.
Print Assumptions C11_change_needs_edge.

(** Between two button-requested changes the machine has seen the button
    released: holding it never causes a second change. *)
Theorem C11_one_press_one_change :
  forall c tick m0 h i w j,
    vsm_init c tick = Some m0 ->
    button_change (vm_state (vsm_run c tick m0 h)) (vm_state (vsm_run c tick m0 (h ++ [i]))) ->
    button_change (vm_state (vsm_run c tick m0 (h ++ i :: w)))
                  (vm_state (vsm_run c tick m0 (h ++ i :: w ++ [j]))) ->
    Exists (fun x => button x = Some false) w.
Proof.
  intros c tick m0 h i w j Hi B1 B2. rewrite run_snoc in B1.
  replace (h ++ i :: w ++ [j]) with ((h ++ i :: w) ++ [j]) in B2 by (now rewrite <- app_assoc).
  rewrite run_snoc, run_mid, run_snoc in B2.
  apply (one_press_one_change c tick (vsm_run c tick m0 h) i w j); auto.
  now apply (run_init_inv c tick).
Qed.
Print Assumptions C11_one_press_one_change.

Example C11_nonvacuous :
  let s h := vm_state (vsm_run default_config 10 shipped_vsm h) in
  button_change (s (to_neutral_h ++ [ok_in false 5])) (s to_forward_h) /\
  button_change (s (to_forward_h ++ [ok_in true 5; ok_in false 5]))
                 (s (to_forward_h ++ [ok_in true 5; ok_in false 5; ok_in true 5])) /\
  s (to_forward_h ++ repeat (ok_in true 5) 30) = StActiveForward.
Proof. vm_compute. repeat split; constructor. Qed.

(** ** C12 *)
(** Partial: if, since becoming ready, the machine has sampled the button at
    least once (step [j], last sample before [i]), HV is engaged only if it was
    released in that sample and pressed now. Missing: the first sample after
    becoming ready counts as an edge by itself, and the brake is not looked at. *)
Theorem C12_hv_needs_edge_partial :
  forall c tick m0 h j w i,
    vsm_init c tick = Some m0 ->
    vm_state (vsm_run c tick m0 h) = StLvReady ->
    report c (vsm_run c tick m0 h) j = FS_NoFault ->
    button j <> None ->
    Forall (fun x => button x = None) w ->
    vm_state (vsm_run c tick m0 (h ++ j :: w)) = StLvReady ->
    vm_state (vsm_run c tick m0 (h ++ j :: w ++ [i])) = StHvActive ->
    button j = Some false /\ button i = Some true.
Proof. exact hv_needs_edge. Qed.
Print Assumptions C12_hv_needs_edge_partial.

(** A button held down (or stuck) since power-up, with the brake released,
    engages HV on the first ready step. *)
Theorem C12_deliberate_request_refuted :
  exists h, Forall (fun i => button i = Some true /\ brake_front i = Some f_zero) h /\
    vm_state (vsm_run default_config 10 shipped_vsm h) = StHvActive.
Proof.
  exists (repeat (ok_in true 0) 3). split; [repeat constructor|]. vm_compute. reflexivity.
Qed.
Print Assumptions C12_deliberate_request_refuted.

Example C12_nonvacuous :
  vm_state (vsm_run default_config 10 shipped_vsm to_ready_h) = StLvReady /\
  vm_state (vsm_run default_config 10 shipped_vsm
     (to_ready_h ++ ok_in false 0 :: [mkVsmIn (Some healthy) None])) = StLvReady /\
  vm_state (vsm_run default_config 10 shipped_vsm
     (to_ready_h ++ ok_in false 0 :: [mkVsmIn (Some healthy) None] ++ [ok_in true 0])) = StHvActive.
Proof. repeat split; vm_compute; reflexivity. Qed.

(** ** C68 *)
(** The vehicle enters FAULT only for a cause. In particular a step that could not
    read the vehicle state never does, unless the fault monitor says so. *)
Theorem C68_fault_only_for_a_cause :
  forall c tick m0 h i, vsm_init c tick = Some m0 -> 0 <= tick ->
    vm_state (vsm_run c tick m0 h) <> StFault ->
    vm_state (vsm_run c tick m0 (h ++ [i])) = StFault -> fault_cause c tick m0 h i.
Proof. exact into_fault. Qed.
Print Assumptions C68_fault_only_for_a_cause.

(** From any state reached, a step with no fault report and no readable vehicle
    state changes nothing but the steps that look at neither: INIT, LV_STARTUP and
    the end of the HV_ACTIVE wait. *)
Theorem C68_unreadable_state_changes_nothing :
  forall c tick m0 h i, vsm_init c tick = Some m0 ->
    report c (vsm_run c tick m0 h) i = FS_NoFault -> vi_live i = None ->
    let before := vm_state (vsm_run c tick m0 h) in
    before <> StInit -> before <> StLvStartup -> before <> StHvActive ->
    vm_state (vsm_run c tick m0 (h ++ [i])) = before.
Proof. exact unreadable_stays. Qed.
Print Assumptions C68_unreadable_state_changes_nothing.

Example C68_nonvacuous :
  let s h := vm_state (vsm_run default_config 10 shipped_vsm h) in
  s (to_charging_h ++ repeat (ok_in false 2) 701) = StHvCharging /\
  s ((to_charging_h ++ repeat (ok_in false 2) 701) ++ [ok_in false 2]) = StFault /\
  s ((to_charging_h ++ repeat (ok_in false 2) 701) ++ [mkVsmIn (Some healthy) None]) = StHvCharging.
Proof. vm_compute. auto. Qed.
