(** C93: the driver starts the vehicle and is shown its state. [car_run c tick m0 es]
    is the ECU with its output pins after the events [es] from power-up. *)
From Verif.Model Require Import Outputs.
From Verif.Spec Require Import VsmSpec IoSpec OutputsSpec.
From Verif.Proof Require Import IoProof OutputsProof.
From Verif.Props Require Import FaultProps VsmProps EcuProps.
Open Scope Z_scope.

(** What the outputs are after any history: a power channel is what the PC last asked
    for, and so is its reported state; the ECU error output is that of the control
    tasks and the PC (C58); the LED counts hundreds of activations of the watchdog
    task. Missing: any use of the channels or the LED by the vehicle logic. *)
Theorem C93_outputs_partial :
  forall c tick m0 es, real_channels es ->
    exists k, car_run c tick m0 es = Some k /\
      (forall ch, 0 <= ch < 6 ->
         power k ch = last_request 6 ch (power_requests es) false /\
         nth (Z.to_nat ch) (pw_state (k_out k)) false = power k ch) /\
      k_ecu k = ecu_run c tick m0 (flat_map ecu_part es) /\
      error_output k = e_pin (k_ecu k) /\
      led k = Z.odd (blinks es / 100).
Proof.
  intros c tick m0 es RC. destruct (run_total c tick m0 es RC) as (k & R & O). exists k.
  split; [exact R|]. destruct O as [A L B C D F]. repeat split; auto; destruct (B ch H); congruence.
Qed.
Print Assumptions C93_outputs_partial.

(** The driver's journey of the README needs no PC: power on, brake and button. But
    without one no channel is ever switched on, whatever the driver does: inverter,
    battery management, wheel sensors and dashboard have no supply, also in a run
    in which the machine has reached the drive state. *)
Theorem C93_no_power_without_pc_refuted :
  (forall c tick m0 es k ch, pc_free es -> car_run c tick m0 es = Some k -> 0 <= ch < 6 ->
     power k ch = false) /\
  exists es k, pc_free es /\ car_run default_config 10 shipped_vsm es = Some k /\
    state_of k = StActiveForward.
Proof.
  split.
  - intros c tick m0 es k ch P R H. pose proof (pc_free_requests es P) as E.
    destruct (run_outs c tick m0 es k (real_when_none es E) R) as [_ _ B _ _ _].
    destruct (B ch H) as [-> _]. now rewrite E.
  - destruct (run_total default_config 10 shipped_vsm (map CarEcu drive)) as (k & R & O).
    + apply real_when_none. vm_compute. reflexivity.
    + exists (map CarEcu drive), k. split; [|split; [exact R|]].
      * intros ev I. apply in_map_iff in I. destruct I as (x & <- & I).
        assert (F : forallb (fun x => negb (match x with EvPcEcu _ => true | _ => false end)) drive = true)
          by (vm_compute; reflexivity).
        rewrite forallb_forall in F. specialize (F x I). destruct x; auto. discriminate.
      * unfold state_of. rewrite (oc_ecu _ _ _ _ _ O). vm_compute. reflexivity.
Qed.
Print Assumptions C93_no_power_without_pc_refuted.

(** The LED does not show the state: it depends on nothing but the number of
    activations of the watchdog task, and ready, drive and fault look the same. *)
Theorem C93_state_not_shown_refuted :
  (forall c tick m0 es c' tick' m0' es' k k', real_channels es -> real_channels es' ->
     car_run c tick m0 es = Some k -> car_run c' tick' m0' es' = Some k' ->
     blinks es = blinks es' -> led k = led k') /\
  exists es1 es2 es3 k1 k2 k3,
    car_run default_config 10 shipped_vsm es1 = Some k1 /\
    car_run default_config 10 shipped_vsm es2 = Some k2 /\
    car_run default_config 10 shipped_vsm es3 = Some k3 /\
    state_of k1 = StLvReady /\ state_of k2 = StActiveForward /\ state_of k3 = StFault /\
    led k1 = led k2 /\ led k2 = led k3.
Proof.
  split.
  - intros c tick m0 es c' tick' m0' es' k k' R R' H H' E.
    rewrite (oc_led _ _ _ _ _ (run_outs _ _ _ _ _ R H)), (oc_led _ _ _ _ _ (run_outs _ _ _ _ _ R' H')).
    now rewrite E.
  - assert (Q : forall es, forallb (fun x => match power_request x with [] => true | _ => false end) es = true ->
                real_channels es).
    { intros es F. apply real_when_none. induction es as [|x es IH]; [reflexivity|].
      cbn [forallb] in F. apply andb_prop in F. destruct F as [F1 F2].
      unfold power_requests. cbn [flat_map]. fold (power_requests es). rewrite (IH F2).
      now destruct (power_request x). }
    set (to_fault := drive ++ concat (map (fun i => step i 3) (repeat bad_in 11))).
    set (to_ready := concat (map (fun i => step i 3) (firstn 2 to_forward_h))).
    destruct (run_total default_config 10 shipped_vsm (map CarEcu to_ready)) as (k1 & R1 & O1);
      [apply Q; vm_compute; reflexivity|].
    destruct (run_total default_config 10 shipped_vsm (map CarEcu drive)) as (k2 & R2 & O2);
      [apply Q; vm_compute; reflexivity|].
    destruct (run_total default_config 10 shipped_vsm (map CarEcu to_fault)) as (k3 & R3 & O3);
      [apply Q; vm_compute; reflexivity|].
    exists (map CarEcu to_ready), (map CarEcu drive), (map CarEcu to_fault), k1, k2, k3.
    split; [exact R1|]. split; [exact R2|]. split; [exact R3|].
    unfold state_of. rewrite (oc_ecu _ _ _ _ _ O1), (oc_ecu _ _ _ _ _ O2), (oc_ecu _ _ _ _ _ O3).
    rewrite (oc_led _ _ _ _ _ O1), (oc_led _ _ _ _ _ O2), (oc_led _ _ _ _ _ O3).
    repeat split; vm_compute; reflexivity.
Qed.
Print Assumptions C93_state_not_shown_refuted.

(** A fault does not take the supply from the inverter: whatever happens, a channel
    keeps its level until the PC asks for another. *)
Theorem C93_fault_keeps_power_refuted :
  (forall c tick m0 es es' k k' ch, real_channels es -> power_requests es' = [] ->
     car_run c tick m0 es = Some k -> car_run c tick m0 (es ++ es') = Some k' -> 0 <= ch < 6 ->
     power k' ch = power k ch) /\
  exists es k, car_run default_config 10 shipped_vsm es = Some k /\
    state_of k = StFault /\ power k inverter_channel = true.
Proof.
  split.
  - intros c tick m0 es es' k k' ch R N H H' C.
    assert (E : power_requests (es ++ es') = power_requests es).
    { unfold power_requests in *. rewrite flat_map_app, N. apply app_nil_r. }
    assert (R' : real_channels (es ++ es')) by (unfold real_channels; rewrite E; exact R).
    destruct (oc_power _ _ _ _ _ (run_outs _ _ _ _ _ R H) ch C) as [-> _].
    destruct (oc_power _ _ _ _ _ (run_outs _ _ _ _ _ R' H') ch C) as [-> _]. now rewrite E.
  - set (to_fault := drive ++ concat (map (fun i => step i 3) (repeat bad_in 11))).
    set (es := CarPc (SetPowerChannel 2 true) true :: map CarEcu to_fault).
    assert (Q : power_requests es = [(2, true, true)]) by (vm_compute; reflexivity).
    assert (R : real_channels es).
    { unfold real_channels. rewrite Q. constructor; [cbn; lia|constructor]. }
    destruct (run_total default_config 10 shipped_vsm es R) as (k & H & O).
    exists es, k. split; [exact H|]. unfold state_of. rewrite (oc_ecu _ _ _ _ _ O).
    destruct (oc_power _ _ _ _ _ O 2 ltac:(lia)) as [P _]. unfold inverter_channel. rewrite P, Q.
    split; vm_compute; reflexivity.
Qed.
Print Assumptions C93_fault_keeps_power_refuted.

Example C93_nonvacuous :
  let es := [CarPc (SetPowerChannel 2 true) true; CarPc (SetPowerChannel 3 true) true;
             CarPc (SetPowerChannel 5 true) false; CarDebug] ++ repeat CarBlink 100 ++
            [CarPc (SetPowerChannel 3 false) true; CarPc (SetPowerChannel 9 true) true] in
  real_channels es /\
  match car_run default_config 10 shipped_vsm es with
  | Some k => map (power k) [0; 1; 2; 3; 4; 5] = [false; false; true; false; false; false] /\ led k = true
  | None => False
  end.
Proof.
  split; [unfold real_channels; cbn; repeat constructor; cbn; lia|]. vm_compute. auto.
Qed.
