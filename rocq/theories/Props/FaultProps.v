(** C01-C04: the fault monitor. *)
From Verif.Model Require Import FaultManager.
From Verif.Spec Require Import FaultSpec.
From Verif.Proof Require Import FaultProof.

(** A healthy snapshot for the shipped configuration as the code reads it. *)
Definition healthy : vstate :=
  set_battery zero_vstate
    (mkBattery f_zero f_zero f_zero f_zero 0 0 0 0 f_zero f_zero (f_of_Z 1500) false 0 0 0).

(** Accelerator channels disagreeing by the full stroke. *)
Definition disagreeing : vstate :=
  set_inputs healthy (mkInputs f_zero f_one f_zero 0 0 true f_zero f_zero 0 0).

Definition shipped_fm : fm_state := mkFM 0 0 10 0 10 0 10 0 10 0 10 0 0 0 10.

Example shipped_fm_is_init : fm_init default_config 10 = Some shipped_fm.
Proof. reflexivity. Qed.

Example shipped_cfg_ok : cfg_ok default_config 10.
Proof. repeat split; simpl; lia. Qed.

(** ** C01 *)
(** From any fault-monitor state, configuration and past: once a step has
    reported FAULT, every later step that gets a snapshot reports FAULT, and a
    step that does not reports LV_ERROR; never "no fault". *)
Theorem C01_fault_report_latches :
  forall c s past x future,
    snd (fm_step c (fst (fm_run c s past)) x) = FS_Fault ->
    Forall2 (fun y r => r = match y with Some _ => FS_Fault | None => FS_LvError end)
            future
            (snd (fm_run c (fst (fm_run c s (past ++ [x]))) future)).
Proof. intros. apply latch_reports. now apply last_report_fault. Qed.
Print Assumptions C01_fault_report_latches.

Theorem C01_fault_codes_latch :
  forall c s past future bit,
    Z.testbit (fm_faults (fst (fm_run c s past))) bit = true ->
    Z.testbit (fm_faults (fst (fm_run c s (past ++ future)))) bit = true.
Proof. intros. rewrite fm_run_app. now apply fm_run_keep. Qed.
Print Assumptions C01_fault_codes_latch.

Example C01_nonvacuous :
  snd (fm_step default_config
        (fst (fm_run default_config shipped_fm (repeat (Some disagreeing) 10)))
        (Some disagreeing)) = FS_Fault
  /\ snd (fm_run default_config
           (fst (fm_run default_config shipped_fm
                  (repeat (Some disagreeing) 10 ++ [Some disagreeing])))
           [Some healthy; None; Some healthy]) = [FS_Fault; FS_LvError; FS_Fault].
Proof. split; vm_compute; reflexivity. Qed.

(** ** C02 *)
(** For every configuration, tick rate and history: a fault code is set exactly
    when its condition held in (timeout/tick)+1 consecutive snapshots. *)
Theorem C02_debounce_exact :
  forall c tick s h k,
    cfg_ok c tick ->
    (forall k, 0 <= tolerance c tick k < 65535) ->
    fm_init c tick = Some s ->
    (Z.testbit (fm_faults (fst (fm_run c s h))) (fault_bit k) = true <->
     sustained (fault_cond c k) (tolerance c tick k) (evaluated h)).
Proof. exact fault_bit_exact. Qed.
Print Assumptions C02_debounce_exact.

(** At the shipped tick of 10 ms the side condition always holds. *)
Theorem C02_debounce_exact_shipped_tick :
  forall c s h k,
    cfg_ok c 10 -> fm_init c 10 = Some s ->
    (Z.testbit (fm_faults (fst (fm_run c s h))) (fault_bit k) = true <->
     sustained (fault_cond c k) (tolerance c 10 k) (evaluated h)).
Proof. intros c s h k Hc. exact (fault_bit_exact c 10 s h k Hc (tol_small_10 c Hc)). Qed.
Print Assumptions C02_debounce_exact_shipped_tick.

(** The report at a step, in the same terms. *)
Theorem C02_report_exact :
  forall c tick s h d,
    cfg_ok c tick ->
    (forall k, 0 <= tolerance c tick k < 65535) ->
    fm_init c tick = Some s ->
    let r := snd (fm_step c (fst (fm_run c s h)) (Some d)) in
    (r = FS_Fault <->
       exists k, sustained (fault_cond c k) (tolerance c tick k) (evaluated h ++ [d])) /\
    (r = FS_NoFault <->
       forall k, ~ sustained (fault_cond c k) (tolerance c tick k) (evaluated h ++ [d])).
Proof. exact report_exact. Qed.
Print Assumptions C02_report_exact.

Example C02_nonvacuous :
  Z.testbit (fm_faults (fst (fm_run default_config shipped_fm
     (repeat (Some disagreeing) 10)))) 9 = false /\
  Z.testbit (fm_faults (fst (fm_run default_config shipped_fm
     (repeat (Some disagreeing) 10 ++ [None; Some disagreeing])))) 9 = true /\
  Z.testbit (fm_faults (fst (fm_run default_config shipped_fm
     (repeat (Some disagreeing) 10 ++ Some healthy :: repeat (Some disagreeing) 10)))) 9 = false.
Proof. repeat split; vm_compute; reflexivity. Qed.

(** The side condition is needed: with the largest time-out and a 1 ms tick the
    16-bit counter wraps and the fault is never recorded, however long the
    condition lasts. *)
Definition longest_timeout : config :=
  let c := default_config in let i := cf_inputs c in
  mkConfig (mkCfgInputs (ci_calA i) (ci_calB i) (ci_consistencyLimit i) (ci_brakeFront i)
              (ci_brakeRear i) (ci_abuseEnabled i) (ci_abuseAccel i) (ci_abuseBrake i)
              65535 (ci_numTeeth i))
           (cf_bms c) (cf_inverter c) (cf_hvActiveStateWait c) (cf_hvChargeTimeout c).

Theorem C02_longest_timeout_refuted :
  exists s d,
    cfg_ok longest_timeout 1 /\
    fm_init longest_timeout 1 = Some s /\
    fault_cond longest_timeout AccelRange d = true /\
    forall n, Z.testbit (fm_faults (fst (fm_run longest_timeout s (repeat (Some d) n))))
                        (fault_bit AccelRange) = false.
Proof.
  exists (mkFM 0 0 65535 0 65535 0 65535 0 65535 0 65535 0 0 0 100).
  exists (set_inputs healthy (mkInputs f_zero f_zero f_zero 5000 0 true f_zero f_zero 0 0)).
  split; [repeat split; simpl; lia|]. split; [reflexivity|]. split; [reflexivity|].
  intros n. now apply never_trips.
Qed.
Print Assumptions C02_longest_timeout_refuted.

(** ** C03 *)
(** Every bit in the fault word is one of the documented codes and its
    documented condition was present in some snapshot. *)
Theorem C03_codes_mean_the_table :
  forall c tick s h i,
    cfg_ok c tick ->
    (forall k, 0 <= tolerance c tick k < 65535) ->
    fm_init c tick = Some s ->
    Z.testbit (fm_faults (fst (fm_run c s h))) i = true ->
    exists k, i = fault_bit k /\
      exists d, In d (evaluated h) /\ fault_cond c k d = true.
Proof. exact fault_bits_only. Qed.
Print Assumptions C03_codes_mean_the_table.

Example C03_nonvacuous :
  fm_faults (fst (fm_run default_config shipped_fm (repeat (Some disagreeing) 11))) = 2 ^ 9.
Proof. vm_compute. reflexivity. Qed.

(** ** C04 *)
(** Partial: a documented fault that has a check is reported once its condition
    has persisted for (timeout/tick)+1 snapshots. Missing: the README also lists
    inverter, CAN time-out and brake-disagreement faults, see below. *)
Theorem C04_checked_faults_detected_partial :
  forall c tick s h k w d,
    cfg_ok c tick ->
    (forall k, 0 <= tolerance c tick k < 65535) ->
    fm_init c tick = Some s ->
    Z.of_nat (length w) = tolerance c tick k ->
    forallb (fault_cond c k) (w ++ [d]) = true ->
    snd (fm_step c (fst (fm_run c s (h ++ map Some w))) (Some d)) = FS_Fault.
Proof.
  intros c tick s h k w d Hc HT Hi L F.
  apply (report_exact c tick s (h ++ map Some w) d Hc HT Hi). exists k.
  exists (evaluated h), (w ++ [d]), [].
  rewrite evaluated_app, app_nil_r, app_length, <- app_assoc. split; [|split; [simpl; lia|exact F]].
  f_equal. f_equal. clear. induction w; simpl; congruence.
Qed.
Print Assumptions C04_checked_faults_detected_partial.

(** An inverter in trouble: every temperature at 150 degC (limits 75 degC),
    600 A on the DC bus, both fault words non-zero, fault state, and no CAN
    traffic at all (the snapshot never changes). *)
Definition inverter_in_trouble : vstate :=
  let h := f_of_Z 150 in
  set_motor
   (set_inverter healthy
     (mkInverter h h h h h f_zero (f_of_Z 600) f_zero f_zero f_zero f_zero f_zero f_zero
        f_zero f_zero f_zero f_zero f_zero f_zero f_zero 7 0 0 0 0 0 4294967295 4294967295))
   (mkMotor h f_zero 0 f_zero f_zero f_zero f_zero).

Theorem C04_every_documented_fault_refuted :
  (forall n, snd (fm_run default_config shipped_fm (repeat (Some inverter_in_trouble) n))
             = repeat FS_NoFault n) /\
  (** brake sensors at opposite ends of their range *)
  (forall n, snd (fm_run default_config shipped_fm
       (repeat (Some (set_inputs healthy
          (mkInputs f_zero f_zero f_zero 0 0 true f_one f_zero 4095 0))) n))
             = repeat FS_NoFault n).
Proof.
  split; intros n; rewrite repeat_no_fault; try reflexivity; vm_compute; reflexivity.
Qed.
Print Assumptions C04_every_documented_fault_refuted.

(** More generally the monitor's reports depend on the driver inputs and the
    battery record only: no inverter, motor or shutdown-circuit data can ever
    raise a fault. *)
Theorem C04_other_data_never_raises_a_fault :
  forall c h h' s,
    Forall2 (fun x x' => match x, x' with
       | Some d, Some d' => vs_inputs d = vs_inputs d' /\ vs_battery d = vs_battery d'
       | None, None => True | _, _ => False end) h h' ->
    fm_run c s h = fm_run c s h'.
Proof. exact fm_run_watched. Qed.
Print Assumptions C04_other_data_never_raises_a_fault.
