(** C24-C28: from ADC conversions to the published pedal and brake values. *)
From Coq Require Import Reals Psatz.
From Verif.Base Require Import Words F32 F32Real.
From Verif.Model Require Import VehicleState Adc DiscreteSense.
From Verif.Spec Require Import AdcSpec SenseSpec.
From Verif.Proof Require Import AdcProof F32Facts SenseProof.
Open Scope Z_scope.

(** ** C24 *)
(** [adc_start n] is the state in which ADC_Init leaves the driver. *)
Theorem C24_init_state :
  forall hw n a, ADC_Init hw n = (ADC_STATUS_OK, Some a) -> a = adc_start n /\ n <= 16.
Proof.
  intros hw n a. unfold ADC_Init, ADC_MAX_NUM_CHANNELS. rewrite Z.gtb_ltb.
  destruct (hw_dependsOk hw); [simpl|discriminate].
  destruct (Z.ltb_spec 16 n); [discriminate|].
  destruct (negb _); [discriminate|]. destruct (negb _); [discriminate|].
  destruct (negb _); [discriminate|]. destruct (hw_startOk hw); [|discriminate].
  intros [= <-]. split; [reflexivity|assumption].
Qed.
Print Assumptions C24_init_state.

(** After every execution that respects the hardware contract [timely], a read
    of channel [ch] gives "not ready" before the first completed scan and
    afterwards the value of [ch] in the last scan whose completion interrupt
    was served; at most one scan finished since then. *)
Theorem C24_read_is_latest_completed_scan :
  forall n tr, 1 <= n <= 16 -> timely n tr ->
  exists a, adc_run (adc_start n) tr = Some a /\
    (forall ch, 0 <= ch < n -> ADC_Get a ch = Some (expected_read n tr ch)) /\
    n_cplt tr <= n_samples tr / n <= n_cplt tr + 1.
Proof. exact timely_read_value. Qed.
Print Assumptions C24_read_is_latest_completed_scan.

(** Five channels (odd): two scans and a half, with the second completion
    interrupt served late, after the next scan has begun. *)
Definition ex_scans : list adc_event :=
  [Sample 10; Sample 11; HalfIsr; Sample 12; Read 3; Sample 13; Sample 14; CpltIsr;
   Sample 20; Sample 21; Sample 22; HalfIsr; Sample 23; Sample 24; Read 0;
   Sample 30; Sample 31; CpltIsr; Read 4].
Example C24_hypotheses_met : timely 5 ex_scans.
Proof.
  unfold ex_scans.
  repeat match goal with
  | |- timely _ [] => constructor
  | |- timely ?n ?l =>
      let p := eval cbv in (removelast l) in
      let z := eval cbv in (last l HalfIsr) in
      change (timely n (p ++ [z])); constructor
  | |- _ \/ _ => right
  | |- _ /\ _ => split
  | |- _ => intros; vm_compute in *; congruence
  end.
Qed.
Example C24_example_value :
  expected_read 5 ex_scans 3 = (ADC_STATUS_OK, 23) /\ expected_read 5 ex_scans 0 = (ADC_STATUS_OK, 20).
Proof. vm_compute. auto. Qed.

(** The contract is needed: with a completion interrupt served too late the
    reader sees a scan that never took place (two words of one scan, the last of
    the next). *)
Theorem C24_late_interrupt_tears_refuted :
  exists n tr a, 1 <= n <= 16 /\ ~ timely n tr /\ adc_run (adc_start n) tr = Some a /\
    ADC_Get a 0 = Some (ADC_STATUS_OK, 10) /\ ADC_Get a 1 = Some (ADC_STATUS_OK, 21) /\
    samples tr = [10; 11; 20; 21].
Proof.
  exists 2, [Sample 10; HalfIsr; Sample 11; Sample 20; Sample 21; CpltIsr].
  eexists. split; [lia|]. split.
  - intros T.
    apply (timely_prefix 2 [Sample 10; HalfIsr; Sample 11; Sample 20; Sample 21] CpltIsr) in T.
    destruct (timely_inv 2 _ ltac:(lia) T) as (a & R & I).
    pose proof (iv_wc _ _ _ I) as W. vm_compute in W. now apply W.
  - split; [reflexivity|]. repeat split.
Qed.
Print Assumptions C24_late_interrupt_tears_refuted.

(** ** C25 *)
(** Whatever the order of events, as long as nobody reads channel 16 of 16, no
    access leaves a buffer; channel numbers above the channel count are refused. *)
Theorem C25_channel_check_partial :
  forall n tr, 1 <= n <= 16 ->
    (forall ch, In (Read ch) tr -> 0 <= ch /\ ~ (n = 16 /\ ch = 16)) ->
    exists a, adc_run (adc_start n) tr = Some a /\
      (forall ch, n < ch -> ADC_Get a ch = Some (ADC_STATUS_ERROR_INVALID_CHANNEL, 0)) /\
      (forall ch, 0 <= ch < n -> exists r, ADC_Get a ch = Some r /\
          (fst r = ADC_STATUS_OK \/ fst r = ADC_STATUS_ERROR_DATANOTREADY)).
Proof.
  intros n tr Hn Hr. destruct (run_sane n tr _ Hn (start_sane n Hn) Hr) as (a & R & Sa).
  exists a. split; [exact R|]. split.
  - intros ch Hc. unfold ADC_Get. rewrite (sn_n _ _ Sa), Z.gtb_ltb.
    destruct (Z.ltb_spec n ch); [reflexivity|lia].
  - intros ch Hc. rewrite (get_lt n a ch Sa) by lia.
    eexists. split; [reflexivity|]. destruct (inactive_valid a); simpl; auto.
Qed.
Print Assumptions C25_channel_check_partial.

(** The check at adc.c:143 accepts the channel number equal to the count: the
    read succeeds with a value nobody converted... *)
Theorem C25_missing_channel_accepted_refuted :
  exists n tr a, 1 <= n <= 16 /\ timely n tr /\ adc_run (adc_start n) tr = Some a /\
    ADC_Get a n = Some (ADC_STATUS_OK, 0) /\ ~ In 0 (samples tr).
Proof.
  exists 1, ([] ++ [Sample 7] ++ [CpltIsr]). eexists. split; [lia|]. split.
  - rewrite app_assoc. apply timely_cplt; [|left; lia|vm_compute; intro; discriminate].
    apply timely_sample; [constructor| |]; vm_compute; auto; intro; discriminate.
  - split; [reflexivity|]. split; [reflexivity|]. simpl. intros [E|[]]. discriminate.
Qed.
Print Assumptions C25_missing_channel_accepted_refuted.

(** ... and with all 16 channels in use it reads past the end of the buffer. *)
Fixpoint ramp (k : nat) (v : Z) : list adc_event :=
  match k with O => [] | S k => Sample v :: ramp k (v + 1) end.
Theorem C25_read_outside_buffer_refuted :
  exists tr a, adc_run (adc_start 16) tr = Some a /\
    n_samples tr = 16 /\ n_cplt tr = 1 /\ ADC_Get a 16 = None.
Proof.
  exists (ramp 8 100 ++ [HalfIsr] ++ ramp 8 108 ++ [CpltIsr]).
  eexists. split; [vm_compute; reflexivity|]. repeat split.
Qed.
Print Assumptions C25_read_outside_buffer_refuted.

(** ** C26 *)
Theorem C26_saturated_in_range :
  forall lower upper raw, is_u16 lower -> is_u16 upper -> is_u16 raw -> lower <> upper ->
    let x := ADC_ApplyScaling (mkScaling lower upper true) raw in
    fle f_zero x = true /\ fle x f_one = true.
Proof. intros. apply unit_fle; now apply scale_range. Qed.
Print Assumptions C26_saturated_in_range.

Theorem C26_monotone :
  forall lower upper sat raw1 raw2,
    is_u16 lower -> is_u16 upper -> is_u16 raw1 -> is_u16 raw2 -> lower < upper -> raw1 <= raw2 ->
    fle (ADC_ApplyScaling (mkScaling lower upper sat) raw1)
        (ADC_ApplyScaling (mkScaling lower upper sat) raw2) = true.
Proof. exact scale_mono. Qed.
Print Assumptions C26_monotone.

Theorem C26_monotone_inverted_sensor :
  forall lower upper sat raw1 raw2,
    is_u16 lower -> is_u16 upper -> is_u16 raw1 -> is_u16 raw2 -> upper < lower -> raw1 <= raw2 ->
    fle (ADC_ApplyScaling (mkScaling lower upper sat) raw2)
        (ADC_ApplyScaling (mkScaling lower upper sat) raw1) = true.
Proof. exact scale_anti. Qed.
Print Assumptions C26_monotone_inverted_sensor.

Theorem C26_end_points :
  forall lower upper sat, is_u16 lower -> is_u16 upper -> lower <> upper ->
    FR (ADC_ApplyScaling (mkScaling lower upper sat) lower) = 0%R /\
    FR (ADC_ApplyScaling (mkScaling lower upper sat) upper) = 1%R.
Proof. exact scale_ends. Qed.
Print Assumptions C26_end_points.

(** The value is the exact ratio, rounded once, and cut to [0,1] on request. *)
Theorem C26_correctly_rounded :
  forall lower upper sat raw, is_u16 lower -> is_u16 upper -> is_u16 raw -> lower <> upper ->
    fin (ADC_ApplyScaling (mkScaling lower upper sat) raw) /\
    FR (ADC_ApplyScaling (mkScaling lower upper sat) raw) =
      (if sat then clip (rnd (linear lower upper raw)) else rnd (linear lower upper raw)).
Proof. exact scale_R. Qed.
Print Assumptions C26_correctly_rounded.

Example C26_hypotheses_met :
  is_u16 0 /\ is_u16 4095 /\ 0 < 4095 /\
  ADC_ApplyScaling (mkScaling 0 4095 true) 5000 = f_one /\
  flt (ADC_ApplyScaling (mkScaling 0 4095 true) 1000) (ADC_ApplyScaling (mkScaling 0 4095 true) 1001) = true.
Proof. repeat split; try lia; vm_compute; reflexivity. Qed.

(** A calibration with equal ends is not refused and gives NaN, which the
    saturation lets through. *)
Theorem C26_degenerate_calibration_refuted :
  exists lower raw, is_u16 lower /\ is_u16 raw /\
    let x := ADC_ApplyScaling (mkScaling lower lower true) raw in
    f_isnan x = true /\ fle f_zero x = false /\ fle x f_one = false.
Proof. exists 2000, 2000. repeat split; try lia; vm_compute; reflexivity. Qed.
Print Assumptions C26_degenerate_calibration_refuted.

(** ** C27 *)
(** [inputs_after] gives every published field from the most recent cycle that
    read it; nothing else changes but the button. *)
Theorem C27_published_from_one_cycle :
  forall d h s,
    ds_run d s h = set_dash (set_inputs s (inputs_after d h (vs_inputs s)))
      (mkDash (newest (fun _ => true) cy_button (d_buttonPressed (vs_dash s)) h) (d_ledOn (vs_dash s))).
Proof. exact ds_frame. Qed.
Print Assumptions C27_published_from_one_cycle.

(** In particular, right after a cycle that read both channels all five pedal
    values are of that cycle. *)
Theorem C27_successful_cycle :
  forall d h s c, cy_lock c = true -> fst (cy_A c) = ADC_STATUS_OK -> fst (cy_B c) = ADC_STATUS_OK ->
    let i := vs_inputs (ds_run d s (h ++ [c])) in
    i_accelRawA i = snd (cy_A c) /\ i_accelRawB i = snd (cy_B c) /\
    i_accelA i = ADC_ApplyScaling (ds_accelA d) (snd (cy_A c)) /\
    i_accelB i = ADC_ApplyScaling (ds_accelB d) (snd (cy_B c)) /\
    i_accel i = fmul (f_lit 1 2) (fadd (i_accelA i) (i_accelB i)) /\
    i_accelValid i = true.
Proof.
  intros d h s c L A B i. unfold i. rewrite ds_refine.
  unfold inputs_after. cbn [i_accelRawA i_accelRawB i_accelA i_accelB i_accel i_accelValid].
  rewrite !newest_snoc, L. unfold read_both, read_A, read_B. rewrite A, B. repeat split.
Qed.
Print Assumptions C27_successful_cycle.

Theorem C27_average_changes_only_when_both_read :
  forall d h s c,
    cy_lock c = false \/ fst (cy_A c) <> ADC_STATUS_OK \/ fst (cy_B c) <> ADC_STATUS_OK ->
    i_accel (vs_inputs (ds_run d s (h ++ [c]))) = i_accel (vs_inputs (ds_run d s h)).
Proof.
  intros d h s c H. rewrite !ds_refine. unfold inputs_after. cbn [i_accel].
  rewrite newest_snoc. unfold read_both, read_A, read_B, ADC_STATUS_OK in *.
  destruct (cy_lock c), (Z.eqb_spec (fst (cy_A c)) 0), (Z.eqb_spec (fst (cy_B c)) 0); simpl; auto.
  destruct H as [H|[H|H]]; [discriminate|now elim H|now elim H].
Qed.
Print Assumptions C27_average_changes_only_when_both_read.

Theorem C27_average_in_range :
  forall c h,
    let calA := ci_calA (cf_inputs c) in
    let calB := ci_calB (cf_inputs c) in
    is_u16 (c_rawLower calA) -> is_u16 (c_rawUpper calA) -> c_rawLower calA <> c_rawUpper calA ->
    is_u16 (c_rawLower calB) -> is_u16 (c_rawUpper calB) -> c_rawLower calB <> c_rawUpper calB ->
    Forall cycle_u16 h ->
    let accel := i_accel (vs_inputs (ds_run (ds_from_config c) zero_vstate h)) in
    fle f_zero accel = true /\ fle accel f_one = true.
Proof.
  intros c h calA calB A1 A2 A3 B1 B2 B3 F accel. unfold accel. rewrite ds_refine.
  unfold inputs_after. cbn [i_accel]. unfold newest.
  destruct (find _ (rev h)) as [cy|] eqn:E.
  - apply find_some in E. destruct E as [I _]. apply in_rev in I.
    rewrite Forall_forall in F. destruct (F _ I) as (RA & RB & _).
    assert (Ga := scale_range _ _ _ A1 A2 RA A3). assert (Gb := scale_range _ _ _ B1 B2 RB B3).
    destruct Ga as [Fa Va], Gb as [Fb Vb].
    destruct (average_range _ _ Fa Fb Va Vb) as [Fm Vm]. now apply unit_fle.
  - split; reflexivity.
Qed.
Print Assumptions C27_average_in_range.

Example C27_shipped_calibration :
  ci_calA (cf_inputs default_config) = mkCal 0 4095 /\ ci_calB (cf_inputs default_config) = mkCal 0 4095.
Proof. split; reflexivity. Qed.
Example C27_example :
  let h := [mkCycle (0, 1024) (0, 3072) (0, 0) (8, 0) false true; mkCycle (0, 4000) (8, 0) (0, 0) (0, 9) true true] in
  Forall cycle_u16 h /\
  i_accelRawA (vs_inputs (ds_run (ds_from_config default_config) zero_vstate h)) = 4000 /\
  i_accelRawB (vs_inputs (ds_run (ds_from_config default_config) zero_vstate h)) = 3072.
Proof.
  split; [|vm_compute; auto]. apply Forall_cons; [|apply Forall_cons; [|apply Forall_nil]];
  unfold cycle_u16, is_u16; simpl; lia.
Qed.

(** ** C28 *)
(** The flag is not cleared when a later cycle fails to read the pedal: it stays
    true while the published value is arbitrarily old. *)
Theorem C28_valid_survives_failures_refuted :
  forall d c0, cy_lock c0 = true -> fst (cy_A c0) = ADC_STATUS_OK -> fst (cy_B c0) = ADC_STATUS_OK ->
  forall fails, Forall (fun c => fst (cy_A c) <> ADC_STATUS_OK /\ fst (cy_B c) <> ADC_STATUS_OK) fails ->
    let i := vs_inputs (ds_run d zero_vstate (c0 :: fails)) in
    i_accelValid i = true /\ i_accel i = average d c0 /\ i_accelRawA i = snd (cy_A c0).
Proof.
  intros d c0 L A B fails F i. unfold i. rewrite ds_refine. unfold inputs_after.
  cbn [i_accelValid i_accel i_accelRawA].
  assert (N : forall X good (f : ds_cycle -> X) p, good c0 = true ->
     (forall c, fst (cy_A c) <> ADC_STATUS_OK -> good c = false) -> newest good f p (c0 :: fails) = f c0).
  { intros X good f p G0 Gb. clear i. induction fails as [|c fails IH] using rev_ind.
    - unfold newest. simpl. now rewrite L, G0.
    - apply Forall_app in F. destruct F as [F1 F2]. apply Forall_inv in F2.
      rewrite app_comm_cons, newest_snoc. rewrite (Gb c), andb_false_r by apply F2. now apply IH. }
  assert (GA : forall c, fst (cy_A c) <> ADC_STATUS_OK -> read_A c = false)
    by (intros c H; unfold read_A; now apply Z.eqb_neq).
  assert (GB : forall c, fst (cy_A c) <> ADC_STATUS_OK -> read_both c = false)
    by (intros c H; unfold read_both; now rewrite GA).
  rewrite !N; auto; unfold read_both, read_A, read_B; now rewrite ?A, ?B.
Qed.
Print Assumptions C28_valid_survives_failures_refuted.

(** What does hold: the flag is true exactly when some cycle has read both
    channels, and then the value is that of the latest such cycle. *)
Theorem C28_valid_means_ever_read_partial :
  forall d h,
    let i := vs_inputs (ds_run d zero_vstate h) in
    (i_accelValid i = true <-> exists c, In c h /\ cy_lock c = true /\ read_both c = true) /\
    (i_accelValid i = true -> exists before c after, h = before ++ c :: after /\
        i_accel i = average d c /\ cy_lock c = true /\ read_both c = true /\
        forall c', In c' after -> cy_lock c' && read_both c' = false).
Proof.
  intros d h i. unfold i. rewrite ds_refine. unfold inputs_after. cbn [i_accelValid i_accel].
  induction h as [|c h IH] using rev_ind.
  - unfold newest. simpl. split; [split; [discriminate|intros (c & [] & _)]|discriminate].
  - rewrite !newest_snoc. destruct (cy_lock c && read_both c) eqn:E.
    + apply andb_prop in E. destruct E as [E1 E2]. split.
      * split; [|auto]. intros _. exists c. split; [apply in_or_app; right; now left|auto].
      * intros _. exists h, c, []. repeat split; auto. intros c' [].
    + destruct IH as [[I1 I2] I3]. split.
      * split.
        -- intros V. destruct (I1 V) as (c' & Hc & G). exists c'. split; [apply in_or_app; now left|auto].
        -- intros (c' & Hc & G1 & G2). apply in_app_or in Hc. destruct Hc as [Hc|[->|[]]].
           ++ apply I2. eauto.
           ++ rewrite G1, G2 in E. discriminate.
      * intros V. destruct (I3 V) as (b & c' & a & -> & V1 & V2 & V3 & V4).
        exists b, c', (a ++ [c]). rewrite <- app_assoc. repeat split; auto.
        intros c2 Hc. apply in_app_or in Hc. destruct Hc as [Hc|[<-|[]]]; auto.
Qed.
Print Assumptions C28_valid_means_ever_read_partial.
Example C28_hypotheses_met :
  let h := [mkCycle (0, 1024) (0, 3072) (0, 0) (8, 0) false true; mkCycle (8, 0) (8, 0) (0, 0) (0, 9) true true] in
  i_accelValid (vs_inputs (ds_run (ds_from_config default_config) zero_vstate h)) = true.
Proof. reflexivity. Qed.
