(** C80: an ADC reading is a conversion of its channel. *)
From Coq Require Import Lia.
From Verif.Model Require Import AdcHw DiscreteSense.
From Verif.Spec Require Import AdcSpec AdcHwSpec.
From Verif.Proof Require Import AdcHwProof.

(** For any configuration of the stream, whatever is converted and whenever the
    interrupts are served: a channel whose word the transfer does not reach reads
    0 with status OK, or "not ready". *)
Theorem C80_unfilled_channels_zero :
  forall c dds n ch r,
    dc_size c = 1 \/ dc_size c = 2 \/ dc_size c = 4 -> 1 <= n <= 16 -> words_filled c n <= ch < n ->
    can_read c dds n ch r ->
    r = (ADC_STATUS_OK, 0) \/ r = (ADC_STATUS_ERROR_DATANOTREADY, 0).
Proof.
  intros c dds n ch r G N C (tr & s & R & E).
  destruct (unreached_zero c dds n tr ch G N C) as (s' & R' & D).
  assert (s' = s) by congruence. subst s'. destruct D as [D|D]; [left|right]; congruence.
Qed.
Print Assumptions C80_unfilled_channels_zero.

(** The pedal and brake channels are such channels: both with the configuration
    the code asks for (halfwords into an array of words) and with the one the
    stream really has after the shipped start-up (C79). They are never measured. *)
Theorem C80_pedals_never_measured_refuted :
  forall c ch r,
    c = dma_intended S_ADC1 \/ c = hw_stream (bring_up mx_order) S_ADC1 ->
    In ch [THROTTLE_1; THROTTLE_2; BRAKE_FRONT; BRAKE_REAR] ->
    can_read c SHIPPED_DDS SHIPPED_CHANNELS ch r ->
    r = (ADC_STATUS_OK, 0) \/ r = (ADC_STATUS_ERROR_DATANOTREADY, 0).
Proof.
  intros c ch r C H R. apply (C80_unfilled_channels_zero c SHIPPED_DDS SHIPPED_CHANNELS ch r); auto.
  - destruct C as [-> | ->]; [right; left|left]; reflexivity.
  - unfold SHIPPED_CHANNELS. lia.
  - destruct C as [-> | ->]; [change (words_filled _ _) with 6|change (words_filled _ _) with 1];
      cbn [In] in H; unfold SHIPPED_CHANNELS, THROTTLE_1, THROTTLE_2, BRAKE_FRONT, BRAKE_REAR in *; lia.
Qed.
Print Assumptions C80_pedals_never_measured_refuted.

(** Such readings do occur, with status OK: twelve conversions of full scale. *)
Definition full_scale : list ah_event := repeat (Conv 4095) 6 ++ [Irq] ++ repeat (Conv 4095) 6 ++ [Irq].
Example C80_ex_ok :
  can_read (dma_intended S_ADC1) SHIPPED_DDS SHIPPED_CHANNELS THROTTLE_1 (ADC_STATUS_OK, 0) /\
  can_read (hw_stream (bring_up mx_order) S_ADC1) SHIPPED_DDS SHIPPED_CHANNELS BRAKE_REAR (ADC_STATUS_OK, 0).
Proof.
  split; exists full_scale; eexists; (split; [vm_compute; reflexivity|vm_compute; reflexivity]).
Qed.

(** So the published pedal position and brake pressures are zero for ever,
    whatever the driver does; and after the first scan the zero is marked valid. *)
Theorem C80_published_pedal_zero_refuted :
  forall c h,
    c = dma_intended S_ADC1 \/ c = hw_stream (bring_up mx_order) S_ADC1 ->
    Forall (shipped_cycle c) h ->
    all_zero (vs_inputs (ds_run (ds_from_config default_config) zero_vstate h)).
Proof.
  intros c h C F. set (d := ds_from_config default_config).
  assert (G : forall s, all_zero (vs_inputs s) -> all_zero (vs_inputs (ds_run d s h))).
  { induction F as [|y h (RA & RB & RF & RR) F IH]; intros s Z; [exact Z|].
    unfold ds_run. cbn [fold_left]. apply IH. clear IH F.
    apply (C80_pedals_never_measured_refuted c) in RA; [|exact C|cbn; tauto].
    apply (C80_pedals_never_measured_refuted c) in RB; [|exact C|cbn; tauto].
    apply (C80_pedals_never_measured_refuted c) in RF; [|exact C|cbn; tauto].
    apply (C80_pedals_never_measured_refuted c) in RR; [|exact C|cbn; tauto].
    destruct y as [rA rB rF rR bt lk]. cbn [cy_A cy_B cy_front cy_rear] in *.
    unfold all_zero in *. destruct Z as (Z1 & Z2 & Z3 & Z4 & Z5).
    unfold ds_step. cbn [cy_A cy_B cy_front cy_rear cy_button cy_lock].
    destruct lk; [|repeat split; assumption].
    unfold set_dash, set_inputs. cbn [vs_inputs].
    assert (AZ : forall r, r = (ADC_STATUS_OK, 0) \/ r = (ADC_STATUS_ERROR_DATANOTREADY, 0) ->
       snd r = 0) by (intros r [-> | ->]; reflexivity).
    rewrite (AZ _ RA), (AZ _ RB), (AZ _ RF), (AZ _ RR).
    change (ADC_ApplyScaling (ds_accelA d) 0) with f_zero.
    change (ADC_ApplyScaling (ds_accelB d) 0) with f_zero.
    change (ADC_ApplyScaling (ds_brakeFront d) 0) with f_zero.
    change (ADC_ApplyScaling (ds_brakeRear d) 0) with f_zero.
    change (fmul f_half (fadd f_zero f_zero)) with f_zero.
    destruct RA as [-> | ->], RB as [-> | ->], RF as [-> | ->], RR as [-> | ->]; cbn;
      repeat split; assumption || reflexivity. }
  apply G. unfold all_zero. repeat split.
Qed.
Print Assumptions C80_published_pedal_zero_refuted.

Example C80_ex_published_valid :
  let y := mkCycle (0, 0) (0, 0) (0, 0) (0, 0) false true in
  shipped_cycle (dma_intended S_ADC1) y /\
  i_accelValid (vs_inputs (ds_run (ds_from_config default_config) zero_vstate [y])) = true.
Proof.
  split; [|reflexivity].
  repeat split; exists full_scale; eexists; (split; [vm_compute; reflexivity|vm_compute; reflexivity]).
Qed.

(** The ADC is set to stop its DMA requests after the first transfer: nothing
    that happens after the first [n] conversions and the interrupt that serves
    them changes anything any more. *)
Theorem C80_readings_frozen_refuted :
  forall c n tr tr',
    dc_size c = 1 \/ dc_size c = 2 \/ dc_size c = 4 -> 1 <= n <= 16 ->
    n <= Z.of_nat (length (conversions tr)) ->
    ah_run c SHIPPED_DDS (ah_start n) (tr ++ Irq :: tr') = ah_run c SHIPPED_DDS (ah_start n) (tr ++ [Irq]).
Proof.
  intros c n tr tr' G N L. apply one_shot; auto. apply Bool.andb_false_r.
Qed.
Print Assumptions C80_readings_frozen_refuted.

(** What the first scan leaves with the configuration the code asks for, with the
    interrupts served at once: channels 0, 1, 2 show the conversions of channels 0,
    2 and 4, all others 0. *)
Theorem C80_first_scan_refuted :
  forall v0 v1 v2 v3 v4 v5 v6 v7 v8 v9 v10 v11,
    Forall (fun v => 0 <= v < 65536) [v0; v1; v2; v3; v4; v5; v6; v7; v8; v9; v10; v11] ->
    exists s,
      ah_run (dma_intended S_ADC1) SHIPPED_DDS (ah_start SHIPPED_CHANNELS)
        (map Conv [v0; v1; v2; v3; v4; v5] ++ [Irq] ++ map Conv [v6; v7; v8; v9; v10; v11] ++ [Irq]) = Some s /\
      map (ADC_Get (ah_adc s)) [0; 1; 2; 3; 4; 5; 6; 7; 8; 9; 10; 11] =
      map (fun v => Some (ADC_STATUS_OK, v)) [v0; v2; v4; 0; 0; 0; 0; 0; 0; 0; 0; 0].
Proof.
  intros v0 v1 v2 v3 v4 v5 v6 v7 v8 v9 v10 v11 F.
  repeat match goal with H : Forall _ (_ :: _) |- _ => inversion H; subst; clear H end.
  eexists. split; [lazy -[set_field]; reflexivity|].
  transitivity (map (fun v => Some (ADC_STATUS_OK, u16 v))
    [set_field (set_field 0 0 16 v0) 16 16 v1; set_field (set_field 0 0 16 v2) 16 16 v3;
     set_field (set_field 0 0 16 v4) 16 16 v5; 0; 0; 0; 0; 0; 0; 0; 0; 0]); [reflexivity|].
  cbn [map]. rewrite !low_half by assumption. reflexivity.
Qed.
Print Assumptions C80_first_scan_refuted.

(** With word transfers, circular mode and DMA requests that go on, the driver's
    buffer works as assumed by C24: the run is that of Model/Adc.v, and reads give
    the last completed scan whenever the interrupts are served in time. *)
Theorem C80_word_stream_partial :
  forall c n tr ch,
    word_stream c -> 2 <= n <= 16 -> (forall v, In (Conv v) tr -> 0 <= v < 65536) ->
    timely n (as_adc n 0 false false tr) -> 0 <= ch < n ->
    exists s, ah_run c true (ah_start n) tr = Some s /\
      ADC_Get (ah_adc s) ch = Some (expected_read n (as_adc n 0 false false tr) ch) /\
      samples (as_adc n 0 false false tr) = conversions tr.
Proof.
  intros c n tr ch W N V T C.
  pose proof (word_start c n tr W N V) as R.
  destruct (AdcProof.timely_read_value n _ ltac:(lia) T) as (a & RA & E & _).
  rewrite RA in R. destruct (ah_run c true (ah_start n) tr) as [s|]; [|discriminate].
  injection R as R. exists s. split; [reflexivity|]. split; [rewrite R; now apply E|].
  apply samples_as_adc.
Qed.
Print Assumptions C80_word_stream_partial.

(** A case: four channels, two scans, one interrupt serving both halves late. *)
Definition ex_rounds : list ah_event :=
  [Conv 10; Conv 11; Irq; Conv 12; Conv 13; Irq; Conv 20; Conv 21; Conv 22; Conv 23; Irq; Conv 30].
Example C80_ex_word :
  word_stream (mkDma 0 false true 4 true) /\ timely 4 (as_adc 4 0 false false ex_rounds) /\
  expected_read 4 (as_adc 4 0 false false ex_rounds) 3 = (ADC_STATUS_OK, 23).
Proof.
  split; [repeat split|]. split; [|reflexivity].
  let l := eval vm_compute in (as_adc 4 0 false false ex_rounds) in change (timely 4 l).
  repeat match goal with
  | |- timely _ [] => constructor
  | |- timely ?n ?l =>
      let p := eval cbv in (removelast l) in
      let z := eval cbv in (last l HalfIsr) in
      change (timely n (p ++ [z])); constructor
  | |- _ \/ _ => right
  | |- _ /\ _ => split
  | |- _ => intros; vm_compute in *; congruence
  end.
Qed.
