(** C41-C44: wheel speed, power channels, shutdown circuit. *)
From Coq Require Import ZifyBool ZifyNat.
From Verif.Base Require Import Words Gpio.
From Verif.Model Require Import Wheelspeed Pdm Sdc.
From Verif.Spec Require Import IoSpec.
From Verif.Proof Require Import IoProof.
Ltac Zify.zify_post_hook ::= Z.div_mod_to_equations.

(** ** C41 *)
(** Within a batch (at most 2000 samples, one second at 2 kHz) every edge is
    counted once and the speed is the exact quotient: no 16-bit truncation. *)
Theorem C41_batch_counts_and_speed_partial :
  forall teeth w w' tr, 1 <= teeth -> ws_run teeth ws_init tr = Some w ->
    ticks tr mod 65536 mod 100 = 0 -> ws_stream w <> [] ->
    Wheelspeed_TaskMethod teeth w true = Some w' ->
    let batch := firstn (Z.to_nat 2000) (ws_stream w) in
    ws_pub w' = wheel_of teeth batch /\ ws_stream w = batch ++ ws_stream w'.
Proof.
  intros teeth w w' tr Ht R Hc Hs T.
  pose proof (ws_counter_run teeth tr ws_init w Ht ltac:(cbn; lia) R) as C.
  cbn [ws_counter ws_init] in C. rewrite Z.add_0_l in C.
  destruct (tick_ok teeth w true Ht) as (w2 & T2 & _ & S1 & _). rewrite T in T2. injection T2 as <-.
  rewrite <- C in Hc. destruct (S1 Hc) as [P Q]. split; auto.
Qed.
Print Assumptions C41_batch_counts_and_speed_partial.

(** The batches are consecutive pieces of the sampled levels, in order, without
    gaps or overlap, as long as no more than 3999 samples are outstanding. *)
Theorem C41_batches_partition_samples :
  forall teeth tr, 1 <= teeth -> (length (sampled tr) <= Z.to_nat 3999)%nat ->
  exists w, ws_run teeth ws_init tr = Some w /\
    concat (batches teeth ws_init tr) ++ ws_stream w = map pack (sampled tr) /\
    Forall (fun b => (length b <= 2000)%nat) (batches teeth ws_init tr).
Proof.
  intros teeth tr Ht Hl. destruct (ws_total teeth tr ws_init Ht) as [w R]. exists w.
  split; [exact R|]. destruct (ws_partition teeth tr ws_init w Ht R) as (k & E & F & N).
  cbn [ws_init ws_stream app length] in *. rewrite N in E by lia. auto.
Qed.
Print Assumptions C41_batches_partition_samples.

(** A sample byte carries exactly the two sampled levels. *)
Theorem C41_sample_encoding :
  forall l, fronts (map pack l) = map fst l /\ rears (map pack l) = map snd l.
Proof.
  intros l. unfold fronts, rears. rewrite !map_map. split; apply map_ext; intros [[|] [|]]; reflexivity.
Qed.
Print Assumptions C41_sample_encoding.

(** An edge between the last sample of one batch and the first of the next is
    in neither count. *)
Theorem C41_edges_across_batches :
  forall a x y b,
    rising ((a ++ [x]) ++ y :: b) = rising (a ++ [x]) + rising (y :: b) + b2z (negb x && y).
Proof. intros. rewrite rising_app. lia. Qed.
Print Assumptions C41_edges_across_batches.

Theorem C41_boundary_edge_lost_refuted :
  exists tr1 tr2 w1 w2,
    ws_run 12 ws_init tr1 = Some w1 /\ ws_run 12 w1 tr2 = Some w2 /\
    ws_stream w1 = [] /\ ws_stream w2 = [] /\                 (* all samples were processed *)
    rising (map fst (sampled (tr1 ++ tr2))) = 2 /\            (* two edges on the front wheel *)
    w_countFront (ws_pub w1) = 1 /\ w_countFront (ws_pub w2) = 0.   (* one of them reported *)
Proof.
  exists [WsIrq false false; WsIrq true false; WsIrq false false; WsTick true],
         (repeat (WsTick true) 99 ++ [WsIrq true true; WsIrq true false; WsTick true]).
  eexists _, _. split; [vm_compute; reflexivity|]. split; [vm_compute; reflexivity|].
  vm_compute. auto.
Qed.
Print Assumptions C41_boundary_edge_lost_refuted.

(** The number of teeth has to be configured: with any positive number no
    history leads to undefined behaviour, with zero the first batch divides by it. *)
Theorem C41_needs_teeth :
  forall teeth, 0 <= teeth -> ((forall tr, ws_run teeth ws_init tr <> None) <-> 1 <= teeth).
Proof.
  intros teeth T. split.
  - intros H. destruct (Z.eq_dec teeth 0) as [->|N]; [|lia]. exfalso.
    apply (H [WsIrq true true; WsTick true]). vm_compute. reflexivity.
  - intros P tr. destruct (ws_total teeth tr ws_init P) as [w R]. now rewrite R.
Qed.
Print Assumptions C41_needs_teeth.

Example C41_hypotheses_met :
  let tr := [WsIrq false false; WsIrq true false; WsIrq false true] in
  match ws_run 12 ws_init tr with
  | Some w => ticks tr mod 65536 mod 100 = 0 /\ ws_stream w <> [] /\
              wheel_of 12 (ws_stream w) = mkWheel 5 5 1 1
  | None => False
  end.
Proof. vm_compute. repeat split; discriminate. Qed.

(** ** C42 *)
(** A tick with samples waiting refreshes the speed (consumes samples) exactly
    when the number of ticks before it, modulo 2^16, is a multiple of 100. *)
Theorem C42_refresh_ticks :
  forall teeth tr w w' lock, 1 <= teeth ->
    ws_run teeth ws_init tr = Some w -> ws_stream w <> [] ->
    Wheelspeed_TaskMethod teeth w lock = Some w' ->
    (ws_stream w' <> ws_stream w <-> ticks tr mod 65536 mod 100 = 0).
Proof.
  intros teeth tr w w' lock Ht R Hs T.
  pose proof (ws_counter_run teeth tr ws_init w Ht ltac:(cbn; lia) R) as C.
  cbn [ws_counter ws_init] in C. rewrite Z.add_0_l in C.
  destruct (tick_ok teeth w lock Ht) as (w2 & T2 & _ & S1 & _ & S3). rewrite T in T2. injection T2 as <-.
  rewrite <- C. split.
  - intros Ne. destruct (Z.eq_dec (ws_counter w mod 100) 0) as [E|E]; [exact E|]. now apply S3 in E.
  - intros E. destruct (S1 E) as [P _]. intros Q. rewrite Q in P.
    assert (L : firstn (Z.to_nat 2000) (ws_stream w) = []).
    { apply (f_equal (@length Z)) in P. rewrite app_length in P.
      destruct (firstn (Z.to_nat 2000) (ws_stream w)); [reflexivity|cbn [length] in P; lia]. }
    destruct (ws_stream w); [easy|]. change (Z.to_nat 2000) with (S (Z.to_nat 1999)) in L. discriminate.
Qed.
Print Assumptions C42_refresh_ticks.

(** Hence, up to the wrap of the counter, consecutive refreshes are exactly 100
    ticks apart... *)
Theorem C42_hundred_ticks_apart_partial :
  forall a b, 0 <= a < b -> a mod 65536 mod 100 = 0 -> b mod 65536 mod 100 = 0 ->
    (forall c, a < c < b -> c mod 65536 mod 100 <> 0) ->
    (a / 65536 = b / 65536 -> b - a = 100) /\ b - a <= 100.
Proof.
  intros a b H A B M.
  assert (K : b - a <= 100).
  { destruct (Z_le_gt_dec (b - a) 100); [assumption|exfalso].
    destruct (Z_lt_le_dec (a mod 65536 + 100) 65536).
    - apply (M (a + 100)); lia.
    - apply (M (a + (65536 - a mod 65536))); lia. }
  split; [|exact K]. intros E. lia.
Qed.
Print Assumptions C42_hundred_ticks_apart_partial.

(** ... but at the wrap the interval is 36 ticks: after n ticks and one sample,
    the next tick consumes the sample for n = 65500 and n = 65536 and for no n
    between. *)
Definition refreshes_after (teeth n : Z) : Prop :=
  exists w w', ws_run teeth ws_init (repeat (WsTick true) (Z.to_nat n) ++ [WsIrq true false]) = Some w /\
    Wheelspeed_TaskMethod teeth w true = Some w' /\ ws_stream w' <> ws_stream w.

Lemma refreshes_after_iff teeth n : 1 <= teeth -> 0 <= n ->
  (refreshes_after teeth n <-> n mod 65536 mod 100 = 0).
Proof.
  intros Ht Hn. set (tr := repeat (WsTick true) (Z.to_nat n) ++ [WsIrq true false]).
  assert (T : ticks tr = n).
  { unfold tr. rewrite ticks_app. change (ticks [WsIrq true false]) with 0.
    rewrite <- (Z2Nat.id n) at 2 by lia. generalize (Z.to_nat n). induction n0; [reflexivity|].
    cbn [repeat ticks]. lia. }
  destruct (ws_total teeth tr ws_init Ht) as [w R].
  assert (S1 : ws_stream w = [2]).
  { unfold tr in R. rewrite ws_run_app in R.
    destruct (ws_run teeth ws_init (repeat (WsTick true) (Z.to_nat n))) as [w1|] eqn:E1; [|discriminate].
    assert (N : ws_stream w1 = []).
    { clear - E1 Ht. destruct (ws_partition teeth _ ws_init w1 Ht E1) as (k & P & _ & K).
      assert (Z : sampled (repeat (WsTick true) (Z.to_nat n)) = []).
      { generalize (Z.to_nat n). induction n0; [reflexivity|exact IHn0]. }
      rewrite Z in K. rewrite K in P by (cbn; lia).
      cbn [ws_init ws_stream app map] in P. apply app_eq_nil in P. tauto. }
    cbn in R. injection R as <-. cbn. rewrite N. reflexivity. }
  destruct (tick_ok teeth w true Ht) as (w2 & T2 & _).
  pose proof (C42_refresh_ticks teeth tr w w2 true Ht R ltac:(rewrite S1; discriminate) T2) as I.
  rewrite T in I. rewrite <- I. unfold refreshes_after. fold tr. split.
  - intros (u & u' & R' & T' & N). rewrite R in R'. injection R' as <-. rewrite T2 in T'. now injection T' as <-.
  - intros N. exists w, w2. auto.
Qed.

Theorem C42_wrap_refuted :
  exists a b, b - a = 36 /\ forall teeth, 1 <= teeth ->
    refreshes_after teeth a /\ refreshes_after teeth b /\
    forall c, a < c < b -> ~ refreshes_after teeth c.
Proof.
  exists 65500, 65536. split; [reflexivity|]. intros teeth Ht.
  repeat split; [apply refreshes_after_iff; lia..|].
  intros c Hc. rewrite refreshes_after_iff by lia. lia.
Qed.
Print Assumptions C42_wrap_refuted.

Example C42_hypotheses_met :
  match ws_run 12 ws_init (repeat (WsTick true) 100 ++ [WsIrq true false]) with
  | Some w => ws_stream w <> [] /\ ticks (repeat (WsTick true) 100 ++ [WsIrq true false]) = 100
  | None => False
  end.
Proof. vm_compute. split; [discriminate|reflexivity]. Qed.

(** ** C43 *)
(** [pdm_ok]: PDM_Init accepts the configuration, the array has the stated
    length and the channels are wired to distinct pins. *)
Theorem C43_pins_follow_last_accepted_request :
  forall p chans w calls, pdm_ok p chans -> length (pw_state w) = 8%nat ->
    Forall (fun c => 0 <= fst (fst c)) calls ->
  exists w', pdm_run p w calls = Some w' /\
    (forall ch, 0 <= ch < pd_num p ->
       pw_gpio w' (chan_pin chans ch) = last_request (pd_num p) ch calls (pw_gpio w (chan_pin chans ch)) /\
       nth (Z.to_nat ch) (pw_state w') false =
         last_request (pd_num p) ch calls (nth (Z.to_nat ch) (pw_state w) false)) /\
    (forall q, ~ In q chans -> pw_gpio w' q = pw_gpio w q) /\
    (forall ch, pd_num p <= ch -> nth (Z.to_nat ch) (pw_state w') false = nth (Z.to_nat ch) (pw_state w) false).
Proof.
  intros p chans w calls O L F. destruct (pdm_history p chans w calls O L F) as (w' & R & _ & A & B & C).
  exists w'. auto.
Qed.
Print Assumptions C43_pins_follow_last_accepted_request.

(** So pin and reported state agree for ever if they agree at the start. *)
Theorem C43_pins_equal_reported_state :
  forall p chans w calls w', pdm_ok p chans -> length (pw_state w) = 8%nat ->
    Forall (fun c => 0 <= fst (fst c)) calls ->
    (forall ch, 0 <= ch < pd_num p -> pw_gpio w (chan_pin chans ch) = nth (Z.to_nat ch) (pw_state w) false) ->
    pdm_run p w calls = Some w' ->
    forall ch, 0 <= ch < pd_num p -> pw_gpio w' (chan_pin chans ch) = nth (Z.to_nat ch) (pw_state w') false.
Proof.
  intros p chans w calls w' O L F Init R ch Hch.
  destruct (pdm_history p chans w calls O L F) as (w2 & R2 & _ & A & _). rewrite R in R2. injection R2 as <-.
  destruct (A ch Hch) as [-> ->]. now rewrite Init.
Qed.
Print Assumptions C43_pins_equal_reported_state.

Theorem C43_rejected_call_changes_nothing :
  forall p chans w ch st lock, pdm_ok p chans -> length (pw_state w) = 8%nat -> 0 <= ch ->
    (pd_num p <= ch \/ lock = false) ->
    exists status, PDM_SetOutputEnabled p w ch st lock = Some (w, status) /\ status <> PDM_STATUS_OK.
Proof.
  intros p chans w ch st lock O L H0 H.
  destruct (set_output_effect p chans w ch st lock O L H0) as (w' & s & E & _ & Rej & _).
  destruct Rej as [-> Hs]; [|eauto]. unfold accepted.
  destruct H as [H| ->]; [|apply andb_false_r]. destruct (Z.ltb_spec ch (pd_num p)); [lia|reflexivity].
Qed.
Print Assumptions C43_rejected_call_changes_nothing.

(** Configurations with more channels than the vehicle state can report are refused. *)
Theorem C43_too_many_channels_refused :
  forall p d, 8 < pd_num p -> PDM_Init d p <> PDM_STATUS_OK.
Proof.
  intros p d H. unfold PDM_Init, VEHICLESTATE_MAXPDM_CHANNELS. destruct d; [|discriminate]. simpl.
  destruct (_ || _); [discriminate|]. rewrite Z.gtb_ltb. destruct (Z.ltb_spec 8 (pd_num p)); [discriminate|lia].
Qed.
Print Assumptions C43_too_many_channels_refused.

(** The six channels of deviceMapping.c:15-31 (pins of one port, say). *)
Definition ex_chans : list pin := [(5, 1); (5, 2); (5, 3); (5, 4); (5, 5); (5, 6)].
Example C43_hypotheses_met : pdm_ok (mkPdm (Some ex_chans) 6) ex_chans.
Proof.
  split; try reflexivity. unfold ex_chans.
  repeat (apply NoDup_cons; [simpl; intuition discriminate|]). apply NoDup_nil.
Qed.
Example C43_example :
  match pdm_run (mkPdm (Some ex_chans) 6) (mkPw (fun _ => false) zero_glv)
          [(2, true, true); (3, true, false); (6, true, true); (2, false, false)] with
  | Some w => pw_state w = [false; false; true; false; false; false; false; false] /\ pw_gpio w (5, 3) = true
  | None => False
  end.
Proof. vm_compute. auto. Qed.

(** ** C44 *)
(** For every history in which the task could always lock the vehicle state:
    once an interrupt followed the last pin change and the task has caught up
    (it waits, and no notification is pending), the published record is the pin
    levels. The task's copy is not atomic: interrupts and pin changes may come
    between any two of its accesses. *)
Theorem C44_published_equals_pins :
  forall pins0 before after,
    locks_ok (before ++ after) -> no_pin_change after ->
    let w := sdc_run (sdc_init pins0) (before ++ SdcIrq :: after) in
    idle w -> sw_pub w = sw_pins w.
Proof.
  intros pins0 before after L Q w I. unfold w in *.
  rewrite (sdc_settles pins0 before after L Q I). rewrite sdc_run_app.
  destruct (quiet_inputs (SdcIrq :: after) (sdc_run (sdc_init pins0) before)) as [E _]; [|now rewrite E].
  intros l [H|H]; [discriminate|now apply (Q l)].
Qed.
Print Assumptions C44_published_equals_pins.

(** The task does catch up: at most nine of its steps without a new interrupt. *)
Theorem C44_task_catches_up :
  forall pins0 tr, locks_ok tr ->
  exists k, (k <= 9)%nat /\
    idle (sdc_run (sdc_init pins0) (tr ++ repeat (SdcTask true) k)).
Proof.
  intros pins0 tr L. destruct (sdc_catches_up _ (sdc_inv_run _ _ (sdc_inv_init pins0) L)) as (k & K & I).
  exists k. split; [exact K|]. now rewrite sdc_run_app.
Qed.
Print Assumptions C44_task_catches_up.

Example C44_hypotheses_met :
  let before := [SdcPins (mkSdc true false true false); SdcIrq; SdcTask true; SdcTask true;
                 SdcPins (mkSdc true true true false)] in
  let after := [SdcTask true; SdcTask true; SdcTask true] ++ repeat (SdcTask true) 5 in
  let w := sdc_run (sdc_init zero_sdc) (before ++ SdcIrq :: after) in
  locks_ok (before ++ after) /\ no_pin_change after /\ idle w /\ sw_pub w = mkSdc true true true false.
Proof.
  repeat split; unfold locks_ok, no_pin_change; simpl; intuition discriminate.
Qed.

(** The ECU error output shows the last request, whatever else was written to
    other pins. *)
Theorem C44_ecu_error_output_is_last_request :
  forall pinErr g reqs r,
    fold_left (SDC_AssertECUFault pinErr) (reqs ++ [r]) g pinErr = r /\
    forall q, q <> pinErr -> fold_left (SDC_AssertECUFault pinErr) (reqs ++ [r]) g q = g q.
Proof.
  intros pinErr g reqs r. rewrite fold_left_app. cbn. unfold SDC_AssertECUFault at 1 3, GPIO_WritePin.
  split.
  - now rewrite (proj2 (pin_eqb_eq _ _)).
  - intros q Hq. destruct (pin_eqb q pinErr) eqn:E; [apply pin_eqb_eq in E; easy|].
    revert g. induction reqs as [|x reqs IH]; intros g; [reflexivity|]. cbn. rewrite IH.
    unfold SDC_AssertECUFault, GPIO_WritePin. now rewrite E.
Qed.
Print Assumptions C44_ecu_error_output_is_last_request.

(** If the vehicle state cannot be locked the notification is consumed and the
    change stays unpublished, however often the task and the (now idle)
    interrupt run. *)
Theorem C44_lock_failure_loses_change_refuted :
  exists pins before, forall after, no_pin_change after ->
    let w := sdc_run (sdc_init zero_sdc) (before ++ SdcIrq :: SdcTask false :: after) in
    sw_pins w = pins /\ sw_pub w <> pins.
Proof.
  exists (mkSdc true true true true), [SdcPins (mkSdc true true true true)]. intros after Q w.
  assert (H : forall tr, no_pin_change tr ->
     sdc_run (mkSw (mkSdc true true true true) (mkSdc true true true true) 0 0 zero_sdc) tr =
     mkSw (mkSdc true true true true) (mkSdc true true true true) 0 0 zero_sdc).
  { induction tr as [|e tr IH]; intros N; [reflexivity|]. cbn [sdc_run fold_left].
    replace (sdc_step _ e) with (mkSw (mkSdc true true true true) (mkSdc true true true true) 0 0 zero_sdc).
    - apply IH. intros l Hl. apply (N l). now right.
    - destruct e as [l| |l]; [exfalso; apply (N l); now left|reflexivity|reflexivity]. }
  unfold w. rewrite sdc_run_app.
  change (SdcIrq :: SdcTask false :: after) with ([SdcIrq; SdcTask false] ++ after). rewrite sdc_run_app.
  specialize (H after Q).
  change (sdc_run (sdc_run (sdc_init zero_sdc) [SdcPins (mkSdc true true true true)]) [SdcIrq; SdcTask false])
    with (mkSw (mkSdc true true true true) (mkSdc true true true true) 0 0 zero_sdc).
  rewrite H. split; [reflexivity|discriminate].
Qed.
Print Assumptions C44_lock_failure_loses_change_refuted.

(** The pins are not sampled at start-up: levels that are high from the
    beginning are not reported until some interrupt comes. *)
Theorem C44_initial_levels_not_sampled_refuted :
  exists pins0, forall n, sw_pub (sdc_run (sdc_init pins0) (repeat (SdcTask true) n)) <> pins0.
Proof.
  exists (mkSdc true true true true). intros n.
  assert (E : sdc_run (sdc_init (mkSdc true true true true)) (repeat (SdcTask true) n) =
              sdc_init (mkSdc true true true true)).
  { induction n; [reflexivity|]. cbn [repeat]. exact IHn. }
  rewrite E. discriminate.
Qed.
Print Assumptions C44_initial_levels_not_sampled_refuted.
