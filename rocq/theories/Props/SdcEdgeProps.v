(** C60: every change of a shutdown-circuit input is reported. *)
From Coq Require Import ZifyBool ZifyNat.
From Verif.Spec Require Import SdcEdgeSpec.
From Verif.Proof Require Import IoProof.

Lemma high_rises a b c : high_in a c -> rises a b = false -> high_in b c.
Proof.
  assert (B : forall x y z : bool, (x = true -> z = true) -> negb x && y = false -> y = true -> z = true).
  { intros [] [] [] H E Y; auto; discriminate. }
  intros (H1 & H2 & H3 & H4) R. unfold rises in R. apply orb_false_iff in R as [R R4].
  apply orb_false_iff in R as [R R3]. apply orb_false_iff in R as [R1 R2].
  repeat split; eapply B; eauto.
Qed.

Lemma falls_no_rise a b : high_in b a -> rises a b = false.
Proof.
  assert (B : forall x y : bool, (y = true -> x = true) -> negb x && y = false).
  { intros [] [] H; try reflexivity. now specialize (H eq_refl). }
  intros (H1 & H2 & H3 & H4). unfold rises. rewrite (B _ _ H1), (B _ _ H2), (B _ _ H3), (B _ _ H4). reflexivity.
Qed.

Lemma edge_inv pins0 : forall es, pins0 = zero_sdc -> hw_locks_ok es ->
  let h := hw_run (sdc_hw_init pins0) es in
  sdc_inv (hw_w h) /\ (hw_pending h = false -> high_in (sw_pins (hw_w h)) (sw_inputs (hw_w h))).
Proof.
  intros es -> . induction es as [|e es IH] using rev_ind; intros L.
  - split; [apply sdc_inv_init|]. intros _. cbn. unfold high_in; cbn; intuition congruence.
  - assert (L' : hw_locks_ok es) by (intros H; apply L, in_or_app; now left).
    destruct (IH L') as [I H]. unfold hw_run in *. rewrite fold_left_app. cbn [fold_left].
    set (h := fold_left _ es _) in *. destruct e as [l| | |lock]; cbn [hw_step].
    + cbn [hw_w hw_pending]. split; [apply sdc_inv_step; [exact I|discriminate]|].
      intros P. apply orb_false_iff in P as [P1 P2]. cbn [sdc_step sw_pins sw_inputs]. eapply high_rises; [apply H, P1|exact P2].
    + cbn [hw_w hw_pending]. split; [exact I|discriminate].
    + destruct (hw_pending h) eqn:P; [|rewrite P; auto]. cbn [hw_w hw_pending].
      split; [apply sdc_inv_step; [exact I|discriminate]|]. intros _. cbn [sdc_step].
      destruct (irq_inputs (hw_w h)) as (-> & -> & _). unfold high_in; auto.
    + assert (lock = true) by (destruct lock; [reflexivity|exfalso; apply L, in_or_app; right; now left]). subst.
      cbn [hw_w hw_pending]. split; [apply sdc_inv_step; [exact I|discriminate]|].
      intros P. specialize (H P). cbn [sdc_step]. unfold SDC_TaskStep.
      repeat match goal with |- context [if ?c then _ else _] => destruct c end; exact H.
Qed.

(** Whenever everything is handled, every high input is published as high. *)
Theorem C60_high_inputs_reported_partial :
  forall es, hw_locks_ok es ->
    let h := hw_run (sdc_hw_init zero_sdc) es in
    settled h -> high_in (sw_pins (hw_w h)) (sw_pub (hw_w h)).
Proof.
  intros es L h (P & I0 & N0). destruct (edge_inv zero_sdc es eq_refl L) as [[_ _ S] H]. fold h in S, H.
  specialize (H P). rewrite (members_eq (sw_pub (hw_w h)) (sw_inputs (hw_w h))); [exact H|].
  intros k K. apply S; auto.
Qed.
Print Assumptions C60_high_inputs_reported_partial.

Lemma hw_run_app a b h : hw_run h (a ++ b) = hw_run (hw_run h a) b.
Proof. unfold hw_run. now rewrite fold_left_app. Qed.

Lemma nine_steps : forall h, hw_pending h = false -> 0 <= sw_notified (hw_w h) ->
  0 <= sw_pc (hw_w h) <= 4 ->
  let h' := hw_run h (repeat (HwTask true) 9) in settled h' /\ sw_pins (hw_w h') = sw_pins (hw_w h).
Proof.
  intros [[pins i n pc pub] p] P N C. cbn [hw_w hw_pending sw_notified sw_pc] in *. subst p.
  assert (D : pc = 0 \/ pc = 1 \/ pc = 2 \/ pc = 3 \/ pc = 4) by lia. clear C.
  assert (E : n = 0 \/ (n >? 0) = true) by lia.
  destruct E as [->|E]; destruct D as [->|[->|[->|[->| ->]]]]; cbn; rewrite ?E; cbn;
    unfold settled, idle; cbn; auto.
Qed.

(** And everything gets handled: from every reachable state one interrupt and nine
    steps of the task are enough. *)
Theorem C60_settles :
  forall es, hw_locks_ok es ->
    let h := hw_run (sdc_hw_init zero_sdc) es in
    let h' := hw_run h (HwIrq :: repeat (HwTask true) 9) in
    settled h' /\ sw_pins (hw_w h') = sw_pins (hw_w h) /\
    high_in (sw_pins (hw_w h)) (sw_pub (hw_w h')).
Proof.
  intros es L h h'.
  assert (L' : forall k, hw_locks_ok (es ++ HwIrq :: repeat (HwTask true) k)).
  { intros k H. apply in_app_or in H as [H|[H|H]]; [now apply L|discriminate|].
    apply repeat_spec in H. discriminate. }
  assert (A : forall k, hw_run h (HwIrq :: repeat (HwTask true) k)
      = hw_run (sdc_hw_init zero_sdc) (es ++ HwIrq :: repeat (HwTask true) k))
    by (intros k; unfold h; now rewrite hw_run_app).
  pose proof (edge_inv zero_sdc _ eq_refl (L' 0%nat)) as [[N C _] _].
  rewrite <- A in N, C. cbn [repeat] in N, C.
  assert (P : hw_pending (hw_run h [HwIrq]) = false).
  { unfold hw_run. cbn [fold_left hw_step]. now destruct (hw_pending h) eqn:E. }
  assert (Q : sw_pins (hw_w (hw_run h [HwIrq])) = sw_pins (hw_w h)).
  { unfold hw_run. cbn [fold_left hw_step]. destruct (hw_pending h); [|reflexivity].
    cbn [hw_w sdc_step]. now destruct (irq_inputs (hw_w h)) as (_ & -> & _). }
  destruct (nine_steps _ P N C) as [S T].
  change (hw_run (hw_run h [HwIrq]) (repeat (HwTask true) 9)) with h' in S, T.
  rewrite Q in T. split; [exact S|]. split; [exact T|]. rewrite <- T.
  unfold h'. rewrite A. apply C60_high_inputs_reported_partial; [apply L'|].
  rewrite <- A. exact S.
Qed.
Print Assumptions C60_settles.

(** But an input that goes low raises no interrupt: from any settled state, after
    a change in which inputs only go low, nothing the software does updates the
    published record until some input rises again. *)
Theorem C60_falling_edge_not_reported_refuted :
  forall h l es, settled h -> high_in l (sw_pins (hw_w h)) -> only_software es ->
    let h' := hw_run (hw_step h (HwPins l)) es in
    sw_pins (hw_w h') = l /\ sw_pub (hw_w h') = sw_pub (hw_w h).
Proof.
  intros h l es (P & I0 & N0) D O h'. pose proof (falls_no_rise _ _ D) as R. unfold h'. cbn [hw_step]. rewrite P, R. cbn [orb sdc_step].
  set (w := mkSw l _ _ _ _).
  assert (E : hw_run (mkHw w false) es = mkHw w false).
  { clear h'. induction es as [|e es IH]; [reflexivity|]. unfold hw_run in *. cbn [fold_left].
    replace (hw_step (mkHw w false) e) with (mkHw w false); [apply IH; intros x Hx; apply O; now right|].
    destruct (O e (or_introl eq_refl)) as [->|[lock ->]]; [reflexivity|].
    cbn [hw_step hw_w hw_pending sdc_step]. unfold SDC_TaskStep, w. cbn [sw_pc sw_notified]. now rewrite I0, N0. }
  rewrite E. split; reflexivity.
Qed.
Print Assumptions C60_falling_edge_not_reported_refuted.

(** A reachable instance: all inputs rise and are reported; all fall, and the
    report stays for ever. *)
Example C60_reachable :
  let es := [HwPins (mkSdc true true true true); HwIrq; HwTask true; HwTask true; HwTask true; HwTask true; HwTask true] in
  let h := hw_run (sdc_hw_init zero_sdc) es in
  hw_locks_ok es /\ settled h /\ sw_pub (hw_w h) = mkSdc true true true true /\
  forall es', only_software es' ->
    sw_pub (hw_w (hw_run (hw_step h (HwPins (mkSdc false false false false))) es')) = mkSdc true true true true.
Proof.
  intros es h. split; [unfold hw_locks_ok; cbn; intuition discriminate|].
  assert (S : settled h) by (repeat split). split; [exact S|]. split; [reflexivity|].
  intros es' O. destruct (C60_falling_edge_not_reported_refuted h (mkSdc false false false false) es' S ltac:(unfold high_in; cbn; intuition congruence) O) as [_ E].
  exact E.
Qed.
