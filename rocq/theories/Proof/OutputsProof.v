From Verif.Base Require Import Words Mem.
From Verif.Model Require Import Outputs.
From Verif.Spec Require Import IoSpec OutputsSpec.
From Verif.Proof Require Import IoProof.
From Coq Require Import ZifyBool ZifyNat.

Lemma car_from_app : forall c tick a b k,
  car_from c tick k (a ++ b) = match car_from c tick k a with
                               | Some k' => car_from c tick k' b | None => None end.
Proof.
  intros c tick a b. induction a as [|ev a IH]; intros k; cbn [car_from app]; [reflexivity|].
  destruct (car_step c tick k ev); auto.
Qed.

Lemma car_run_snoc : forall c tick m0 es ev k,
  car_run c tick m0 (es ++ [ev]) = Some k ->
  exists k0, car_run c tick m0 es = Some k0 /\ car_step c tick k0 ev = Some k.
Proof.
  intros c tick m0 es ev k. unfold car_run. rewrite car_from_app.
  destruct (car_from c tick (car_init m0) es) as [k0|]; [|discriminate].
  cbn [car_from]. destruct (car_step c tick k0 ev) as [k1|] eqn:E; [|discriminate].
  intros H. injection H as <-. eauto.
Qed.

Lemma car_pdm_ok : pdm_ok car_pdm car_channels.
Proof.
  split; try reflexivity. unfold car_channels.
  repeat (constructor; [cbn; intuition discriminate|]). constructor.
Qed.

Lemma chan_in : forall ch, 0 <= ch < 6 -> In (nth (Z.to_nat ch) car_channels (0, 0)) car_channels.
Proof. intros ch H. apply nth_In. cbn. lia. Qed.

Lemma others_not_channels : forall q, In q car_channels ->
  pin_eqb q car_error_pin = false /\ pin_eqb q car_debug_pin = false /\
  pin_eqb q Mapping_GPO_LED = false.
Proof. intros q H. cbn in H. repeat (destruct H as [<-|H]; [auto|]). destruct H. Qed.

(** The pins under their names in the code; the same as on the board. *)
Definition car_power (k : car) (ch : Z) : bool := pw_gpio (k_out k) (nth (Z.to_nat ch) car_channels (0, 0)).
Definition car_led (k : car) : bool := pw_gpio (k_out k) Mapping_GPO_LED.

Record outs0 (c : config) (tick : Z) (m0 : vsm) (es : list car_event) (k : car) : Prop := mkOuts0 {
  oc0_ecu : k_ecu k = ecu_run c tick m0 (flat_map ecu_part es);
  oc0_len : length (pw_state (k_out k)) = 8%nat;
  oc0_power : forall ch, 0 <= ch < 6 ->
    car_power k ch = last_request 6 ch (power_requests es) false /\
    nth (Z.to_nat ch) (pw_state (k_out k)) false = last_request 6 ch (power_requests es) false;
  oc0_err : pw_gpio (k_out k) car_error_pin = e_pin (k_ecu k);
  oc0_count : k_count k = blinks es mod 100;
  oc0_led : car_led k = Z.odd (blinks es / 100) }.

Lemma blinks_snoc : forall es ev,
  blinks (es ++ [ev]) = blinks es + match ev with CarBlink => 1 | _ => 0 end.
Proof.
  intros es ev. unfold blinks. rewrite filter_app, app_length. cbn [filter].
  destruct ev; cbn [length]; lia.
Qed.
Lemma blinks_nonneg : forall es, 0 <= blinks es.
Proof. intros. unfold blinks. lia. Qed.

Lemma requests_snoc : forall es ev, power_requests (es ++ [ev]) = power_requests es ++ power_request ev.
Proof. intros. unfold power_requests. rewrite flat_map_app. cbn [flat_map]. now rewrite app_nil_r. Qed.

Lemma ecu_snoc : forall c tick m0 es ev,
  ecu_run c tick m0 (flat_map ecu_part (es ++ [ev])) =
  fold_left (ecu_step c tick) (ecu_part ev) (ecu_run c tick m0 (flat_map ecu_part es)).
Proof.
  intros. unfold ecu_run. rewrite flat_map_app, fold_left_app. cbn [flat_map]. now rewrite app_nil_r.
Qed.

Lemma with_ecu_outs : forall c tick m0 es k ev e,
  outs0 c tick m0 es k -> power_request ev = [] ->
  match ev with CarBlink => False | _ => True end ->
  e = ecu_run c tick m0 (flat_map ecu_part (es ++ [ev])) ->
  outs0 c tick m0 (es ++ [ev]) (with_ecu k e).
Proof.
  intros c tick m0 es k ev e [A L B C D F] R N E.
  assert (BL : blinks (es ++ [ev]) = blinks es) by (rewrite blinks_snoc; destruct ev; lia || easy).
  constructor; unfold with_ecu, car_power, car_led, set_pins; cbn [k_ecu k_out k_count pw_gpio pw_state]; auto.
  - intros ch H. rewrite requests_snoc, R, app_nil_r. unfold GPIO_WritePin.
    destruct (others_not_channels _ (chan_in ch H)) as (-> & _). exact (B ch H).
  - now rewrite BL.
  - rewrite BL. exact F.
Qed.

Lemma run_outs0 : forall c tick m0 es k, real_channels es -> car_run c tick m0 es = Some k ->
  outs0 c tick m0 es k.
Proof.
  intros c tick m0 es. induction es as [|ev es IH] using rev_ind; intros k RC H.
  - unfold car_run in H. cbn [car_from] in H. injection H as <-.
    constructor; try reflexivity.
    intros ch Hc. assert (D : ch = 0 \/ ch = 1 \/ ch = 2 \/ ch = 3 \/ ch = 4 \/ ch = 5) by lia.
    destruct D as [->|[->|[->|[->|[->| ->]]]]]; split; reflexivity.
  - destruct (car_run_snoc _ _ _ _ _ _ H) as (k0 & H0 & S).
    assert (RC0 : real_channels es).
    { unfold real_channels in *. rewrite requests_snoc in RC. apply Forall_app in RC. tauto. }
    specialize (IH k0 RC0 H0). pose proof (ecu_snoc c tick m0 es ev) as ES.
    destruct ev as [x|[on|ch on|p] lock| |]; cbn [car_step] in S.
    + injection S as <-. apply with_ecu_outs; auto. rewrite ES. cbn [ecu_part fold_left].
      now rewrite (oc0_ecu _ _ _ _ _ IH).
    + injection S as <-. apply with_ecu_outs; auto. rewrite ES. cbn [ecu_part fold_left].
      now rewrite (oc0_ecu _ _ _ _ _ IH).
    + destruct IH as [A L B C D F].
      assert (C0 : 0 <= ch).
      { unfold real_channels in RC. rewrite requests_snoc in RC. apply Forall_app in RC.
        destruct RC as [_ RC]. apply Forall_inv in RC. exact RC. }
      destruct (set_output_effect car_pdm car_channels (k_out k0) ch on lock car_pdm_ok L C0)
        as (w & st & E & L' & Rej & Acc).
      rewrite E in S. injection S as <-.
      change (pd_num car_pdm) with 6 in *.
      assert (NC : forall q, ~ In q car_channels -> pw_gpio w q = pw_gpio (k_out k0) q).
      { intros q NI. destruct (accepted 6 (ch, on, lock)) eqn:AC.
        - destruct (Acc eq_refl) as (_ & G & _). rewrite G.
          destruct (pin_eqb q (chan_pin car_channels ch)) eqn:Q; auto. exfalso.
          apply pin_eqb_eq in Q. apply NI. rewrite Q. unfold chan_pin. apply nth_In.
          unfold accepted in AC. apply andb_prop in AC. cbn. lia.
        - now destruct (Rej eq_refl) as [-> _]. }
      constructor; unfold car_led; cbn [k_ecu k_out k_count]; auto.
      * rewrite ES. exact A.
      * intros c0 Hc. rewrite requests_snoc. cbn [power_request]. rewrite last_request_snoc.
        cbn [fst snd]. unfold car_power. cbn [k_out]. destruct (B c0 Hc) as [B1 B2]. unfold car_power in B1.
        destruct (accepted 6 (ch, on, lock)) eqn:AC; cbn [andb].
        -- destruct (Acc eq_refl) as (_ & G & St). rewrite G, (St c0) by lia.
           assert (PE : pin_eqb (nth (Z.to_nat c0) car_channels (0, 0)) (chan_pin car_channels ch) = (ch =? c0)).
           { destruct (Z.eqb_spec ch c0) as [->|NE]; [apply pin_eqb_eq; reflexivity|].
             destruct (pin_eqb _ _) eqn:Q; auto. exfalso. apply NE.
             apply pin_eqb_eq in Q. unfold accepted in AC. apply andb_prop in AC.
             symmetry. apply (chan_pin_inj car_channels);
               [apply (po_distinct _ _ car_pdm_ok)|cbn; lia|cbn; lia|exact Q]. }
           rewrite PE. rewrite (Z.eqb_sym c0 ch). destruct (ch =? c0); auto.
        -- destruct (Rej eq_refl) as [-> _]. auto.
      * rewrite NC; auto. cbn. intuition discriminate.
      * rewrite blinks_snoc, Z.add_0_r. exact D.
      * rewrite NC by (cbn; intuition discriminate). rewrite blinks_snoc, Z.add_0_r. exact F.
    + injection S as <-. destruct IH as [A L B C D F]. constructor; auto.
      * rewrite ES. exact A.
      * intros ch Hc. rewrite requests_snoc, app_nil_r. auto.
      * rewrite blinks_snoc, Z.add_0_r. exact D.
      * rewrite blinks_snoc, Z.add_0_r. exact F.
    + injection S as <-. destruct IH as [A L B C D F].
      pose proof (blinks_nonneg es) as NN.
      unfold WatchdogTrigger. cbn [lw_counter lw_pins]. rewrite D.
      assert (U : u16 (blinks es mod 100 + 1) = blinks es mod 100 + 1).
      { unfold u16. apply Z.mod_small. pose proof (Z.mod_pos_bound (blinks es) 100 ltac:(lia)). lia. }
      rewrite U.
      assert (AR : (100 =? blinks es mod 100 + 1) = true /\ (blinks es + 1) mod 100 = 0 /\
                   (blinks es + 1) / 100 = blinks es / 100 + 1 \/
                   (100 =? blinks es mod 100 + 1) = false /\
                   (blinks es + 1) mod 100 = blinks es mod 100 + 1 /\
                   (blinks es + 1) / 100 = blinks es / 100).
      { clear - NN. generalize (blinks es) NN. intros b Nb.
        pose proof (Z.div_mod b 100 ltac:(lia)). pose proof (Z.mod_pos_bound b 100 ltac:(lia)).
        destruct (Z.eqb_spec 100 (b mod 100 + 1)).
        - left. split; auto. split.
          + symmetry. apply Z.mod_unique with (q := b / 100 + 1); lia.
          + symmetry. apply Z.div_unique with (r := 0); lia.
        - right. split; auto. split.
          + symmetry. apply Z.mod_unique with (q := b / 100); lia.
          + symmetry. apply Z.div_unique with (r := b mod 100 + 1); lia. }
      rewrite <- (blinks_snoc es CarBlink) in AR.
      destruct AR as [(E1 & E2 & E3)|(E1 & E2 & E3)]; rewrite E1;
        constructor; unfold car_led, car_power; cbn [k_ecu k_out k_count set_pins pw_gpio pw_state lw_pins lw_counter]; auto;
        try (rewrite ES; exact A); try (now rewrite E2);
        try (intros ch Hc; rewrite requests_snoc, app_nil_r).
      * unfold GPIO_TogglePin, shipped_blink. destruct (others_not_channels _ (chan_in ch Hc)) as (_ & _ & ->). exact (B ch Hc).
      * unfold GPIO_TogglePin. change (pin_eqb Mapping_GPO_LED shipped_blink) with true. cbn iota.
        change (pw_gpio (k_out k0) Mapping_GPO_LED) with (car_led k0). rewrite F, E3.
        rewrite Z.odd_add. cbn. now destruct (Z.odd _).
      * exact (B ch Hc).
      * rewrite E3. exact F.
    + injection S as <-. destruct IH as [A L B C D F].
      constructor; unfold car_led, car_power; cbn [k_ecu k_out k_count set_pins pw_gpio pw_state]; auto.
      * rewrite ES. exact A.
      * intros ch Hc. rewrite requests_snoc, app_nil_r. unfold GPIO_TogglePin.
        destruct (others_not_channels _ (chan_in ch Hc)) as (_ & -> & _). exact (B ch Hc).
      * rewrite blinks_snoc, Z.add_0_r. exact D.
      * rewrite blinks_snoc, Z.add_0_r. exact F.
Qed.

Record outs (c : config) (tick : Z) (m0 : vsm) (es : list car_event) (k : car) : Prop := mkOuts {
  oc_ecu : k_ecu k = ecu_run c tick m0 (flat_map ecu_part es);
  oc_len : length (pw_state (k_out k)) = 8%nat;
  oc_power : forall ch, 0 <= ch < 6 ->
    power k ch = last_request 6 ch (power_requests es) false /\
    nth (Z.to_nat ch) (pw_state (k_out k)) false = last_request 6 ch (power_requests es) false;
  oc_err : error_output k = e_pin (k_ecu k);
  oc_count : k_count k = blinks es mod 100;
  oc_led : led k = Z.odd (blinks es / 100) }.

Lemma run_outs : forall c tick m0 es k, real_channels es -> car_run c tick m0 es = Some k ->
  outs c tick m0 es k.
Proof.
  intros c tick m0 es k R H. destruct (run_outs0 c tick m0 es k R H) as [A L B C D F].
  constructor; auto.
Qed.

Lemma run_total : forall c tick m0 es, real_channels es ->
  exists k, car_run c tick m0 es = Some k /\ outs c tick m0 es k.
Proof.
  intros c tick m0 es RC.
  enough (T : exists k, car_run c tick m0 es = Some k).
  { destruct T as (k & T). exists k. split; auto. now apply run_outs. }
  induction es as [|ev es IH] using rev_ind.
  - exists (car_init m0). reflexivity.
  - assert (RC' := RC). unfold real_channels in RC'. rewrite requests_snoc in RC'.
    apply Forall_app in RC'. destruct RC' as [RC0 RC1]. destruct (IH RC0) as (k & R).
    unfold car_run in *. rewrite car_from_app, R. cbn [car_from].
    pose proof (run_outs c tick m0 es k RC0 R) as O.
    destruct ev as [x|[on|ch on|p] lock| |]; cbn [car_step]; try (eexists; reflexivity).
    apply Forall_inv in RC1.
    destruct (set_output_effect car_pdm car_channels (k_out k) ch on lock car_pdm_ok
                (oc_len _ _ _ _ _ O) RC1) as (w & st & E & _).
    rewrite E. eexists. reflexivity.
Qed.

Lemma no_requests : forall ch, last_request 6 ch [] false = false.
Proof. reflexivity. Qed.

Lemma pc_free_requests : forall es, pc_free es -> power_requests es = [].
Proof.
  induction es as [|ev es IH]; intros H; [reflexivity|].
  unfold power_requests. cbn [flat_map]. fold (power_requests es).
  rewrite IH by (intros x I; apply H; now right). rewrite app_nil_r.
  specialize (H ev (or_introl eq_refl)). destruct ev as [x|call lock| |]; try reflexivity. contradiction.
Qed.

Lemma real_when_none : forall es, power_requests es = [] -> real_channels es.
Proof. intros es H. unfold real_channels. rewrite H. constructor. Qed.
