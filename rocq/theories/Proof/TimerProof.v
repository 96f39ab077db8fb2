(** Task timer and LED proofs. *)
From Coq Require Import ZifyBool ZifyNat.
From Verif.Spec Require Import TimerSpec.
From Verif.Proof Require Import MemFacts.
Ltac Zify.zify_post_hook ::= Z.div_mod_to_equations.

Definition slot (t : Z) : bool * Z := (true, t).

Definition tt_inv (inst : Z) (tasks : list Z) (t : tasktimer) : Prop :=
  tt_init t = true /\ tt_timer t = Some inst /\ tt_num t = Z.of_nat (length tasks) /\
  (length tasks <= 16)%nat /\ length (tt_slots t) = 16%nat /\
  exists rest, tt_slots t = map slot tasks ++ rest.

Lemma tt_inv_init inst : tt_inv inst [] (tt_started inst).
Proof. repeat split; [cbn; lia|]. eexists. reflexivity. Qed.

Lemma notify_all tasks : forall pre rest,
  notify_loop (map slot pre ++ map slot tasks ++ rest) (Z.of_nat (length pre)) (length tasks) = Some tasks.
Proof.
  induction tasks as [|x tasks IH]; intros pre rest; [reflexivity|]. cbn [length notify_loop map].
  rewrite <- app_comm_cons. rewrite rd_mid by (rewrite map_length; reflexivity).
  specialize (IH (pre ++ [x]) rest). rewrite map_app, <- app_assoc in IH. cbn [map app] in IH.
  replace (Z.of_nat (length pre) + 1) with (Z.of_nat (length (pre ++ [x]))) by (rewrite app_length; cbn [length]; lia).
  rewrite IH. reflexivity.
Qed.

Lemma tick_spec inst tasks t i : tt_inv inst tasks t ->
  TaskTimer_TIM_PeriodElapsedCallback t i = Some (if i =? inst then tasks else []).
Proof.
  intros (I & T & N & L & _ & rest & E). unfold TaskTimer_TIM_PeriodElapsedCallback. rewrite I, T. cbn [negb].
  destruct (i =? inst); [|reflexivity]. rewrite N, Nat2Z.id, E. apply (notify_all tasks [] rest).
Qed.

Lemma store_spec inst tasks t x : tt_inv inst tasks t -> (length tasks < 16)%nat ->
  exists t', reg_store t x = Some t' /\ tt_inv inst tasks t' /\ tt_inv inst (tasks ++ [x]) (reg_count t').
Proof.
  intros (I & T & N & L & Len & rest & E) H.
  destruct rest as [|r rest]; [rewrite E, app_nil_r, map_length in Len; lia|].
  unfold reg_store. rewrite E, N, wr_mid by (rewrite map_length; reflexivity).
  eexists. split; [reflexivity|]. split.
  - repeat split; cbn [tt_init tt_timer tt_num tt_slots]; auto.
    + rewrite E in Len. rewrite app_length in *. cbn [length] in *. exact Len.
    + eexists. reflexivity.
  - repeat split; cbn [reg_count tt_init tt_timer tt_num tt_slots]; auto.
    + rewrite app_length. cbn [length]. unfold u8. lia.
    + rewrite app_length. cbn [length]. lia.
    + rewrite E in Len. rewrite app_length in *. cbn [length] in *. exact Len.
    + exists rest. rewrite map_app, <- app_assoc. reflexivity.
Qed.

Lemma tt_run_spec inst : forall es tasks t, tt_inv inst tasks t -> timers_unsigned es ->
  exists t' tasks', tt_run t es = Some (t', timer_spec inst tasks es) /\ tt_inv inst tasks' t'.
Proof.
  induction es as [|e es IH]; intros tasks t I U; [exists t, tasks; auto|].
  assert (U' : timers_unsigned es) by (intros a b H; apply (U a b); now right).
  destruct e as [x k|i]; cbn [tt_run tt_step timer_spec].
  - pose proof (U x k (or_introl eq_refl)) as K. unfold TaskTimer_RegisterTask, reg_check. cbn [negb].
    unfold TASKTIMER_FREQUENCY_COUNT. rewrite Z.geb_leb.
    destruct (Z.eqb_spec k 0) as [->|Nk].
    + destruct (Z.leb_spec 1 0); [lia|]. unfold TASKTIMER_MAX_TASKS.
      pose proof I as (_ & _ & N & L & _). rewrite N.
      destruct (Nat.ltb_spec (length tasks) 16) as [H1|H1].
      * destruct (Z.eqb_spec 16 (Z.of_nat (length tasks))); [lia|].
        destruct (store_spec inst tasks t x I H1) as (t1 & -> & _ & I2).
        destruct (IH _ _ I2 U') as (t2 & ts & -> & I3). exists t2, ts. auto.
      * destruct (Z.eqb_spec 16 (Z.of_nat (length tasks))); [|lia].
        destruct (IH _ _ I U') as (t2 & ts & -> & I3). exists t2, ts. auto.
    + destruct (Z.leb_spec 1 k); [|lia].
      destruct (IH _ _ I U') as (t2 & ts & -> & I3). exists t2, ts. auto.
  - rewrite (tick_spec inst tasks t i I). destruct (IH _ _ I U') as (t2 & ts & -> & I3). exists t2, ts. auto.
Qed.

(** ** LEDs *)
Lemma pin_eqb_refl p : pin_eqb p p = true.
Proof. unfold pin_eqb. now rewrite !Z.eqb_refl. Qed.

Lemma pin_eqb_neq p q : p <> q -> pin_eqb p q = false.
Proof.
  intros H. unfold pin_eqb. destruct (Z.eqb_spec (fst p) (fst q)), (Z.eqb_spec (snd p) (snd q)); auto.
  destruct p, q. cbn [fst snd] in *. subst. easy.
Qed.

Lemma ticks_app a b : ticks (a ++ b) = ticks a + ticks b.
Proof. induction a as [|[|] a IH]; cbn [app ticks]; lia. Qed.

Lemma ticks_nonneg es : 0 <= ticks es.
Proof. induction es as [|[|] es IH]; cbn [ticks]; lia. Qed.

Lemma led_inv blink out g : blink <> out -> forall es,
  let w := led_run blink out (led_boot out g) es in
  lw_counter w = ticks es mod 100 /\
  lw_pins w blink = xorb (g blink) (Z.odd (ticks es / 100)) /\
  lw_pins w out = last_request es /\
  (forall q, q <> blink -> q <> out -> lw_pins w q = g q).
Proof.
  intros N. assert (N1 : pin_eqb blink out = false) by (now apply pin_eqb_neq).
  assert (N2 : pin_eqb out blink = false) by (apply pin_eqb_neq; congruence).
  induction es as [|e es IH] using rev_ind.
  - cbn. unfold GPIO_WritePin. rewrite N1, pin_eqb_refl. repeat split.
    + now rewrite xorb_false_r.
    + intros q _ Q. now rewrite (pin_eqb_neq q out Q).
  - unfold led_run in *. rewrite fold_left_app. cbn [fold_left]. rewrite ticks_app.
    unfold last_request. rewrite fold_left_app. cbn [fold_left]. fold (last_request es).
    destruct IH as (C & B & O & Q). pose proof (ticks_nonneg es) as P.
    set (w := fold_left _ es _) in *. destruct e as [|on]; cbn [led_step ticks].
    + unfold WatchdogTrigger. rewrite C. unfold u16.
      rewrite (Z.mod_small (_ mod 100 + 1)) by lia.
      destruct (Z.eqb_spec 100 (ticks es mod 100 + 1)); cbn [lw_counter lw_pins].
      * unfold GPIO_TogglePin. rewrite pin_eqb_refl, N2, B.
        repeat split; [lia| |exact O|intros q Q1 Q2; rewrite (pin_eqb_neq q blink Q1); auto].
        replace ((ticks es + (1 + 0)) / 100) with (ticks es / 100 + 1) by lia.
        rewrite Z.add_1_r, Z.odd_succ, <- Z.negb_odd. now destruct (g blink), (Z.odd (ticks es / 100)).
      * repeat split; auto; [lia|]. rewrite B. do 2 f_equal. lia.
    + unfold DashboardOut_Set. cbn [lw_counter lw_pins]. unfold GPIO_WritePin. rewrite pin_eqb_refl, N1, Z.add_0_r.
      repeat split; auto. intros q Q1 Q2. rewrite (pin_eqb_neq q out Q2). auto.
Qed.

Lemma dark_ticks blink out : forall n w, 0 <= lw_counter w -> lw_counter w + Z.of_nat n < 100 ->
  led_run blink out w (repeat LedTick n) = mkLed (lw_counter w + Z.of_nat n) (lw_pins w).
Proof.
  induction n as [|n IH]; intros w H H1.
  - cbn. rewrite Z.add_0_r. now destruct w.
  - cbn [repeat]. unfold led_run in *. cbn [fold_left led_step]. unfold WatchdogTrigger, u16.
    rewrite Z.mod_small by lia. destruct (Z.eqb_spec 100 (lw_counter w + 1)); [lia|].
    rewrite IH; cbn [lw_counter lw_pins]; try lia. f_equal. lia.
Qed.
