From Verif.Base Require Import Stream.
From Verif.Model Require Import WheelTimer.
From Verif.Spec Require Import WheelTimerSpec.
From Coq Require Import Lia ZifyBool ZifyNat.

(** A running timer [c] cycles after its counters were 0. *)
Definition phase (t : tim) (psc arr c : Z) : Prop :=
  0 <= psc /\ 0 <= arr /\ t_psc t = psc /\ t_arr t = arr /\ t_cen t = true /\ t_uie t = true /\
  0 <= t_pc t <= psc /\ 0 <= t_cnt t <= arr /\
  c mod ((psc + 1) * (arr + 1)) = t_cnt t * (psc + 1) + t_pc t.

Lemma in_period a b x r : 0 <= r < a -> 0 <= x -> x + 1 < b -> x * a + r + 1 < a * b.
Proof. intros. nia. Qed.
Lemma in_period' a b x r : 0 <= r -> r + 1 < a -> 0 <= x < b -> x * a + r + 1 < a * b.
Proof. intros. nia. Qed.

Lemma phase_step t psc arr c :
  phase t psc arr c ->
  phase (fst (tim_cycle t)) psc arr (c + 1) /\
  snd (tim_cycle t) = ((c + 1) mod ((psc + 1) * (arr + 1)) =? 0).
Proof.
  intros (P & A & EP & EA & C & U & B1 & B2 & M).
  set (T := (psc + 1) * (arr + 1)) in *.
  assert (T1 : 1 <= T) by (unfold T; nia).
  assert (D : c = T * (c / T) + (t_cnt t * (psc + 1) + t_pc t)) by (rewrite <- M; apply Z.div_mod; lia).
  assert (L : t_cnt t * (psc + 1) + t_pc t < T) by (unfold T; nia).
  assert (N0 : 0 <= t_cnt t * (psc + 1) + t_pc t) by nia.
  assert (N1 : 0 <= t_cnt t * (psc + 1) + t_pc t + 1) by lia.
  unfold tim_cycle. rewrite C. cbn [negb].
  assert (W : forall r, 0 <= r < T -> t_cnt t * (psc + 1) + t_pc t + 1 = r -> (c + 1) mod T = r).
  { intros r R E. symmetry. apply (Z.mod_unique _ _ (c / T)); lia. }
  assert (W0 : t_cnt t * (psc + 1) + t_pc t + 1 = T -> (c + 1) mod T = 0).
  { intros E. symmetry. apply (Z.mod_unique _ _ (c / T + 1)); [lia|]. nia. }
  destruct (t_pc t <? t_psc t) eqn:E1; [|destruct (t_cnt t <? t_arr t) eqn:E2]; cbn [fst snd].
  - assert (Q : t_cnt t * (psc + 1) + t_pc t + 1 < T) by (apply in_period'; lia).
    rewrite (W _ (conj N1 Q) eq_refl). split.
    + unfold phase; cbn. repeat split; try lia; try assumption.
      fold T. rewrite (W _ (conj N1 Q) eq_refl). lia.
    + symmetry. apply Z.eqb_neq. lia.
  - assert (t_pc t = psc) by lia.
    assert (Q : t_cnt t * (psc + 1) + t_pc t + 1 < T) by (apply in_period; lia).
    rewrite (W _ (conj N1 Q) eq_refl). split.
    + unfold phase; cbn. repeat split; try lia; try assumption.
      fold T. rewrite (W _ (conj N1 Q) eq_refl). lia.
    + symmetry. apply Z.eqb_neq. lia.
  - assert (t_pc t = psc) by lia. assert (t_cnt t = arr) by lia.
    assert (Q : t_cnt t * (psc + 1) + t_pc t + 1 = T)
      by (replace (t_pc t) with psc by lia; replace (t_cnt t) with arr by lia; unfold T; lia).
    rewrite (W0 Q). split; [|reflexivity].
    unfold phase; cbn. repeat split; try lia; try assumption.
    fold T. rewrite (W0 Q). lia.
Qed.

Lemma phase_uie t psc arr c : phase t psc arr c -> t_uie t = true.
Proof. intros H. apply H. Qed.

Lemma div_step c T : 1 <= T -> (c + 1) / T - c / T = b2z ((c + 1) mod T =? 0).
Proof.
  intros H. unfold b2z.
  assert (D1 := Z.div_mod c T ltac:(lia)). assert (D2 := Z.div_mod (c + 1) T ltac:(lia)).
  assert (B1 := Z.mod_pos_bound c T ltac:(lia)). assert (B2 := Z.mod_pos_bound (c + 1) T ltac:(lia)).
  destruct ((c + 1) mod T =? 0) eqn:E; nia.
Qed.

Lemma interrupts_phase psc arr : forall n t c, phase t psc arr c ->
  interrupts t n = (c + Z.of_nat n) / ((psc + 1) * (arr + 1)) - c / ((psc + 1) * (arr + 1)).
Proof.
  induction n as [|n IH]; intros t c H.
  - cbn [interrupts Z.of_nat]. rewrite Z.add_0_r. lia.
  - cbn [interrupts]. destruct (phase_step _ _ _ _ H) as [H1 E].
    destruct (tim_cycle t) as [t' o]. cbn [fst snd] in *. subst o.
    rewrite (IH t' (c + 1) H1), (phase_uie _ _ _ _ H), Bool.andb_true_r.
    assert (T1 : 1 <= (psc + 1) * (arr + 1)) by (destruct H as (? & ? & _); nia).
    rewrite <- (div_step c _ T1). replace (c + Z.of_nat (S n)) with (c + 1 + Z.of_nat n) by lia. lia.
Qed.

Lemma rate_phase t psc arr c k w :
  phase t psc arr c -> 0 <= w -> w = k * ((psc + 1) * (arr + 1)) -> rate t k w.
Proof.
  intros H W E n. rewrite !(interrupts_phase _ _ _ _ _ H).
  assert (T1 : 1 <= (psc + 1) * (arr + 1)) by (destruct H as (? & ? & _); nia).
  set (T := (psc + 1) * (arr + 1)) in *.
  rewrite Nat2Z.inj_add, Z2Nat.id by lia. rewrite E.
  replace (c + (Z.of_nat n + k * T)) with (c + Z.of_nat n + k * T) by lia.
  rewrite Z.div_add by lia. lia.
Qed.

Lemma phase_fresh psc arr t : 0 <= psc -> 0 <= arr ->
  phase (HAL_TIM_Base_Start_IT (HAL_TIM_Base_Init psc arr t)) psc arr 0.
Proof. intros P A. unfold phase. cbn. repeat split; lia. Qed.

(** A stopped timer. *)
Lemma stopped_cycle t : t_cen t = false -> tim_cycle t = (t, false).
Proof. intros H. unfold tim_cycle. now rewrite H. Qed.

Lemma not_started ops i : ~ In (TStart i) ops ->
  t_cen (match i with T1 => tm1 | T2 => tm2 | T3 => tm3 end (set_up ops)) = false.
Proof.
  unfold set_up. assert (G : t_cen (match i with T1 => tm1 | T2 => tm2 | T3 => tm3 end tims_reset) = false)
    by (destruct i; reflexivity).
  revert G. generalize tims_reset. induction ops as [|o ops IH]; intros s G N; [exact G|].
  cbn [fold_left]. apply IH; [|intros X; apply N; now right].
  destruct o as [j p a|j].
  - destruct i, j; exact G.
  - assert (j <> i) by (intros ->; apply N; now left). destruct i, j; try exact G; congruence.
Qed.

Definition dead (s : wheel_sys) : Prop :=
  t_cen (wh_t3 s) = false /\ ws_stream (wh_ws s) = [] /\ ws_pub (wh_ws s) = zero_wheel.

Lemma task_empty teeth w lock : ws_stream w = [] ->
  exists w', Wheelspeed_TaskMethod teeth w lock = Some w' /\ ws_stream w' = [] /\ ws_pub w' = ws_pub w.
Proof.
  intros E. unfold Wheelspeed_TaskMethod. rewrite E.
  destruct (ws_counter w mod 100 =? 0).
  - unfold stream_recv. rewrite firstn_nil, skipn_nil. cbn. eexists. repeat split.
  - eexists. repeat split.
Qed.

Lemma dead_run teeth : forall tr s, dead s -> exists s', wheel_run teeth s tr = Some s' /\ dead s'.
Proof.
  induction tr as [|e tr IH]; intros s D; [exists s; split; [reflexivity|exact D]|].
  cbn [wheel_run]. destruct D as (C & St & P). destruct e as [f r|lock]; cbn [wheel_step].
  - destruct (tim_cycle (wh_t2 s)) as [t2 o2]. rewrite (stopped_cycle _ C). cbn [andb].
    apply IH. unfold dead. cbn. auto.
  - destruct (wh_note s).
    + destruct (task_empty teeth (wh_ws s) lock St) as (w & -> & E1 & E2).
      apply IH. unfold dead. cbn. rewrite E2. auto.
    + apply IH. unfold dead. auto.
Qed.

(** The system with both timers running. *)
Lemma live_run teeth p2 a2 p3 a3 : forall tr s c,
  phase (wh_t2 s) p2 a2 c -> phase (wh_t3 s) p3 a3 c ->
  option_map wh_ws (wheel_run teeth s tr) =
  ws_run teeth (wh_ws s) (seen ((p2 + 1) * (a2 + 1)) ((p3 + 1) * (a3 + 1)) c (wh_note s) tr).
Proof.
  induction tr as [|e tr IH]; intros s c H2 H3; [reflexivity|].
  cbn [wheel_run seen]. destruct e as [f r|lock]; cbn [wheel_step].
  - destruct (phase_step _ _ _ _ H2) as [H2' E2]. destruct (phase_step _ _ _ _ H3) as [H3' E3].
    destruct (tim_cycle (wh_t2 s)) as [t2 o2]. destruct (tim_cycle (wh_t3 s)) as [t3 o3].
    cbn [fst snd] in *.
    rewrite (phase_uie _ _ _ _ H2'), (phase_uie _ _ _ _ H3'), !Bool.andb_true_r.
    rewrite (IH _ (c + 1)) by assumption. cbn [wh_ws wh_note]. rewrite <- E3, <- E2.
    destruct o3; reflexivity.
  - destruct (wh_note s) eqn:N.
    + cbn [ws_run ws_step]. destruct (Wheelspeed_TaskMethod teeth (wh_ws s) lock) as [w|]; [|reflexivity].
      now rewrite (IH _ c).
    + rewrite (IH _ c) by assumption. now rewrite N.
Qed.
