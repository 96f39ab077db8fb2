From Coq Require Import ZifyBool ZifyNat.
From Verif.Base Require Import Words Gpio Mem Stream.
From Verif.Model Require Import Wheelspeed Pdm Sdc.
From Verif.Spec Require Import IoSpec.
From Verif.Proof Require Import MemFacts.

(** ** Counting edges *)
Lemma land_bit : forall s k, 0 <= k -> Z.land s (2 ^ k) = if Z.testbit s k then 2 ^ k else 0.
Proof.
  intros s k Hk. apply Z.bits_inj'. intros j Hj. rewrite Z.land_spec, Z.pow2_bits_eqb by lia.
  destruct (Z.eqb_spec k j) as [->|Ne].
  - rewrite andb_true_r. destruct (Z.testbit s j); [now rewrite Z.pow2_bits_true by lia|now rewrite Z.bits_0].
  - rewrite andb_false_r. destruct (Z.testbit s k); [rewrite Z.pow2_bits_false by lia; auto|now rewrite Z.bits_0].
Qed.

Lemma bit_low : forall s k, 0 <= k -> (Z.land s (2 ^ k) =? 0) = negb (Z.testbit s k).
Proof.
  intros. rewrite land_bit by assumption. assert (0 < 2 ^ k) by (apply Z.pow_pos_nonneg; lia).
  destruct (Z.testbit s k); [apply Z.eqb_neq; lia|reflexivity].
Qed.
Lemma bit_high : forall s k, 0 <= k -> (Z.land s (2 ^ k) >? 0) = Z.testbit s k.
Proof.
  intros. rewrite land_bit by assumption. assert (0 < 2 ^ k) by (apply Z.pow_pos_nonneg; lia).
  rewrite Z.gtb_ltb. destruct (Z.testbit s k); [apply Z.ltb_lt; lia|reflexivity].
Qed.

Lemma rising_cons : forall a b l,
  rising (a :: b :: l) = b2z (negb a && b) + rising (b :: l).
Proof.
  intros a b l. unfold rising. change (tl (a :: b :: l)) with (b :: l).
  change (combine (a :: b :: l) (b :: l)) with ((a, b) :: combine (b :: l) l).
  change (tl (b :: l)) with l. cbn [filter fst snd].
  destruct (negb a && b); cbn [length b2z]; lia.
Qed.
Lemma rising_one : forall a, rising [a] = 0. Proof. reflexivity. Qed.
Lemma rising_nonneg : forall l, 0 <= rising l. Proof. intros. unfold rising. lia. Qed.

Lemma rising_bound : forall l, 2 * rising l <= Z.of_nat (length l).
Proof.
  assert (H : forall l a, 2 * rising (a :: l) + b2z a <= Z.of_nat (length (a :: l))).
  { induction l as [|b l IH]; intros a.
    - rewrite rising_one. destruct a; simpl; lia.
    - rewrite rising_cons. specialize (IH b). cbn [length] in *. destruct a, b; cbn [negb andb b2z] in *; lia. }
  intros [|a l]; [unfold rising; simpl; lia|]. specialize (H l a). destruct a; cbn [b2z] in H; lia.
Qed.

Lemma count_loop_rising : forall rest prev f r,
  0 <= f -> f + Z.of_nat (length rest) < 65536 -> 0 <= r -> r + Z.of_nat (length rest) < 65536 ->
  count_loop prev rest f r = (f + rising (fronts (prev :: rest)), r + rising (rears (prev :: rest))).
Proof.
  induction rest as [|s rest IH]; intros prev f r H1 H2 H3 H4.
  - simpl. rewrite !rising_one. f_equal; lia.
  - cbn [count_loop fronts rears map]. rewrite !rising_cons.
    change 2 with (2 ^ 1). change (Z.land ?x 1) with (Z.land x (2 ^ 0)).
    rewrite !bit_low, !bit_high by lia. cbn [length] in *.
    destruct (negb (Z.testbit prev 1) && Z.testbit s 1) eqn:Ef;
      destruct (negb (Z.testbit prev 0) && Z.testbit s 0) eqn:Er; cbn [b2z];
      rewrite IH; unfold u16 in *; rewrite ?(Z.mod_small _ (2 ^ 16)) by lia;
      cbn [fronts rears map]; try (f_equal; lia); lia.
Qed.

Lemma count_rising : forall l, (length l <= 2000)%nat ->
  countLowHighTransitions l = (rising (fronts l), rising (rears l)).
Proof.
  intros [|s l] H; [reflexivity|]. simpl countLowHighTransitions.
  rewrite count_loop_rising; cbn [length] in *; lia || auto.
Qed.

Lemma rpm_exact : forall teeth c, 1 <= teeth -> 0 <= c <= 1000 -> rpm teeth c = Some (60 * c / teeth).
Proof.
  intros teeth c Ht Hc. unfold rpm. destruct (Z.eqb_spec teeth 0); [lia|]. f_equal.
  unfold u16. apply Z.mod_small. split; [apply Z.div_pos; lia|].
  apply Z.le_lt_trans with (60 * c); [|lia]. apply Z.div_le_upper_bound; [lia|]. nia.
Qed.

Lemma batch_exact : forall teeth l, 1 <= teeth -> (length l <= 2000)%nat ->
  calculateRpm teeth (countLowHighTransitions l) = Some (wheel_of teeth l).
Proof.
  intros teeth l Ht Hl. rewrite count_rising by assumption. unfold calculateRpm. cbn [fst snd].
  pose proof (rising_bound (fronts l)) as Bf. pose proof (rising_bound (rears l)) as Br.
  pose proof (rising_nonneg (fronts l)). pose proof (rising_nonneg (rears l)).
  unfold fronts, rears in *. rewrite map_length in *.
  rewrite !rpm_exact by lia. reflexivity.
Qed.

(** ** Histories of interrupts and ticks *)
Lemma tick_ok : forall teeth w lock, 1 <= teeth -> exists w',
  Wheelspeed_TaskMethod teeth w lock = Some w' /\
  ws_counter w' = u16 (ws_counter w + 1) /\
  (ws_counter w mod 100 = 0 ->
     ws_stream w = firstn (Z.to_nat 2000) (ws_stream w) ++ ws_stream w' /\
     (ws_stream w <> [] -> lock = true ->
        ws_pub w' = wheel_of teeth (firstn (Z.to_nat 2000) (ws_stream w)))) /\
  (ws_counter w mod 100 = 0 -> ws_stream w = [] \/ lock = false -> ws_pub w' = ws_pub w) /\
  (ws_counter w mod 100 <> 0 -> ws_stream w' = ws_stream w /\ ws_pub w' = ws_pub w).
Proof.
  intros teeth w lock Ht. unfold Wheelspeed_TaskMethod, stream_recv, WSS_BATCH_RECV_SIZE.
  destruct (Z.eqb_spec (ws_counter w mod 100) 0) as [E|E].
  - rewrite batch_exact by (auto; rewrite firstn_length; lia).
    rewrite Z.gtb_ltb.
    destruct (Z.ltb_spec 0 (Z.of_nat (length (firstn (Z.to_nat 2000) (ws_stream w))))) as [L|L].
    + eexists. split; [reflexivity|]. cbn [ws_stream ws_counter ws_pub].
      split; [reflexivity|]. split; [intros _; split|split].
      * now rewrite firstn_skipn.
      * intros _ ->. reflexivity.
      * intros _ [N| ->]; [|reflexivity]. rewrite N, firstn_nil in L. simpl in L. lia.
      * lia.
    + assert (N : ws_stream w = []).
      { rewrite firstn_length in L. destruct (ws_stream w); [reflexivity|cbn [length] in L; lia]. }
      eexists. split; [reflexivity|]. cbn [ws_stream ws_counter ws_pub].
      split; [reflexivity|]. split; [intros _; split|split].
      * now rewrite firstn_skipn.
      * intros; congruence.
      * auto.
      * lia.
  - eexists. split; [reflexivity|]. cbn [ws_stream ws_counter ws_pub]. repeat split; auto; lia.
Qed.

Lemma ws_total : forall teeth tr w, 1 <= teeth -> exists w', ws_run teeth w tr = Some w'.
Proof.
  intros teeth tr w Ht. revert w. induction tr as [|[f r|l] tr IH]; intros w; simpl; eauto.
  destruct (tick_ok teeth w l Ht) as (w' & -> & _). apply IH.
Qed.

Lemma ws_run_app : forall teeth a b w, ws_run teeth w (a ++ b) =
  match ws_run teeth w a with Some w' => ws_run teeth w' b | None => None end.
Proof. induction a; intros b w; simpl; [reflexivity|]. destruct (ws_step teeth w a); auto. Qed.

Lemma ticks_app : forall a b, ticks (a ++ b) = ticks a + ticks b.
Proof. induction a as [|[] a IH]; intros b; simpl; rewrite ?IH; lia. Qed.
Lemma ticks_nonneg : forall a, 0 <= ticks a.
Proof. induction a as [|[] a IH]; simpl; lia. Qed.

Lemma ws_counter_run : forall teeth tr w w', 1 <= teeth -> 0 <= ws_counter w < 65536 ->
  ws_run teeth w tr = Some w' -> ws_counter w' = (ws_counter w + ticks tr) mod 65536.
Proof.
  intros teeth tr. induction tr as [|[f r|l] tr IH]; intros w w' Ht Hw; simpl.
  - intros [= <-]. rewrite Z.add_0_r, Z.mod_small by lia. reflexivity.
  - intros R. apply IH in R; auto.
  - destruct (tick_ok teeth w l Ht) as (w1 & -> & C & _). intros R.
    apply IH in R; [|assumption|rewrite C; apply Z.mod_pos_bound; lia].
    rewrite R, C. unfold u16. change (2 ^ 16) with 65536. rewrite Zplus_mod_idemp_l. f_equal. lia.
Qed.

(** No sample is lost as long as the stream never fills up. *)
Lemma ws_partition : forall teeth tr w w', 1 <= teeth ->
  ws_run teeth w tr = Some w' ->
  exists kept, concat (batches teeth w tr) ++ ws_stream w' = ws_stream w ++ map pack kept /\
    Forall (fun b => (length b <= 2000)%nat) (batches teeth w tr) /\
    ((length (ws_stream w) + length (sampled tr) <= Z.to_nat 3999)%nat -> kept = sampled tr).
Proof.
  intros teeth tr. induction tr as [|[f r|l] tr IH]; intros w w' Ht; cbn [ws_run batches sampled].
  - intros [= <-]. exists []. simpl. rewrite app_nil_r. auto.
  - cbn [ws_step]. intros R. destruct (IH _ _ Ht R) as (k & E & F & N).
    unfold TIM_IRQHandler, stream_send, WSS_STREAM_CAP in *. cbn [ws_stream] in *.
    destruct (Z.to_nat 3999 - length (ws_stream w))%nat eqn:D.
    + exists k. cbn [firstn] in *. rewrite app_nil_r in *. split; [exact E|]. split; [exact F|].
      cbn [length]. lia.
    + exists ((f, r) :: k). cbn [firstn] in *. rewrite firstn_nil in *.
      rewrite <- app_assoc in E. split; [exact E|].
      split; [exact F|]. intros L. f_equal. apply N. rewrite app_length. cbn [length] in *. lia.
  - cbn [ws_step]. destruct (tick_ok teeth w l Ht) as (w1 & -> & C & S1 & S2 & S3). intros R.
    destruct (IH _ _ Ht R) as (k & E & F & N).
    destruct (Z.eqb_spec (ws_counter w mod 100) 0) as [Z0|Z0].
    + destruct (S1 Z0) as [P _]. exists k. split; [|split].
      * cbn [concat]. rewrite <- app_assoc, E. rewrite P at 2. now rewrite app_assoc.
      * apply Forall_cons; [|exact F]. rewrite firstn_length. lia.
      * intros L. apply N. rewrite P, app_length in L. lia.
    + destruct (S3 Z0) as [P _]. rewrite P in *. eauto.
Qed.

Lemma rising_app : forall a x y b,
  rising ((a ++ [x]) ++ y :: b) = rising (a ++ [x]) + b2z (negb x && y) + rising (y :: b).
Proof.
  induction a as [|c a IH]; intros x y b.
  - simpl app. rewrite rising_cons, rising_one. lia.
  - destruct a as [|d a].
    + simpl app in *. rewrite !rising_cons. rewrite rising_one. lia.
    + specialize (IH x y b). simpl app in *. rewrite (rising_cons c d). rewrite IH.
      rewrite (rising_cons c d). lia.
Qed.

(** ** Power channels *)
Lemma pin_eqb_eq : forall a b, pin_eqb a b = true <-> a = b.
Proof.
  intros [a1 a2] [b1 b2]. unfold pin_eqb. simpl. rewrite andb_true_iff, !Z.eqb_eq.
  split; [intros [-> ->]; reflexivity|intros [= -> ->]; auto].
Qed.

Lemma pdm_num : forall p chans, pdm_ok p chans -> 0 < pd_num p <= 8.
Proof.
  intros p chans [I C L _]. unfold PDM_Init in I. rewrite C in I. simpl in I.
  destruct (Z.eqb_spec (pd_num p) 0); [discriminate|]. simpl in I.
  unfold VEHICLESTATE_MAXPDM_CHANNELS in I. rewrite Z.gtb_ltb in I.
  destruct (Z.ltb_spec 8 (pd_num p)); [discriminate|]. lia.
Qed.

Lemma nth_upd : forall A (l : list A) i j x d, (i < length l)%nat ->
  nth j (upd l i x) d = if Nat.eqb j i then x else nth j l d.
Proof.
  induction l; intros i j x d H; simpl in H; [lia|].
  destruct i, j; simpl; auto. apply IHl. lia.
Qed.

Lemma set_output_effect : forall p chans w ch st lk, pdm_ok p chans -> length (pw_state w) = 8%nat ->
  0 <= ch ->
  exists w' status, PDM_SetOutputEnabled p w ch st lk = Some (w', status) /\
    length (pw_state w') = 8%nat /\
    (accepted (pd_num p) (ch, st, lk) = false -> w' = w /\ status <> PDM_STATUS_OK) /\
    (accepted (pd_num p) (ch, st, lk) = true ->
       status = PDM_STATUS_OK /\
       (forall q, pw_gpio w' q = if pin_eqb q (chan_pin chans ch) then st else pw_gpio w q) /\
       (forall c, 0 <= c -> nth (Z.to_nat c) (pw_state w') false =
                  if c =? ch then st else nth (Z.to_nat c) (pw_state w) false)).
Proof.
  intros p chans w ch st lk Ok Ls H0. pose proof (pdm_num _ _ Ok) as Hn. destruct Ok as [I C L D].
  unfold PDM_SetOutputEnabled, accepted. rewrite Z.geb_leb.
  destruct (Z.leb_spec (pd_num p) ch).
  - exists w, PDM_STATUS_ERROR_INVALID_CH. destruct (Z.ltb_spec ch (pd_num p)); [lia|]. simpl.
    repeat split; auto; try discriminate.
  - destruct (Z.ltb_spec ch (pd_num p)); [|lia]. destruct lk; simpl.
    + unfold wr. rewrite Ls. destruct (Z.leb_spec 0 ch); [|lia].
      destruct (Z.ltb_spec ch (Z.of_nat 8)); [|lia]. simpl.
      rewrite C. rewrite (rd_nth _ chans ch (0, 0)) by lia.
      eexists _, _. split; [reflexivity|]. cbn [pw_state pw_gpio]. split; [now rewrite upd_length|].
      split; [discriminate|]. intros _. split; [reflexivity|]. split; [reflexivity|].
      intros c Hc. rewrite nth_upd by lia.
      destruct (Z.eqb_spec c ch); destruct (Nat.eqb_spec (Z.to_nat c) (Z.to_nat ch)); auto; lia.
    + exists w, PDM_STATUS_ERROR_STATE. repeat split; auto; discriminate.
Qed.

Lemma pdm_run_app : forall p a b w, pdm_run p w (a ++ b) =
  match pdm_run p w a with Some w' => pdm_run p w' b | None => None end.
Proof.
  induction a as [|[[ch st] lk] a IH]; intros b w; simpl; [reflexivity|].
  destruct (PDM_SetOutputEnabled p w ch st lk) as [[w' s]|]; auto.
Qed.

Lemma last_request_snoc : forall num ch calls c prev,
  last_request num ch (calls ++ [c]) prev =
  if accepted num c && (fst (fst c) =? ch) then snd (fst c) else last_request num ch calls prev.
Proof.
  intros. unfold last_request. rewrite rev_app_distr. simpl.
  destruct (accepted num c && (fst (fst c) =? ch)); [|reflexivity]. now destruct c as [[a b] l].
Qed.

Lemma chan_pin_inj : forall chans a b, NoDup chans -> 0 <= a < Z.of_nat (length chans) ->
  0 <= b < Z.of_nat (length chans) -> chan_pin chans a = chan_pin chans b -> a = b.
Proof.
  intros chans a b D Ha Hb E. unfold chan_pin in E.
  apply (proj1 (NoDup_nth chans (0, 0)) D) in E; lia.
Qed.

Lemma pdm_history : forall p chans w calls, pdm_ok p chans -> length (pw_state w) = 8%nat ->
  Forall (fun c => 0 <= fst (fst c)) calls ->
  exists w', pdm_run p w calls = Some w' /\ length (pw_state w') = 8%nat /\
    (forall ch, 0 <= ch < pd_num p ->
       pw_gpio w' (chan_pin chans ch) = last_request (pd_num p) ch calls (pw_gpio w (chan_pin chans ch)) /\
       nth (Z.to_nat ch) (pw_state w') false =
         last_request (pd_num p) ch calls (nth (Z.to_nat ch) (pw_state w) false)) /\
    (forall q, ~ In q chans -> pw_gpio w' q = pw_gpio w q) /\
    (forall ch, pd_num p <= ch -> nth (Z.to_nat ch) (pw_state w') false = nth (Z.to_nat ch) (pw_state w) false).
Proof.
  intros p chans w calls Ok Ls. pose proof (pdm_num _ _ Ok) as Hn.
  assert (Lc := po_len _ _ Ok). assert (Dc := po_distinct _ _ Ok).
  induction calls as [|[[ch st] lk] calls IH] using rev_ind; intros F.
  - exists w. repeat split; auto.
  - apply Forall_app in F. destruct F as [F1 F2]. apply Forall_inv in F2. cbn [fst] in F2.
    destruct (IH F1) as (w1 & R & L1 & A & B & Cc). rewrite pdm_run_app, R. cbn [pdm_run].
    destruct (set_output_effect p chans w1 ch st lk Ok L1 F2) as (w2 & s & E & L2 & Rej & Acc).
    rewrite E. exists w2. split; [reflexivity|]. split; [exact L2|].
    destruct (accepted (pd_num p) (ch, st, lk)) eqn:Ea.
    + destruct (Acc eq_refl) as (_ & G & St).
      assert (Hch : ch < pd_num p).
      { unfold accepted in Ea. apply andb_prop in Ea. destruct Ea as [Ea _]. now apply Z.ltb_lt in Ea. }
      repeat split.
      * rewrite G, last_request_snoc, Ea. cbn [fst snd andb].
        destruct (Z.eqb_spec ch ch0) as [<-|Ne].
        -- now rewrite (proj2 (pin_eqb_eq _ _)).
        -- destruct (pin_eqb (chan_pin chans ch0) (chan_pin chans ch)) eqn:Ep; [|now apply A].
           apply pin_eqb_eq in Ep. apply chan_pin_inj in Ep; [lia|assumption|lia|lia].
      * rewrite St by lia. rewrite last_request_snoc, Ea. cbn [fst snd andb].
        rewrite (Z.eqb_sym ch0 ch). destruct (Z.eqb ch ch0); [reflexivity|now apply A].
      * intros q Hq. rewrite G. destruct (pin_eqb q (chan_pin chans ch)) eqn:Ep; [|now apply B].
        apply pin_eqb_eq in Ep. elim Hq. rewrite Ep. apply nth_In. lia.
      * intros c Hc. rewrite St by lia. destruct (Z.eqb_spec c ch); [lia|]. now apply Cc.
    + destruct (Rej eq_refl) as [-> _]. repeat split; auto.
      * rewrite last_request_snoc, Ea. cbn [andb]. now apply A.
      * rewrite last_request_snoc, Ea. cbn [andb]. now apply A.
Qed.

(** ** Shutdown circuit *)
Lemma irq_inputs : forall w, sw_inputs (SDC_IRQHandler w) = sw_pins w /\
  sw_pins (SDC_IRQHandler w) = sw_pins w /\ sw_pc (SDC_IRQHandler w) = sw_pc w /\
  sw_pub (SDC_IRQHandler w) = sw_pub w /\
  (sw_inputs w = sw_pins w -> sw_notified (SDC_IRQHandler w) = sw_notified w) /\
  (sw_inputs w <> sw_pins w -> sw_notified (SDC_IRQHandler w) = sw_notified w + 1).
Proof.
  intros [[p1 p2 p3 p4] [i1 i2 i3 i4] n pc pub].
  destruct p1, p2, p3, p4, i1, i2, i3, i4; cbn; repeat split; auto; intros; congruence.
Qed.

(** Without a pending notification and outside the copy, the published record
    is the one of the interrupt handler; inside the copy, the members already
    copied are. *)
Definition member (k : Z) (s : sdc_t) : bool :=
  if k =? 1 then s_bms s else if k =? 2 then s_bspd s else if k =? 3 then s_imd s else s_out s.

Record sdc_inv (w : sdc_world) : Prop := {
  si_n : 0 <= sw_notified w;
  si_pc : 0 <= sw_pc w <= 4;
  si_sync : sw_notified w = 0 ->
     forall k, 1 <= k <= 4 -> (sw_pc w = 0 \/ k < sw_pc w) -> member k (sw_pub w) = member k (sw_inputs w) }.

Lemma sdc_inv_init : forall p, sdc_inv (sdc_init p).
Proof. intros p. split; cbn; try lia. intros _ k _ _. unfold member. cbn.
  repeat destruct (_ =? _); reflexivity. Qed.

Lemma sdc_inv_step : forall w e, sdc_inv w -> e <> SdcTask false -> sdc_inv (sdc_step w e).
Proof.
  intros w e [N P S] He. destruct e as [l| |[|]]; [| | |congruence].
  - split; cbn; auto.
  - destruct (irq_inputs w) as (I1 & I2 & I3 & I4 & I5 & I6). cbn [sdc_step].
    assert (D : {sw_inputs w = sw_pins w} + {sw_inputs w <> sw_pins w}) by (repeat decide equality).
    destruct D as [D|D]; [specialize (I5 D); clear I6|specialize (I6 D); clear I5].
    + split; rewrite ?I3, ?I5; auto. rewrite I1, I4, <- D. exact S.
    + split; rewrite ?I3, ?I6; try lia.
  - cbn [sdc_step]. destruct w as [pins i n pc pub]. cbn [sw_notified sw_pc sw_inputs sw_pub] in *.
    unfold SDC_TaskStep. cbn [sw_notified sw_pc sw_inputs sw_pub sw_pins].
    destruct (Z.eqb_spec pc 0) as [->|]; [|destruct (Z.eqb_spec pc 1) as [->|];
      [|destruct (Z.eqb_spec pc 2) as [->|]; [|destruct (Z.eqb_spec pc 3) as [->|]]]].
    + rewrite Z.gtb_ltb. destruct (Z.ltb_spec 0 n).
      * split; cbn; try lia.
      * split; cbn; auto.
    + split; cbn; try lia. intros E k Hk [L|L]; [lia|]. assert (k = 1) by lia. subst. reflexivity.
    + split; cbn; try lia. intros E k Hk [L|L]; [lia|].
      assert (K : k = 1 \/ k = 2) by lia. destruct K as [->| ->]; [|reflexivity].
      apply (S E 1); lia.
    + split; cbn; try lia. intros E k Hk [L|L]; [lia|].
      assert (K : k = 1 \/ k = 2 \/ k = 3) by lia. destruct K as [->|[->| ->]]; [| |reflexivity].
      * apply (S E 1); lia.
      * apply (S E 2); lia.
    + assert (pc = 4) by lia. subst pc. split; cbn; try lia. intros E k Hk _.
      assert (K : k = 1 \/ k = 2 \/ k = 3 \/ k = 4) by lia. destruct K as [->|[->|[->| ->]]]; [| | |reflexivity].
      * apply (S E 1); lia.
      * apply (S E 2); lia.
      * apply (S E 3); lia.
Qed.

Lemma sdc_inv_run : forall tr w, sdc_inv w -> locks_ok tr -> sdc_inv (sdc_run w tr).
Proof.
  induction tr as [|e tr IH]; intros w I L; [exact I|]. cbn. apply IH.
  - apply sdc_inv_step; auto. intros ->. apply L. now left.
  - intros H. apply L. now right.
Qed.

Lemma members_eq : forall a b, (forall k, 1 <= k <= 4 -> member k a = member k b) -> a = b.
Proof.
  intros [a1 a2 a3 a4] [b1 b2 b3 b4] H.
  pose proof (H 1 ltac:(lia)) as H1. pose proof (H 2 ltac:(lia)) as H2.
  pose proof (H 3 ltac:(lia)) as H3. pose proof (H 4 ltac:(lia)) as H4. cbn in *. congruence.
Qed.


Lemma sdc_run_app : forall a b w, sdc_run w (a ++ b) = sdc_run (sdc_run w a) b.
Proof. intros. unfold sdc_run. now rewrite fold_left_app. Qed.

Lemma quiet_inputs : forall tr w, no_pin_change tr ->
  sw_pins (sdc_run w tr) = sw_pins w /\
  (sw_inputs w = sw_pins w -> sw_inputs (sdc_run w tr) = sw_pins w).
Proof.
  induction tr as [|e tr IH]; intros w Q; [cbn; auto|]. cbn [sdc_run fold_left].
  change (fold_left sdc_step tr (sdc_step w e)) with (sdc_run (sdc_step w e) tr).
  assert (Q' : no_pin_change tr) by (intros l Hl; apply (Q l); now right).
  destruct (IH (sdc_step w e) Q') as [I1 I2].
  assert (E1 : sw_pins (sdc_step w e) = sw_pins w).
  { destruct e as [l| |l]; [exfalso; apply (Q l); now left|now apply irq_inputs|].
    cbn. unfold SDC_TaskStep. repeat (destruct (_ =? _); try reflexivity).
    now destruct (sw_notified w >? 0). }
  rewrite E1 in *. split; [exact I1|]. intros H. apply I2.
  destruct e as [l| |l]; [exfalso; apply (Q l); now left|now apply irq_inputs|].
  cbn. unfold SDC_TaskStep. repeat (destruct (_ =? _); try exact H).
  now destruct (sw_notified w >? 0).
Qed.

(** After the interrupt that follows the last pin change, the published record
    equals the pins as soon as the task is idle... *)
Lemma sdc_settles : forall pins0 before after,
  locks_ok (before ++ after) -> no_pin_change after ->
  idle (sdc_run (sdc_init pins0) (before ++ SdcIrq :: after)) ->
  sw_pub (sdc_run (sdc_init pins0) (before ++ SdcIrq :: after)) = sw_pins (sdc_run (sdc_init pins0) before).
Proof.
  intros pins0 before after L Q [P0 N0].
  assert (L' : locks_ok (before ++ SdcIrq :: after)).
  { intros H. apply L. apply in_app_or in H. apply in_or_app. destruct H as [H|[H|H]]; auto; discriminate. }
  pose proof (sdc_inv_run _ _ (sdc_inv_init pins0) L') as [_ _ S].
  specialize (S N0). rewrite sdc_run_app in *.
  set (w := sdc_run (sdc_init pins0) before) in *.
  change (sdc_run w (SdcIrq :: after)) with (sdc_run (sdc_step w SdcIrq) after) in *.
  destruct (irq_inputs w) as (I1 & I2 & _).
  destruct (quiet_inputs after (sdc_step w SdcIrq) Q) as [_ Q2]. cbn [sdc_step] in *.
  rewrite I1, I2 in Q2. specialize (Q2 eq_refl).
  rewrite <- Q2. apply members_eq. intros k Hk. apply S; auto.
Qed.

(** ... and a few uninterrupted runs of the task make it idle. *)
Lemma finish_copy : forall p i n k pub, 1 <= k <= 4 -> exists pub',
  sdc_run (mkSw p i n k pub) (repeat (SdcTask true) (Z.to_nat (5 - k))) = mkSw p i n 0 pub'.
Proof.
  intros p i n k pub H. assert (K : k = 1 \/ k = 2 \/ k = 3 \/ k = 4) by lia.
  destruct K as [->|[->|[->| ->]]]; eexists; reflexivity.
Qed.

Lemma take_and_copy : forall p i n pub, 0 < n -> exists pub',
  sdc_run (mkSw p i n 0 pub) (repeat (SdcTask true) 5) = mkSw p i 0 0 pub'.
Proof.
  intros p i n pub H. destruct (finish_copy p i 0 1 pub ltac:(lia)) as [pub' E].
  exists pub'. rewrite <- E. change (repeat (SdcTask true) 5) with ([SdcTask true] ++ repeat (SdcTask true) 4).
  rewrite sdc_run_app. f_equal. cbn [sdc_run fold_left sdc_step]. unfold SDC_TaskStep.
  cbn [sw_pc sw_notified]. change (0 =? 0) with true. rewrite Z.gtb_ltb. destruct (Z.ltb_spec 0 n); [reflexivity|lia].
Qed.

Lemma sdc_catches_up : forall w, sdc_inv w ->
  exists k, (k <= 9)%nat /\ idle (sdc_run w (repeat (SdcTask true) k)).
Proof.
  intros [p i n pc pub] [N P _]. cbn [sw_notified sw_pc] in *.
  assert (C : pc = 0 \/ 1 <= pc <= 4) by lia. assert (D : n = 0 \/ 0 < n) by lia.
  destruct C as [->|C].
  - destruct D as [->|D].
    + exists 0%nat. split; [lia|split; reflexivity].
    + destruct (take_and_copy p i n pub D) as [pub' E]. exists 5%nat. rewrite E. split; [lia|split; reflexivity].
  - destruct (finish_copy p i n pc pub C) as [pub' E]. destruct D as [->|D].
    + exists (Z.to_nat (5 - pc)). rewrite E. split; [lia|split; reflexivity].
    + destruct (take_and_copy p i n pub' D) as [pub2 E2].
      exists (Z.to_nat (5 - pc) + 5)%nat. rewrite repeat_app, sdc_run_app, E, E2.
      split; [lia|split; reflexivity].
Qed.
