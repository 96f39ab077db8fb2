From Coq Require Import ZifyBool ZifyNat.
From Verif.Base Require Import Mem.
From Verif.Model Require Import Adc.
From Verif.Spec Require Import AdcSpec.
From Verif.Proof Require Import MemFacts.
Ltac Zify.zify_post_hook ::= Z.div_mod_to_equations.

Notation at_ l i := (nth (Z.to_nat i) l 0).

(** ** Lists *)
Lemma upd_nth : forall (l : list Z) i j x, (i < length l)%nat ->
  nth j (upd l i x) 0 = if Nat.eqb j i then x else nth j l 0.
Proof.
  induction l; intros i j x H; simpl in H; [lia|].
  destruct i, j; simpl; auto. apply IHl. lia.
Qed.

Lemma wr_at : forall l i x l', wr l i x = Some l' ->
  length l' = length l /\ 0 <= i < Z.of_nat (length l) /\
  forall j, 0 <= j -> at_ l' j = if j =? i then x else at_ l j.
Proof.
  intros l i x l' H. pose proof (wr_length _ _ _ _ _ H) as L. unfold wr in H.
  destruct (Z.leb_spec 0 i); [|discriminate].
  destruct (Z.ltb_spec i (Z.of_nat (length l))); [|discriminate]. injection H as <-.
  split; [exact L|]. split; [lia|]. intros j Hj. rewrite upd_nth by lia.
  destruct (Z.eqb_spec j i); destruct (Nat.eqb_spec (Z.to_nat j) (Z.to_nat i)); auto; lia.
Qed.

Lemma wr_ok : forall (l : list Z) i x, 0 <= i < Z.of_nat (length l) -> exists l', wr l i x = Some l'.
Proof.
  intros l i x H. unfold wr. destruct (Z.leb_spec 0 i); [|lia].
  destruct (Z.ltb_spec i (Z.of_nat (length l))); [|lia]. eexists. reflexivity.
Qed.

Lemma copy_spec : forall len dest src off,
  0 <= off -> off + Z.of_nat len <= Z.of_nat (length dest) ->
  off + Z.of_nat len <= Z.of_nat (length src) ->
  exists d, bufferCopy dest src off len = Some d /\ length d = length dest /\
    forall j, 0 <= j ->
      at_ d j = if (off <=? j) && (j <? off + Z.of_nat len) then at_ src j else at_ dest j.
Proof.
  induction len; intros dest src off H0 H1 H2.
  - exists dest. simpl. repeat split. intros j Hj.
    destruct (Z.leb_spec off j); destruct (Z.ltb_spec j (off + Z.of_nat 0)); simpl; auto; lia.
  - simpl. rewrite (rd_nth _ src off 0) by lia.
    destruct (wr_ok dest off (at_ src off)) as [d W]; [lia|]. rewrite W.
    destruct (wr_at _ _ _ _ W) as (L & _ & A).
    destruct (IHlen d src (off + 1)) as (e & E & L2 & B); [lia|rewrite L; lia|lia|].
    exists e. split; [exact E|]. split; [congruence|]. intros j Hj. rewrite B by lia.
    rewrite A by lia.
    destruct (Z.leb_spec (off + 1) j); destruct (Z.ltb_spec j (off + 1 + Z.of_nat len));
      destruct (Z.leb_spec off j); destruct (Z.ltb_spec j (off + Z.of_nat (S len)));
      destruct (Z.eqb_spec j off); simpl; auto; try lia. now subst.
Qed.

(** ** Counting *)
Lemma samples_app : forall a b, samples (a ++ b) = samples a ++ samples b.
Proof. induction a as [|[] a IH]; intros b; simpl; auto. now rewrite IH. Qed.
Lemma n_half_app : forall a b, n_half (a ++ b) = n_half a + n_half b.
Proof. induction a as [|[] a IH]; intros b; simpl; try rewrite IH; lia. Qed.
Lemma n_cplt_app : forall a b, n_cplt (a ++ b) = n_cplt a + n_cplt b.
Proof. induction a as [|[] a IH]; intros b; simpl; try rewrite IH; lia. Qed.
Lemma n_half_nonneg : forall a, 0 <= n_half a.
Proof. induction a as [|[] a IH]; simpl; lia. Qed.
Lemma n_cplt_nonneg : forall a, 0 <= n_cplt a.
Proof. induction a as [|[] a IH]; simpl; lia. Qed.

Lemma run_app : forall a b s, adc_run s (a ++ b) =
  match adc_run s a with Some s' => adc_run s' b | None => None end.
Proof.
  induction a; intros b s; simpl; [reflexivity|]. destruct (adc_step s a); auto.
Qed.

(** ** The driver's state *)

Definition inactive (a : adc_t) : list Z := if a_activeA a then a_bufB a else a_bufA a.
Definition inactive_valid (a : adc_t) : bool := if a_activeA a then a_validB a else a_validA a.
Definition active (a : adc_t) : list Z := if a_activeA a then a_bufA a else a_bufB a.

(** Memory safety does not depend on timing. *)
Record sane (n : Z) (a : adc_t) : Prop := {
  sn_n : a_n a = n;
  sn_dma : length (a_dma a) = 16%nat;
  sn_A : length (a_bufA a) = 16%nat;
  sn_B : length (a_bufB a) = 16%nat;
  sn_pos : 0 <= a_pos a < n }.

Lemma start_sane : forall n, 1 <= n <= 16 -> sane n (adc_start n).
Proof. intros n H. split; simpl; auto; lia. Qed.

Lemma get_lt : forall n a ch, sane n a -> n <= 16 -> 0 <= ch < n ->
  ADC_Get a ch = Some (if inactive_valid a then (ADC_STATUS_OK, u16 (at_ (inactive a) ch))
                       else (ADC_STATUS_ERROR_DATANOTREADY, 0)).
Proof.
  intros n a ch [E _ LA LB _] Hn Hc. unfold ADC_Get, inactive, inactive_valid. rewrite E.
  rewrite Z.gtb_ltb. destruct (Z.ltb_spec n ch); [lia|].
  destruct (a_activeA a); [destruct (a_validB a)|destruct (a_validA a)]; auto.
  - now rewrite (rd_nth _ _ _ 0) by lia.
  - now rewrite (rd_nth _ _ _ 0) by lia.
Qed.

Lemma step_sample : forall n a v, sane n a -> 1 <= n <= 16 ->
  exists a', adc_step a (Sample v) = Some a' /\ sane n a' /\
    a_pos a' = (a_pos a + 1) mod n /\ active a' = active a /\ inactive a' = inactive a /\
    inactive_valid a' = inactive_valid a /\ a_activeA a' = a_activeA a /\
    forall j, 0 <= j -> at_ (a_dma a') j = if j =? a_pos a then v else at_ (a_dma a) j.
Proof.
  intros n a v [E LD LA LB P] Hn. simpl. unfold dma_store.
  destruct (wr_ok (a_dma a) (a_pos a) v) as [d W]; [lia|]. rewrite W.
  destruct (wr_at _ _ _ _ W) as (L & _ & A).
  eexists. split; [reflexivity|]. repeat split; simpl; auto; try congruence; try rewrite E; try lia.
Qed.

Lemma step_half : forall n a, sane n a -> 1 <= n <= 16 ->
  exists a', adc_step a HalfIsr = Some a' /\ sane n a' /\
    a_pos a' = a_pos a /\ a_dma a' = a_dma a /\ inactive a' = inactive a /\
    inactive_valid a' = inactive_valid a /\ a_activeA a' = a_activeA a /\
    forall j, 0 <= j -> at_ (active a') j = if j <? n / 2 then at_ (a_dma a) j else at_ (active a) j.
Proof.
  intros n a [E LD LA LB P] Hn. simpl. unfold ConvHalfCpltCallback, halfCpltCopyLen. rewrite E.
  unfold active, inactive, inactive_valid.
  destruct (a_activeA a) eqn:EA.
  - destruct (copy_spec (Z.to_nat (n / 2)) (a_bufA a) (a_dma a) 0) as (d & C & L & A); try lia.
    rewrite C. eexists. split; [reflexivity|]. simpl.
    repeat split; simpl; auto; try congruence; try lia.
    intros j Hj. rewrite A by lia. rewrite Z2Nat.id by lia.
    destruct (Z.leb_spec 0 j); [|lia]. reflexivity.
  - destruct (copy_spec (Z.to_nat (n / 2)) (a_bufB a) (a_dma a) 0) as (d & C & L & A); try lia.
    rewrite C. eexists. split; [reflexivity|]. simpl.
    repeat split; simpl; auto; try congruence; try lia.
    intros j Hj. rewrite A by lia. rewrite Z2Nat.id by lia.
    destruct (Z.leb_spec 0 j); [|lia]. reflexivity.
Qed.

Lemma cplt_len : forall n a, a_n a = n -> cpltCopyLen a = n - n / 2.
Proof.
  intros n a E. unfold cpltCopyLen. rewrite E. destruct (Z.eqb_spec (n mod 2) 0); lia.
Qed.

Lemma step_cplt : forall n a, sane n a -> 1 <= n <= 16 ->
  exists a', adc_step a CpltIsr = Some a' /\ sane n a' /\
    a_pos a' = a_pos a /\ a_dma a' = a_dma a /\ active a' = inactive a /\
    inactive_valid a' = true /\ a_activeA a' = negb (a_activeA a) /\
    forall j, 0 <= j < n ->
      at_ (inactive a') j = if j <? n / 2 then at_ (active a) j else at_ (a_dma a) j.
Proof.
  intros n a [E LD LA LB P] Hn. simpl. unfold ConvCpltCallback, cpltCopyOffset.
  rewrite (cplt_len n a E), E. unfold active, inactive, inactive_valid.
  destruct (a_activeA a) eqn:EA.
  - destruct (copy_spec (Z.to_nat (n - n / 2)) (a_bufA a) (a_dma a) (n / 2)) as (d & C & L & A); try lia.
    rewrite C. eexists. split; [reflexivity|]. simpl.
    repeat split; simpl; auto; try congruence; try lia.
    intros j Hj. rewrite A by lia. rewrite Z2Nat.id by lia.
    destruct (Z.leb_spec (n / 2) j); destruct (Z.ltb_spec j (n / 2 + (n - n / 2)));
      destruct (Z.ltb_spec j (n / 2)); simpl; auto; lia.
  - destruct (copy_spec (Z.to_nat (n - n / 2)) (a_bufB a) (a_dma a) (n / 2)) as (d & C & L & A); try lia.
    rewrite C. eexists. split; [reflexivity|]. simpl.
    repeat split; simpl; auto; try congruence; try lia.
    intros j Hj. rewrite A by lia. rewrite Z2Nat.id by lia.
    destruct (Z.leb_spec (n / 2) j); destruct (Z.ltb_spec j (n / 2 + (n - n / 2)));
      destruct (Z.ltb_spec j (n / 2)); simpl; auto; lia.
Qed.

(** ** The invariant of timely executions *)
Record inv (n : Z) (tr : list adc_event) (a : adc_t) : Prop := {
  iv_sane : sane n a;
  iv_pos : a_pos a = n_samples tr mod n;
  (* the last n conversions are in the DMA buffer *)
  iv_dma : forall j, 0 <= j < n_samples tr -> n_samples tr - n <= j ->
             at_ (a_dma a) (j mod n) = at_ (samples tr) j;
  iv_half : 2 <= n -> n_cplt tr <= n_half tr <= n_cplt tr + 1;
  iv_wh : 2 <= n -> n_samples tr <= (n_half tr + 1) * n;
  iv_wc : n_samples tr <= (n_cplt tr + 1) * n + n / 2;
  iv_cw : n_cplt tr * n <= n_samples tr;
  (* first half of the current scan, once copied *)
  iv_active : 2 <= n -> n_half tr = n_cplt tr + 1 ->
      n_cplt tr * n + n / 2 <= n_samples tr /\
      forall i, 0 <= i < n / 2 -> at_ (active a) i = at_ (samples tr) (n_cplt tr * n + i);
  iv_valid : inactive_valid a = negb (n_cplt tr =? 0);
  iv_scan : 1 <= n_cplt tr -> forall i, 0 <= i < n ->
      at_ (inactive a) i = at_ (samples tr) ((n_cplt tr - 1) * n + i) }.

Lemma mod_in_scan : forall n k i, 0 < n -> 0 <= i < n -> (k * n + i) mod n = i.
Proof.
  intros n k i H Hi. rewrite Z.add_comm, Z_mod_plus_full. apply Z.mod_small. lia.
Qed.

Lemma at_app_l : forall l m i, 0 <= i < Z.of_nat (length l) -> at_ (l ++ m) i = at_ l i.
Proof. intros. apply app_nth1. lia. Qed.

Lemma div_pos_facts : forall w n, 0 < n -> 0 <= w -> exists q r,
  w = q * n + r /\ 0 <= r < n /\ w / n = q /\ w mod n = r /\ 0 <= q.
Proof.
  intros w n H Hw. exists (w / n), (w mod n).
  pose proof (Z_div_mod_eq_full w n). pose proof (Z.mod_pos_bound w n H).
  pose proof (Z.div_pos w n Hw H).
  repeat split; lia.
Qed.

Lemma mul_le : forall a b n, 0 < n -> a <= b -> a * n <= b * n.
Proof. intros. apply Z.mul_le_mono_nonneg_r; lia. Qed.

Lemma timely_inv : forall n tr, 1 <= n <= 16 -> timely n tr ->
  exists a, adc_run (adc_start n) tr = Some a /\ inv n tr a.
Proof.
  intros n tr Hn T. induction T as [|tr v T IH scan Hh Hc|tr T IH H|tr T IH H Hw|tr ch T IH H].
  - exists (adc_start n). split; [reflexivity|]. split; simpl; unfold n_samples; simpl; auto; try lia.
    + now apply start_sane.
  - destruct IH as (a & R & I). destruct I as [Sa Po Dm Ha Wh Wc Cw Ac Va Sc].
    destruct (step_sample n a v Sa Hn) as (a' & St & Sa' & P' & Ea & Ei & Ev & _ & D').
    exists a'. rewrite run_app, R. cbn [adc_run]. rewrite St. split; [reflexivity|].
    assert (W' : n_samples (tr ++ [Sample v]) = n_samples tr + 1).
    { unfold n_samples. rewrite samples_app, app_length. simpl. lia. }
    assert (H' : n_half (tr ++ [Sample v]) = n_half tr) by (rewrite n_half_app; simpl; lia).
    assert (C' : n_cplt (tr ++ [Sample v]) = n_cplt tr) by (rewrite n_cplt_app; simpl; lia).
    assert (Sm : samples (tr ++ [Sample v]) = samples tr ++ [v]) by now rewrite samples_app.
    assert (Wl : Z.of_nat (length (samples tr)) = n_samples tr) by reflexivity.
    assert (W0 : 0 <= n_samples tr) by (unfold n_samples; lia).
    pose proof (n_cplt_nonneg tr) as Cn. pose proof (n_half_nonneg tr) as Hnn.
    destruct (div_pos_facts (n_samples tr) n) as (q & r & Q1 & Q2 & Q3 & Q4 & Q5); [lia|lia|].
    split; rewrite ?W', ?H', ?C', ?Ea, ?Ei, ?Ev; auto.
    + rewrite P', Po. rewrite Zplus_mod_idemp_l. reflexivity.
    + intros j Hj Hj2. rewrite D' by (apply Z.mod_pos_bound; lia). rewrite Po, Sm.
      destruct (Z.eq_dec j (n_samples tr)) as [->|Ne].
      * rewrite Z.eqb_refl. unfold n_samples. rewrite Nat2Z.id, app_nth2, Nat.sub_diag by auto.
        reflexivity.
      * assert (Hj3 : 0 <= j < n_samples tr) by (clear - Hj Ne; lia).
        assert (Hj4 : n_samples tr - n < j) by (clear - Hj2; lia).
        rewrite at_app_l by exact Hj3. rewrite <- (Dm j Hj3) by (clear - Hj4; lia).
        destruct (Z.eqb_spec (j mod n) (n_samples tr mod n)) as [E|]; [exfalso|reflexivity].
        destruct (div_pos_facts j n) as (q' & r' & J1 & J2 & J3 & J4 & J5); [clear - Hn; lia|exact (proj1 Hj3)|].
        rewrite J4, Q4 in E. subst r'.
        clear - Hj3 Hj4 Q1 J1 Q2 Hn.
        destruct (Z_lt_le_dec (q - q') 1) as [Lq|Lq].
        -- pose proof (mul_le q q' n ltac:(lia) ltac:(lia)). lia.
        -- pose proof (mul_le (q' + 1) q n ltac:(lia) ltac:(lia)). lia.
    + intros H2. specialize (Wh H2). unfold scan in *.
      rewrite Q3, Q4 in *.
      destruct (Z_lt_le_dec r (n / 2)) as [L|L].
      * pose proof (mul_le q (n_half tr) n ltac:(lia) (Hh L)). clear Dm Sc Ac. lia.
      * pose proof (mul_le q (n_half tr) n ltac:(lia) ltac:(specialize (Hc L); specialize (Ha H2); lia)).
        clear Dm Sc Ac. lia.
    + unfold scan in *. rewrite Q3, Q4 in *.
      destruct (Z_lt_le_dec r (n / 2)) as [L|L].
      * (* position in the first half *)
        destruct (Z_lt_le_dec n 2); [lia|]. specialize (Hh L). specialize (Ha l).
        pose proof (mul_le q (n_cplt tr + 1) n ltac:(lia) ltac:(lia)). clear Dm Sc Ac. lia.
      * specialize (Hc L). pose proof (mul_le q (n_cplt tr) n ltac:(lia) Hc). clear Dm Sc Ac. lia.
    + lia.
    + intros H2 E. destruct (Ac H2 E) as [A1 A2]. split; [lia|]. intros i Hi.
      pose proof (mul_le 0 (n_cplt tr) n ltac:(lia) Cn).
      rewrite Sm, at_app_l by (clear Dm Sc Ac; lia). apply A2. lia.
    + intros E i Hi. pose proof (mul_le 0 (n_cplt tr - 1) n ltac:(lia) ltac:(lia)).
      rewrite Sm, at_app_l by (clear Dm Sc Ac; lia). now apply Sc.
  - destruct IH as (a & R & I). destruct I as [Sa Po Dm Ha Wh Wc Cw Ac Va Sc].
    destruct (step_half n a Sa Hn) as (a' & St & Sa' & P' & Ed & Ei & Ev & _ & A').
    exists a'. rewrite run_app, R. cbn [adc_run]. rewrite St. split; [reflexivity|].
    assert (H' : n_half (tr ++ [HalfIsr]) = n_half tr + 1) by (rewrite n_half_app; simpl; lia).
    assert (C' : n_cplt (tr ++ [HalfIsr]) = n_cplt tr) by (rewrite n_cplt_app; simpl; lia).
    assert (Sm : samples (tr ++ [HalfIsr]) = samples tr) by (rewrite samples_app; simpl; apply app_nil_r).
    assert (W' : n_samples (tr ++ [HalfIsr]) = n_samples tr) by (unfold n_samples; now rewrite Sm).
    pose proof (n_cplt_nonneg tr) as Cn.
    split; rewrite ?W', ?H', ?C', ?Sm, ?Ei, ?Ev, ?Ed; auto.
    + rewrite P'. exact Po.
    + intros H2. destruct H as [H|[H _]]; lia.
    + intros H2. specialize (Wh H2). clear Dm Sc Ac. lia.
    + intros H2 E. destruct H as [H|[H Hw]]; [lia|]. rewrite H in *. split; [lia|].
      intros i Hi. rewrite A' by lia. destruct (Z.ltb_spec i (n / 2)); [|lia].
      specialize (Wh H2). pose proof (mul_le 0 (n_cplt tr) n ltac:(lia) Cn).
      rewrite <- (Dm (n_cplt tr * n + i)) by (clear Dm Sc Ac; lia). now rewrite mod_in_scan by lia.
  - destruct IH as (a & R & I). destruct I as [Sa Po Dm Ha Wh Wc Cw Ac Va Sc].
    destruct (step_cplt n a Sa Hn) as (a' & St & Sa' & P' & Ed & Ei & Ev & _ & A').
    exists a'. rewrite run_app, R. cbn [adc_run]. rewrite St. split; [reflexivity|].
    assert (H' : n_half (tr ++ [CpltIsr]) = n_half tr) by (rewrite n_half_app; simpl; lia).
    assert (C' : n_cplt (tr ++ [CpltIsr]) = n_cplt tr + 1) by (rewrite n_cplt_app; simpl; lia).
    assert (Sm : samples (tr ++ [CpltIsr]) = samples tr) by (rewrite samples_app; simpl; apply app_nil_r).
    assert (W' : n_samples (tr ++ [CpltIsr]) = n_samples tr) by (unfold n_samples; now rewrite Sm).
    pose proof (n_cplt_nonneg tr) as Cn.
    split; rewrite ?W', ?H', ?C', ?Sm, ?Ev, ?Ed; auto.
    + rewrite P'. exact Po.
    + intros H2. destruct H as [H|H]; lia.
    + clear Dm Sc Ac. lia.
    + intros H2 E. destruct H as [H|H]; lia.
    + destruct (Z.eqb_spec (n_cplt tr + 1) 0); [lia|reflexivity].
    + intros _ i Hi. replace (n_cplt tr + 1 - 1) with (n_cplt tr) by lia.
      rewrite A' by lia. destruct (Z.ltb_spec i (n / 2)) as [L|L].
      * assert (H2 : 2 <= n) by lia. destruct H as [H|H]; [lia|].
        now apply (proj2 (Ac H2 H)).
      * pose proof (mul_le 0 (n_cplt tr) n ltac:(lia) Cn).
        rewrite <- (Dm (n_cplt tr * n + i)) by (clear Dm Sc Ac; lia). now rewrite mod_in_scan by lia.
  - destruct IH as (a & R & I). pose proof (iv_sane _ _ _ I) as Sa.
    exists a. rewrite run_app, R. cbn [adc_run].
    cbn [adc_step]. rewrite (get_lt n a ch Sa) by lia. split; [reflexivity|].
    destruct I as [Sa' Po Dm Ha Wh Wc Cw Ac Va Sc].
    assert (H' : n_half (tr ++ [Read ch]) = n_half tr) by (rewrite n_half_app; simpl; lia).
    assert (C' : n_cplt (tr ++ [Read ch]) = n_cplt tr) by (rewrite n_cplt_app; simpl; lia).
    assert (Sm : samples (tr ++ [Read ch]) = samples tr) by (rewrite samples_app; simpl; apply app_nil_r).
    assert (W' : n_samples (tr ++ [Read ch]) = n_samples tr) by (unfold n_samples; now rewrite Sm).
    split; rewrite ?W', ?H', ?C', ?Sm; auto.
Qed.

Lemma timely_prefix : forall n tr e, timely n (tr ++ [e]) -> timely n tr.
Proof.
  intros n tr e T. inversion T as [E|tr' v T' H1 H2 H3 E|tr' T' H E|tr' T' H1 H2 E|tr' ch T' H E];
    try (apply app_inj_tail in E; destruct E as [<- _]; assumption).
  symmetry in E. apply app_eq_nil in E. destruct E. discriminate.
Qed.

Lemma timely_read_value : forall n tr, 1 <= n <= 16 -> timely n tr ->
  exists a, adc_run (adc_start n) tr = Some a /\
    (forall ch, 0 <= ch < n -> ADC_Get a ch = Some (expected_read n tr ch)) /\
    n_cplt tr <= n_samples tr / n <= n_cplt tr + 1.
Proof.
  intros n tr Hn T. destruct (timely_inv n tr Hn T) as (a & R & I).
  exists a. split; [exact R|]. split.
  - intros ch Hc. rewrite (get_lt n a ch (iv_sane _ _ _ I)) by lia.
    rewrite (iv_valid _ _ _ I). unfold expected_read. pose proof (n_cplt_nonneg tr).
    destruct (Z.eqb_spec (n_cplt tr) 0); simpl; [reflexivity|].
    rewrite (iv_scan _ _ _ I) by lia. reflexivity.
  - pose proof (iv_wc _ _ _ I). pose proof (iv_cw _ _ _ I).
    pose proof (n_cplt_nonneg tr).
    destruct (div_pos_facts (n_samples tr) n) as (q & r & Q1 & Q2 & Q3 & Q4 & Q5); [lia|unfold n_samples; lia|].
    rewrite Q3. assert (n / 2 < n) by lia. split; [|].
    + destruct (Z_lt_le_dec q (n_cplt tr)); [exfalso|lia].
      pose proof (mul_le (q + 1) (n_cplt tr) n ltac:(lia) ltac:(lia)). lia.
    + destruct (Z_lt_le_dec (n_cplt tr + 1) q); [exfalso|lia].
      pose proof (mul_le (n_cplt tr + 2) q n ltac:(lia) ltac:(lia)). lia.
Qed.

(** ** Memory safety under any order of events *)
Lemma run_sane : forall n tr a, 1 <= n <= 16 -> sane n a ->
  (forall ch, In (Read ch) tr -> 0 <= ch /\ ~ (n = 16 /\ ch = 16)) ->
  exists a', adc_run a tr = Some a' /\ sane n a'.
Proof.
  intros n tr. induction tr as [|e tr IH]; intros a Hn Sa Hr.
  - exists a. auto.
  - cbn [adc_run].
    assert (N : exists a', adc_step a e = Some a' /\ sane n a').
    { destruct e as [v| | |ch].
      - destruct (step_sample n a v Sa Hn) as (a' & St & Sa' & _); eauto.
      - destruct (step_half n a Sa Hn) as (a' & St & Sa' & _); eauto.
      - destruct (step_cplt n a Sa Hn) as (a' & St & Sa' & _); eauto.
      - exists a. split; [|exact Sa]. simpl. destruct (Hr ch) as [R1 R2]; [now left|].
        destruct Sa as [E LD LA LB P]. unfold ADC_Get. rewrite E, Z.gtb_ltb.
        destruct (Z.ltb_spec n ch); [reflexivity|].
        destruct (a_activeA a); [destruct (a_validB a)|destruct (a_validA a)]; auto.
        + now rewrite (rd_nth _ _ _ 0) by lia.
        + now rewrite (rd_nth _ _ _ 0) by lia. }
    destruct N as (a' & -> & Sa'). apply IH; auto. intros ch Hi. apply Hr. now right.
Qed.
