From Coq Require Import Lia ZifyBool ZifyNat.
From Verif.Base Require Import Mem.
From Verif.Model Require Import AdcHw.
From Verif.Spec Require Import AdcSpec AdcHwSpec.
From Verif.Proof Require Import MemFacts AdcProof.
Ltac Zify.zify_post_hook ::= idtac.

Definition good_size (c : dma_cfg) : Prop := dc_size c = 1 \/ dc_size c = 2 \/ dc_size c = 4.

(** Words from [lim] on are 0 in all three buffers, as far as channels go. *)
Definition blank (n lim : Z) (a : adc_t) : Prop :=
  forall j, lim <= j -> 0 <= j < n ->
    at_ (a_dma a) j = 0 /\ at_ (active a) j = 0 /\ at_ (inactive a) j = 0.

Lemma put_spec c mem p v :
  good_size c -> length mem = 16%nat -> 0 <= p < 16 ->
  exists d, dma_put c mem p v = Some d /\ length d = 16%nat /\
    forall j, 0 <= j ->
      at_ d j = if j =? (if dc_minc c then p * dc_size c else 0) / 4
                then set_field (at_ mem j) (8 * ((if dc_minc c then p * dc_size c else 0) mod 4)) (8 * dc_size c) v
                else at_ mem j.
Proof.
  intros G L P. unfold dma_put. set (ad := if dc_minc c then p * dc_size c else 0).
  assert (A : 0 <= ad / 4 < 16).
  { assert (0 <= ad < 64) by (unfold ad; destruct (dc_minc c); destruct G as [E |[E | E]]; rewrite ?E; lia).
    split; [apply Z.div_pos; lia|apply Z.div_lt_upper_bound; lia]. }
  rewrite (rd_nth _ mem (ad / 4) 0) by lia.
  destruct (wr_ok mem (ad / 4) (set_field (at_ mem (ad / 4)) (8 * (ad mod 4)) (8 * dc_size c) v)) as [d W]; [lia|].
  rewrite W. destruct (wr_at _ _ _ _ W) as (L2 & _ & B).
  exists d. split; [reflexivity|]. split; [congruence|]. intros j J. rewrite B by lia.
  destruct (Z.eqb_spec j (ad / 4)) as [->|]; reflexivity.
Qed.

Lemma word_below c n p : good_size c -> 0 <= p < n ->
  (if dc_minc c then p * dc_size c else 0) / 4 < words_filled c n.
Proof.
  intros G P. unfold words_filled. destruct (dc_minc c); [|reflexivity].
  apply Z.div_lt_upper_bound; [lia|].
  pose proof (Z.div_mod (n * dc_size c + 3) 4 ltac:(lia)).
  pose proof (Z.mod_pos_bound (n * dc_size c + 3) 4 ltac:(lia)).
  destruct G as [-> |[-> | ->]]; lia.
Qed.

Lemma words_filled_pos c n : good_size c -> 1 <= n -> 1 <= words_filled c n.
Proof.
  intros G N. unfold words_filled. destruct (dc_minc c); [|lia].
  apply Z.div_le_lower_bound; [lia|]. destruct G as [-> |[-> | ->]]; lia.
Qed.

Lemma half_blank n lim a : sane n a -> 1 <= n <= 16 -> blank n lim a ->
  exists a', ConvHalfCpltCallback a = Some a' /\ sane n a' /\ blank n lim a'.
Proof.
  intros Sa N B. destruct (step_half n a Sa N) as (a' & St & Sa' & P & D & I & V & A & F).
  exists a'. split; [exact St|]. split; [exact Sa'|]. intros j J1 J2.
  destruct (B j J1 J2) as (B1 & B2 & B3). rewrite D, I, F by lia.
  repeat split; auto. destruct (j <? n / 2); auto.
Qed.

Lemma cplt_blank n lim a : sane n a -> 1 <= n <= 16 -> blank n lim a ->
  exists a', ConvCpltCallback a = Some a' /\ sane n a' /\ blank n lim a'.
Proof.
  intros Sa N B. destruct (step_cplt n a Sa N) as (a' & St & Sa' & P & D & I & V & A & F).
  exists a'. split; [exact St|]. split; [exact Sa'|]. intros j J1 J2.
  destruct (B j J1 J2) as (B1 & B2 & B3). rewrite D, I, F by lia.
  repeat split; auto. destruct (j <? n / 2); auto.
Qed.

Definition hinv (c : dma_cfg) (n : Z) (s : adchw) : Prop :=
  sane n (ah_adc s) /\ blank n (words_filled c n) (ah_adc s).

Lemma hinv_step c dds n s e : good_size c -> 1 <= n <= 16 -> hinv c n s ->
  exists s', ah_step c dds s e = Some s' /\ hinv c n s'.
Proof.
  intros G N [Sa B]. destruct e as [v|]; cbn [ah_step].
  - unfold ah_conv. destruct (ah_on s) eqn:O; cbn [negb]; [|exists s; split; [reflexivity|split; assumption]].
    destruct Sa as [E LD LA LB P].
    destruct (put_spec c (a_dma (ah_adc s)) (a_pos (ah_adc s)) v G LD) as (d & -> & L & F); [lia|].
    eexists. split; [reflexivity|]. split.
    + split; cbn; auto. destruct (Z.eqb_spec (a_pos (ah_adc s) + 1) (a_n (ah_adc s))); lia.
    + intros j J1 J2. destruct (B j J1 J2) as (B1 & B2 & B3).
      pose proof (word_below c n (a_pos (ah_adc s)) G P).
      cbn [ah_adc a_dma]. rewrite F by lia. split; [|split; [exact B2|exact B3]].
      destruct (Z.eqb_spec j ((if dc_minc c then a_pos (ah_adc s) * dc_size c else 0) / 4)); [lia|exact B1].
  - unfold ah_irq.
    assert (H1 : exists a1, (if ah_ht s then ConvHalfCpltCallback (ah_adc s) else Some (ah_adc s)) = Some a1 /\
                 sane n a1 /\ blank n (words_filled c n) a1).
    { destruct (ah_ht s); [now apply half_blank|exists (ah_adc s); auto]. }
    destruct H1 as (a1 & -> & S1 & B1).
    assert (H2 : exists a2, (if ah_tc s then ConvCpltCallback a1 else Some a1) = Some a2 /\
                 sane n a2 /\ blank n (words_filled c n) a2).
    { destruct (ah_tc s); [now apply cplt_blank|exists a1; auto]. }
    destruct H2 as (a2 & -> & S2 & B2). eexists. split; [reflexivity|]. split; assumption.
Qed.

Lemma hinv_run c dds n : good_size c -> 1 <= n <= 16 -> forall tr s, hinv c n s ->
  exists s', ah_run c dds s tr = Some s' /\ hinv c n s'.
Proof.
  intros G N. induction tr as [|e tr IH]; intros s H; [exists s; auto|].
  cbn [ah_run]. destruct (hinv_step c dds n s e G N H) as (s' & -> & H'). now apply IH.
Qed.

Lemma nth_repeat0 k m : nth m (repeat 0 k) 0 = 0.
Proof. revert m. induction k; intros [|m]; cbn; auto. Qed.

Lemma hinv_start c n : 1 <= n <= 16 -> hinv c n (ah_start n).
Proof.
  intros N. split; [split; cbn; auto; lia|].
  intros j J1 J2. unfold active, inactive, ah_start. cbn [ah_adc a_dma a_activeA a_bufA a_bufB].
  rewrite nth_repeat0. auto.
Qed.

Lemma unreached_zero c dds n tr ch : good_size c -> 1 <= n <= 16 ->
  words_filled c n <= ch < n ->
  exists s, ah_run c dds (ah_start n) tr = Some s /\
    (ADC_Get (ah_adc s) ch = Some (ADC_STATUS_OK, 0) \/
     ADC_Get (ah_adc s) ch = Some (ADC_STATUS_ERROR_DATANOTREADY, 0)).
Proof.
  intros G N C. destruct (hinv_run c dds n G N tr (ah_start n) (hinv_start c n N)) as (s & R & Sa & B).
  exists s. split; [exact R|]. pose proof (words_filled_pos c n G ltac:(lia)).
  rewrite (get_lt n _ ch Sa) by lia. destruct (B ch) as (_ & _ & ->); try lia.
  destruct (inactive_valid (ah_adc s)); [now left|now right].
Qed.

(** ** One shot *)
Lemma ah_run_app c dds : forall a b s, ah_run c dds s (a ++ b) =
  match ah_run c dds s a with Some s' => ah_run c dds s' b | None => None end.
Proof.
  induction a as [|e a IH]; intros b s; [reflexivity|]. cbn [ah_run app].
  destruct (ah_step c dds s e); auto.
Qed.

Lemma off_fixed c dds : forall tr s, ah_on s = false -> ah_ht s = false -> ah_tc s = false ->
  ah_run c dds s tr = Some s.
Proof.
  induction tr as [|e tr IH]; intros s O H T; [reflexivity|]. cbn [ah_run].
  destruct e as [v|]; cbn [ah_step].
  - unfold ah_conv. rewrite O. cbn [negb]. now apply IH.
  - unfold ah_irq. rewrite H, T. destruct s as [a on ht tc]. cbn in *. subst. now apply IH.
Qed.

(** Until it stops, the position is the number of conversions. *)
Definition counting (n : Z) (k : Z) (s : adchw) : Prop :=
  if ah_on s then a_pos (ah_adc s) = k /\ k < n else n <= k.

Lemma callbacks_pos a a' : ConvHalfCpltCallback a = Some a' \/ ConvCpltCallback a = Some a' ->
  a_pos a' = a_pos a /\ a_n a' = a_n a.
Proof.
  intros [H|H]; revert H; [unfold ConvHalfCpltCallback|unfold ConvCpltCallback];
    destruct (a_activeA a); destruct (bufferCopy _ _ _ _); intros H; try discriminate;
    injection H as <-; split; reflexivity.
Qed.

Lemma irq_keeps s s' : ah_irq s = Some s' ->
  ah_on s' = ah_on s /\ a_pos (ah_adc s') = a_pos (ah_adc s) /\ a_n (ah_adc s') = a_n (ah_adc s) /\
  ah_ht s' = false /\ ah_tc s' = false.
Proof.
  unfold ah_irq. intros H.
  destruct (if ah_ht s then ConvHalfCpltCallback (ah_adc s) else Some (ah_adc s)) as [a1|] eqn:E1; [|discriminate].
  destruct (if ah_tc s then ConvCpltCallback a1 else Some a1) as [a2|] eqn:E2; [|discriminate].
  injection H as <-. cbn.
  assert (A1 : a_pos a1 = a_pos (ah_adc s) /\ a_n a1 = a_n (ah_adc s)).
  { destruct (ah_ht s); [apply callbacks_pos; now left|injection E1 as <-; auto]. }
  assert (A2 : a_pos a2 = a_pos a1 /\ a_n a2 = a_n a1).
  { destruct (ah_tc s); [apply callbacks_pos; now right|injection E2 as <-; auto]. }
  destruct A1, A2. repeat split; congruence.
Qed.

Lemma counting_run c dds n : good_size c -> 1 <= n <= 16 -> dc_circular c && dds = false ->
  forall tr s s' k, hinv c n s -> 0 <= k -> counting n k s -> ah_run c dds s tr = Some s' ->
  counting n (k + Z.of_nat (length (conversions tr))) s'.
Proof.
  intros G N One. induction tr as [|e tr IH]; intros s s' k H K C R.
  - injection R as <-. cbn [conversions length Z.of_nat]. now rewrite Z.add_0_r.
  - cbn [ah_run] in R. destruct (hinv_step c dds n s e G N H) as (s1 & E & H1).
    rewrite E in R. destruct e as [v|].
    + cbn [conversions length]. replace (k + Z.of_nat (S (length (conversions tr))))
        with (k + 1 + Z.of_nat (length (conversions tr))) by lia.
      apply (IH s1 s' (k + 1) H1 ltac:(lia)); [|exact R].
      cbn [ah_step] in E. unfold ah_conv in E. unfold counting in C |- *.
      destruct (ah_on s) eqn:O; cbn [negb] in E.
      * destruct (dma_put c _ _ v); [|discriminate]. injection E as <-. cbn [ah_on ah_adc a_pos].
        destruct H as [[En _ _ _ _] _]. rewrite En.
        destruct (Z.eqb_spec (a_pos (ah_adc s) + 1) n).
        { rewrite One. lia. }
        lia.
      * injection E as <-. rewrite O. lia.
    + cbn [conversions]. apply (IH s1 s' k H1 K); [|exact R].
      cbn [ah_step] in E. destruct (irq_keeps _ _ E) as (O & P & _).
      unfold counting in *. now rewrite O, P.
Qed.

Lemma one_shot c dds n tr tr' : good_size c -> 1 <= n <= 16 -> dc_circular c && dds = false ->
  n <= Z.of_nat (length (conversions tr)) ->
  ah_run c dds (ah_start n) (tr ++ Irq :: tr') = ah_run c dds (ah_start n) (tr ++ [Irq]).
Proof.
  intros G N One L. rewrite !ah_run_app.
  destruct (hinv_run c dds n G N tr _ (hinv_start c n N)) as (s & R & H). rewrite R.
  cbn [ah_run]. destruct (hinv_step c dds n s Irq G N H) as (s1 & E & H1). rewrite E.
  cbn [ah_step] in E. destruct (irq_keeps _ _ E) as (O & P & _ & HT & TC).
  apply off_fixed; auto.
  pose proof (counting_run c dds n G N One tr (ah_start n) s 0 (hinv_start c n N) ltac:(lia)) as C.
  specialize (C ltac:(unfold counting; cbn; lia) R). rewrite O.
  unfold counting in C. destruct (ah_on s); [lia|reflexivity].
Qed.

(** ** Word transfers *)
Lemma set_word w v : 0 <= w < 4294967296 -> 0 <= v < 4294967296 -> set_field w 0 32 v = v.
Proof.
  intros W V. unfold set_field. change (2 ^ 0) with 1. change (2 ^ 32) with 4294967296.
  rewrite Z.div_1_r, !Z.mod_small by lia. lia.
Qed.

Definition wordy (a : adc_t) : Prop := Forall (fun w => 0 <= w < 4294967296) (a_dma a).

Lemma upd_Forall {A} (P : A -> Prop) : forall l i x, Forall P l -> P x -> Forall P (upd l i x).
Proof.
  induction l as [|y l IH]; intros i x F X; [destruct i; exact F|].
  inversion F; subst. destruct i; cbn; constructor; auto.
Qed.

Lemma put_word c mem p v : word_stream c -> Forall (fun w => 0 <= w < 4294967296) mem -> 0 <= p ->
  0 <= v < 65536 -> dma_put c mem p v = wr mem p v.
Proof.
  intros (M & Sz & _) F P V. unfold dma_put. rewrite M, Sz.
  replace (p * 4 / 4) with p by (rewrite Z.div_mul by lia; reflexivity).
  rewrite Z.mod_mul by lia. change (8 * 0) with 0. change (8 * 4) with 32.
  unfold rd, wr. destruct (Z.ltb_spec p (Z.of_nat (length mem))).
  - destruct (get mem p) as [w|] eqn:Gt.
    + rewrite set_word; [reflexivity| |lia].
      rewrite Forall_forall in F. apply F. unfold get in Gt.
      destruct (p <? 0); [discriminate|]. now apply nth_error_In in Gt.
    + unfold get in Gt. destruct (Z.ltb_spec p 0); [lia|]. apply nth_error_None in Gt. lia.
  - now rewrite Bool.andb_false_r.
Qed.

Lemma callbacks_dma a a' : ConvHalfCpltCallback a = Some a' \/ ConvCpltCallback a = Some a' ->
  a_dma a' = a_dma a.
Proof.
  intros [H|H]; revert H; [unfold ConvHalfCpltCallback|unfold ConvCpltCallback];
    destruct (a_activeA a); destruct (bufferCopy _ _ _ _); intros H; try discriminate;
    injection H as <-; reflexivity.
Qed.

Lemma word_run c n : word_stream c -> 2 <= n <= 16 ->
  forall tr s, ah_on s = true -> sane n (ah_adc s) -> wordy (ah_adc s) ->
    (forall v, In (Conv v) tr -> 0 <= v < 65536) ->
    option_map ah_adc (ah_run c true s tr) =
    adc_run (ah_adc s) (as_adc n (a_pos (ah_adc s)) (ah_ht s) (ah_tc s) tr).
Proof.
  intros W N. induction tr as [|e tr IH]; intros s O Sa F V; [reflexivity|].
  cbn [ah_run as_adc]. destruct e as [v|]; cbn [ah_step].
  - unfold ah_conv. rewrite O. cbn [negb]. destruct Sa as [En LD LA LB P].
    rewrite (put_word c _ _ v W F (proj1 P) (V v (or_introl eq_refl))).
    cbn [adc_run adc_step]. unfold dma_store.
    destruct (wr (a_dma (ah_adc s)) (a_pos (ah_adc s)) v) as [d|] eqn:Wr; [|reflexivity].
    rewrite En.
    assert (PM : (if a_pos (ah_adc s) + 1 =? n then 0 else a_pos (ah_adc s) + 1) = (a_pos (ah_adc s) + 1) mod n).
    { destruct (Z.eqb_spec (a_pos (ah_adc s) + 1) n) as [->|].
      - now rewrite Z.mod_same by lia.
      - now rewrite Z.mod_small by lia. }
    rewrite PM. destruct W as (M & Sz & Ci). rewrite Ci. cbn [andb].
    rewrite IH; cbn [ah_adc ah_on ah_ht ah_tc a_pos].
    + reflexivity.
    + now destruct (a_pos (ah_adc s) + 1 =? n).
    + split; cbn; auto.
      * destruct (wr_at _ _ _ _ Wr) as (L & _). congruence.
      * apply Z.mod_pos_bound. lia.
    + unfold wordy. cbn. unfold wr in Wr.
      destruct (_ && _); [|discriminate]. injection Wr as <-. apply upd_Forall; [exact F|].
      pose proof (V v (or_introl eq_refl)). lia.
    + intros x X. apply V. now right.
  - assert (V' : forall v, In (Conv v) tr -> 0 <= v < 65536) by (intros x X; apply V; now right).
    unfold ah_irq.
    assert (H1 : exists a1, (if ah_ht s then ConvHalfCpltCallback (ah_adc s) else Some (ah_adc s)) = Some a1 /\
                 sane n a1 /\ a_pos a1 = a_pos (ah_adc s) /\ wordy a1 /\
                 forall l, adc_run (ah_adc s) ((if ah_ht s then [HalfIsr] else []) ++ l) = adc_run a1 l).
    { destruct (ah_ht s).
      - destruct (step_half n _ Sa ltac:(lia)) as (a' & St & Sa' & P & D & _).
        exists a'. unfold wordy in *. rewrite D. repeat split; auto; try apply Sa'.
        intros l. cbn [app adc_run]. now rewrite St.
      - exists (ah_adc s). repeat split; auto; apply Sa. }
    destruct H1 as (a1 & E1 & S1 & P1 & F1 & R1). rewrite E1, R1.
    assert (H2 : exists a2, (if ah_tc s then ConvCpltCallback a1 else Some a1) = Some a2 /\
                 sane n a2 /\ a_pos a2 = a_pos a1 /\ wordy a2 /\
                 forall l, adc_run a1 ((if ah_tc s then [CpltIsr] else []) ++ l) = adc_run a2 l).
    { destruct (ah_tc s).
      - destruct (step_cplt n _ S1 ltac:(lia)) as (a' & St & Sa' & P & D & _).
        exists a'. unfold wordy in *. rewrite D. repeat split; auto; try apply Sa'.
        intros l. cbn [app adc_run]. now rewrite St.
      - exists a1. repeat split; auto; apply S1. }
    destruct H2 as (a2 & E2 & S2 & P2 & F2 & R2). rewrite E2, R2.
    rewrite IH; cbn [ah_adc ah_on ah_ht ah_tc]; auto. now rewrite P2, P1.
Qed.

Lemma word_start c n tr : word_stream c -> 2 <= n <= 16 ->
  (forall v, In (Conv v) tr -> 0 <= v < 65536) ->
  option_map ah_adc (ah_run c true (ah_start n) tr) = adc_run (adc_start n) (as_adc n 0 false false tr).
Proof.
  intros W N V. apply (word_run c n W N tr (ah_start n)); auto.
  - split; cbn; auto. lia.
  - unfold wordy, ah_start. cbn. repeat constructor; lia.
Qed.

(** ** Halfword fields *)
Lemma low_half a b : 0 <= a < 65536 -> 0 <= b < 65536 ->
  u16 (set_field (set_field 0 0 16 a) 16 16 b) = a.
Proof.
  intros A B. unfold set_field, u16. change (2 ^ 0) with 1. change (2 ^ 16) with 65536.
  rewrite !Z.div_1_r. change (0 mod 65536) with 0.
  rewrite (Z.mod_small a), (Z.mod_small b) by lia.
  replace (0 - 0 * 1 + a * 1) with a by lia. rewrite (Z.div_small a) by lia. change (0 mod 65536) with 0.
  replace (a - 0 * 65536 + b * 65536) with (a + b * 65536) by lia.
  rewrite Z.mod_add by lia. now apply Z.mod_small.
Qed.

Lemma samples_as_adc n : forall tr p ht tc, samples (as_adc n p ht tc tr) = conversions tr.
Proof.
  induction tr as [|[v|] tr IH]; intros p ht tc; cbn [as_adc conversions samples]; auto.
  - now rewrite IH.
  - destruct ht, tc; cbn [app samples]; auto.
Qed.
