From Verif.Model Require Import FaultManager.
From Verif.Spec Require Import FaultSpec.
From Coq Require Import ZifyBool ZifyNat Btauto.
Ltac Zify.zify_post_hook ::= Z.div_mod_to_equations.

(** ** Leading runs (newest first) and tripping *)
Fixpoint lead {A} (p : A -> bool) (l : list A) : Z :=
  match l with
  | [] => 0
  | x :: t => if p x then 1 + lead p t else 0
  end.

Fixpoint tripped {A} (p : A -> bool) (n : Z) (l : list A) : bool :=
  match l with
  | [] => false
  | x :: t => (lead p (x :: t) >? n) || tripped p n t
  end.

Lemma lead_nonneg : forall A (p : A -> bool) l, 0 <= lead p l.
Proof. induction l; simpl; [lia|]. destruct (p a); lia. Qed.

Lemma lead_split : forall A (p : A -> bool) l n,
  0 <= n -> n < lead p l ->
  exists w r, l = w ++ r /\ Z.of_nat (length w) = n + 1 /\ forallb p w = true.
Proof.
  induction l; simpl; intros n Hn H; [lia|].
  destruct (p a) eqn:E; [|lia].
  destruct (Z.eq_dec n 0) as [->|].
  - exists [a], l. simpl. rewrite E. auto.
  - destruct (IHl (n-1)) as (w & r & -> & Hl & Hf); try lia.
    exists (a :: w), r. simpl. rewrite E. split; [auto|]. split; [lia|auto].
Qed.

Lemma lead_app_ge : forall A (p : A -> bool) w r,
  forallb p w = true -> Z.of_nat (length w) <= lead p (w ++ r).
Proof.
  induction w; simpl; intros r H; [apply lead_nonneg|].
  apply andb_true_iff in H. destruct H as [-> H]. specialize (IHw r H). lia.
Qed.

Lemma forallb_rev : forall A (p : A -> bool) l, forallb p (rev l) = forallb p l.
Proof.
  induction l; simpl; auto. rewrite forallb_app, IHl. simpl. btauto.
Qed.

Lemma tripped_sustained : forall A (p : A -> bool) n l, 0 <= n ->
  (tripped p n l = true <-> sustained p n (rev l)).
Proof.
  intros A p n l Hn. unfold sustained. split.
  - induction l as [|x t IH]; [discriminate|]. cbn [tripped]. intros H.
    apply orb_true_iff in H. destruct H as [H|H].
    + apply Z.gtb_lt in H.
      destruct (lead_split _ p _ n Hn H) as (w & r & -> & Hl & Hf).
      exists (rev r), (rev w), []. rewrite rev_app_distr, app_nil_r, rev_length, forallb_rev.
      auto.
    + destruct (IH H) as (b & w & a & E & Hl & Hf).
      exists b, w, (a ++ [x]). simpl. rewrite E. split; [now rewrite !app_assoc|auto].
  - intros (b & w & a & E & Hl & Hf).
    assert (E' : l = rev a ++ rev w ++ rev b).
    { rewrite <- (rev_involutive l), E, !rev_app_distr. now rewrite app_assoc. }
    subst l. clear E. rewrite <- forallb_rev in Hf. rewrite <- (rev_length w) in Hl.
    revert Hl Hf Hn. generalize (rev w) as w', (rev a) as a', (rev b) as b'. clear.
    intros w a b Hl Hf Hn. induction a as [|x a IH].
    + simpl. pose proof (lead_app_ge _ p w b Hf).
      destruct (w ++ b) eqn:E.
      * destruct w; simpl in *; [lia|discriminate].
      * cbn [tripped]. apply orb_true_iff. left. apply Z.gtb_lt. lia.
    + cbn [app tripped]. now rewrite IH, orb_true_r.
Qed.

(** ** The debounce timer is the capped run length *)
Lemma timed_step : forall A (p : A -> bool) n l x, 0 <= n < 65535 ->
  handleTimedCondition (p x) (Z.min n (lead p l)) n =
    (negb (lead p (x :: l) >? n), Z.min n (lead p (x :: l))).
Proof.
  intros A p n l x Hn. pose proof (lead_nonneg _ p l).
  unfold handleTimedCondition, u16. cbn [lead].
  destruct (p x).
  - rewrite Z.mod_small by lia.
    destruct (Z.min n (lead p l) + 1 >? n) eqn:E; destruct (1 + lead p l >? n) eqn:E'; simpl;
      try (f_equal; lia); lia.
  - f_equal; [|lia]. symmetry. apply negb_true_iff. destruct (0 >? n) eqn:E; lia.
Qed.

(** ** The fault word *)
Definition word_of (f : fault_kind -> bool) : Z :=
  fold_right (fun k acc => Z.lor (if f k then 2 ^ fault_bit k else 0) acc) 0 all_kinds.

Lemma testbit_pow : forall (b : bool) n i, 0 <= n ->
  Z.testbit (if b then 2 ^ n else 0) i = b && (i =? n).
Proof.
  intros b n i Hn. destruct b; [|apply Z.bits_0].
  destruct (Z.eq_dec i n) as [->|E].
  - rewrite Z.pow2_bits_true by lia. now rewrite Z.eqb_refl.
  - rewrite Z.pow2_bits_false by lia. symmetry. simpl. now apply Z.eqb_neq.
Qed.

Lemma word_of_bit : forall f i,
  Z.testbit (word_of f) i = existsb (fun k => f k && (i =? fault_bit k)) all_kinds.
Proof.
  intros f i. unfold word_of. generalize all_kinds. induction l as [|k t IH].
  - apply Z.bits_0.
  - cbn [fold_right existsb]. rewrite Z.lor_spec, IH, testbit_pow; [auto|destruct k; simpl; lia].
Qed.

Lemma word_of_kind : forall f k, Z.testbit (word_of f) (fault_bit k) = f k.
Proof. intros. rewrite word_of_bit. destruct k; simpl; btauto. Qed.

Lemma word_of_or : forall f g, word_of (fun k => f k || g k) = Z.lor (word_of f) (word_of g).
Proof.
  intros. apply Z.bits_inj'. intros i _. rewrite Z.lor_spec, !word_of_bit.
  generalize all_kinds. induction l as [|k t IH]; simpl; auto. rewrite IH. btauto.
Qed.

Lemma word_of_ext : forall f g, (forall k, f k = g k) -> word_of f = word_of g.
Proof.
  intros. apply Z.bits_inj'. intros i _. rewrite !word_of_bit.
  generalize all_kinds. induction l as [|k t IH]; simpl; auto. now rewrite IH, H.
Qed.

(** ** Abstraction: the state after the evaluated snapshots [l], newest first *)
Definition trips (c : config) (tick : Z) (l : list vstate) (k : fault_kind) : bool :=
  tripped (fault_cond c k) (tolerance c tick k) l.

Definition capped (c : config) (tick : Z) (l : list vstate) (k : fault_kind) : Z :=
  Z.min (tolerance c tick k) (lead (fault_cond c k) l).

Record fm_rel (c : config) (tick : Z) (l : list vstate) (s : fm_state) : Prop := {
  r_word : fm_faults s = word_of (trips c tick l);
  r_t1 : fm_accRangeT s = capped c tick l AccelRange;
  r_l1 : fm_accRangeL s = tolerance c tick AccelRange;
  r_t2 : fm_accConsT s = capped c tick l AccelDisagree;
  r_l2 : fm_accConsL s = tolerance c tick AccelDisagree;
  r_t3 : fm_brkRangeT s = capped c tick l BrakeRange;
  r_l3 : fm_brkRangeL s = tolerance c tick BrakeRange;
  r_t4 : fm_abuseT s = capped c tick l PedalAbuse;
  r_l4 : fm_abuseL s = tolerance c tick PedalAbuse;
  r_t5 : fm_cellTempT s = capped c tick l CellOverTemp;
  r_t6 : fm_currentT s = capped c tick l PackOverCurrent;
  r_t7 : fm_cellVoltT s = capped c tick l CellOverVoltage;
  r_l5 : fm_bmsL s = tolerance c tick CellOverTemp }.

Definition tol_small (c : config) (tick : Z) : Prop :=
  forall k, 0 <= tolerance c tick k < 65535.

Lemma tol_range : forall c tick, cfg_ok c tick -> forall k, 0 <= tolerance c tick k < 65536.
Proof.
  intros c tick (H1 & H2 & H3) k.
  assert (forall z, 0 <= z < 65536 -> 0 <= z / tick < 65536).
  { intros z Hz. split; [apply Z.div_pos; lia|]. apply Z.div_lt_upper_bound; nia. }
  destruct k; simpl; try (apply H; lia); lia.
Qed.

Lemma fm_init_rel : forall c tick s, cfg_ok c tick -> fm_init c tick = Some s ->
  fm_rel c tick [] s.
Proof.
  intros c tick s Hc H. pose proof (tol_range c tick Hc) as T.
  unfold fm_init in H. destruct (tick =? 0) eqn:E; [discriminate|]. inversion H; subst; clear H.
  pose proof (T AccelRange). pose proof (T CellOverTemp). simpl in *.
  assert (u16 (ci_invalidDataTimeout (cf_inputs c) / tick) = ci_invalidDataTimeout (cf_inputs c) / tick)
    by (unfold u16; apply Z.mod_small; lia).
  assert (u16 (cb_invalidDataTimeout (cf_bms c) / tick) = cb_invalidDataTimeout (cf_bms c) / tick)
    by (unfold u16; apply Z.mod_small; lia).
  constructor; simpl; auto; unfold capped; simpl; try lia.
Qed.

Lemma within_out : forall r c, out_of_cal r c = negb (within r c).
Proof. intros. unfold out_of_cal, within. lia. Qed.

Section StepRel.
  Variables (c : config) (tick : Z) (l : list vstate) (d : vstate).
  Hypothesis T : tol_small c tick.

  Let newlead k := lead (fault_cond c k) (d :: l) >? tolerance c tick k.

  Lemma TS : forall k, handleTimedCondition (fault_cond c k d) (capped c tick l k) (tolerance c tick k)
     = (negb (newlead k), capped c tick (d :: l) k).
  Proof. intros k. apply timed_step, T. Qed.

  Lemma lead_abuse_off : ci_abuseEnabled (cf_inputs c) =? 1 = false ->
    forall l', lead (fault_cond c PedalAbuse) l' = 0.
  Proof. intros E. destruct l'; cbn [lead fault_cond]; [auto|]. now rewrite E. Qed.

  Lemma accel_eq : forall s,
    fm_accRangeT s = capped c tick l AccelRange -> fm_accRangeL s = tolerance c tick AccelRange ->
    fm_accConsT s = capped c tick l AccelDisagree -> fm_accConsL s = tolerance c tick AccelDisagree ->
    isFaultAccelPedal c s d =
      (or_unless (negb (newlead AccelDisagree)) F_ACCELPDL_SENSE
        (or_unless (negb (newlead AccelRange)) F_ACCELPDL_RANGE (fm_faults s)),
       mkFM (fm_faults s) (capped c tick (d :: l) AccelRange) (fm_accRangeL s)
            (capped c tick (d :: l) AccelDisagree) (fm_accConsL s) (fm_brkRangeT s)
            (fm_brkRangeL s) (fm_brkConsT s) (fm_brkConsL s) (fm_abuseT s)
            (fm_abuseL s) (fm_cellTempT s) (fm_currentT s) (fm_cellVoltT s) (fm_bmsL s)).
  Proof.
    intros s H1 H2 H3 H4. unfold isFaultAccelPedal.
    replace (out_of_cal (i_accelRawA (vs_inputs d)) (ci_calA (cf_inputs c))
         || out_of_cal (i_accelRawB (vs_inputs d)) (ci_calB (cf_inputs c)))
      with (fault_cond c AccelRange d) by (cbn [fault_cond]; rewrite !within_out; btauto).
    replace (fgt (fabs (fsub (i_accelA (vs_inputs d)) (i_accelB (vs_inputs d))))
               (ci_consistencyLimit (cf_inputs c)))
      with (fault_cond c AccelDisagree d) by reflexivity.
    rewrite H1, H3, H2, H4, !TS. reflexivity.
  Qed.

  Lemma brake_eq : forall s,
    fm_brkRangeT s = capped c tick l BrakeRange -> fm_brkRangeL s = tolerance c tick BrakeRange ->
    fm_abuseT s = capped c tick l PedalAbuse -> fm_abuseL s = tolerance c tick PedalAbuse ->
    isFaultBrakePedal c s d =
      (or_unless (negb (newlead PedalAbuse)) F_BRAKEPDL_ABUSE
        (or_unless (negb (newlead BrakeRange)) F_BRAKEPDL_RANGE (fm_faults s)),
       mkFM (fm_faults s) (fm_accRangeT s) (fm_accRangeL s) (fm_accConsT s) (fm_accConsL s)
            (capped c tick (d :: l) BrakeRange) (fm_brkRangeL s) (fm_brkConsT s) (fm_brkConsL s)
            (capped c tick (d :: l) PedalAbuse) (fm_abuseL s)
            (fm_cellTempT s) (fm_currentT s) (fm_cellVoltT s) (fm_bmsL s)).
  Proof.
    intros s H1 H2 H3 H4. unfold isFaultBrakePedal.
    replace (out_of_cal (i_brakeRawFront (vs_inputs d)) (ci_brakeFront (cf_inputs c))
         || out_of_cal (i_brakeRawRear (vs_inputs d)) (ci_brakeRear (cf_inputs c)))
      with (fault_cond c BrakeRange d) by (cbn [fault_cond]; rewrite !within_out; btauto).
    rewrite H1, H2, TS.
    destruct (ci_abuseEnabled (cf_inputs c) =? 1) eqn:E.
    - replace (fgt (i_accel (vs_inputs d)) (ci_abuseAccel (cf_inputs c)) &&
               fgt (i_brakePresFront (vs_inputs d)) (ci_abuseBrake (cf_inputs c)))
        with (fault_cond c PedalAbuse d) by (cbn [fault_cond]; now rewrite E).
      rewrite H3, H4, TS. reflexivity.
    - pose proof (T PedalAbuse).
      assert (N : newlead PedalAbuse = false).
      { unfold newlead. rewrite lead_abuse_off by auto.
        destruct (0 >? tolerance c tick PedalAbuse) eqn:E2; [lia|reflexivity]. }
      assert (C : capped c tick (d :: l) PedalAbuse = capped c tick l PedalAbuse).
      { unfold capped. now rewrite !lead_abuse_off by auto. }
      rewrite H3, N, C. reflexivity.
  Qed.

  Lemma bms_eq : forall s,
    fm_cellTempT s = capped c tick l CellOverTemp -> fm_currentT s = capped c tick l PackOverCurrent ->
    fm_cellVoltT s = capped c tick l CellOverVoltage -> fm_bmsL s = tolerance c tick CellOverTemp ->
    isFaultBMS c s d =
      (or_unless (negb (fault_cond c BmsIndicator d)) F_BMS_FAULTIND
       (or_unless (negb (fault_cond c LowCharge d)) F_BMS_LOWSOC
       (or_unless (negb (newlead CellOverVoltage)) F_BMS_CELLVOLT
        (or_unless (negb (newlead PackOverCurrent)) F_BMS_CURRENT
         (or_unless (negb (newlead CellOverTemp)) F_BMS_CELLTEMP (fm_faults s))))),
       mkFM (fm_faults s) (fm_accRangeT s) (fm_accRangeL s) (fm_accConsT s) (fm_accConsL s)
            (fm_brkRangeT s) (fm_brkRangeL s) (fm_brkConsT s) (fm_brkConsL s)
            (fm_abuseT s) (fm_abuseL s)
            (capped c tick (d :: l) CellOverTemp) (capped c tick (d :: l) PackOverCurrent)
            (capped c tick (d :: l) CellOverVoltage) (fm_bmsL s)).
  Proof.
    intros s H1 H2 H3 H4. unfold isFaultBMS.
    change (fgt (b_maxCellTemperature (vs_battery d)) (f_of_Z (cb_maxCellTemp (cf_bms c))))
      with (fault_cond c CellOverTemp d).
    change (fgt (b_dcCurrent (vs_battery d)) (f_of_Z (cb_maxCurrent (cf_bms c))))
      with (fault_cond c PackOverCurrent d).
    change (fgt (b_maxCellVoltage (vs_battery d)) (f_of_Z (cb_maxCellVoltage (cf_bms c))))
      with (fault_cond c CellOverVoltage d).
    rewrite H1, H2, H3, H4, TS.
    change (tolerance c tick CellOverTemp) with (tolerance c tick PackOverCurrent) at 1.
    rewrite TS.
    change (tolerance c tick CellOverTemp) with (tolerance c tick CellOverVoltage) at 1.
    rewrite TS. reflexivity.
  Qed.

  Lemma or_unless_lor : forall b n f, or_unless (negb b) (2 ^ n) f = Z.lor f (if b then 2 ^ n else 0).
  Proof. intros [] n f; simpl; auto. now rewrite Z.lor_0_r. Qed.

  Lemma trips_cons : forall k, trips c tick (d :: l) k = newlead k || trips c tick l k.
  Proof. reflexivity. Qed.

  Lemma newlead_imm : forall k, tolerance c tick k = 0 -> newlead k = fault_cond c k d.
  Proof.
    intros k E. unfold newlead. rewrite E. cbn [lead]. pose proof (lead_nonneg _ (fault_cond c k) l).
    destruct (fault_cond c k d); [|reflexivity].
    destruct (1 + lead (fault_cond c k) l >? 0) eqn:G; lia.
  Qed.

  Lemma fm_step_rel : forall s, fm_rel c tick l s ->
    fm_rel c tick (d :: l) (fst (fm_step c s (Some d))) /\
    snd (fm_step c s (Some d)) = classify (fm_faults (fst (fm_step c s (Some d)))).
  Proof.
    intros s [W A1 A2 A3 A4 B1 B2 B3 B4 C1 C2 C3 C4]. unfold fm_step.
    rewrite accel_eq by assumption. cbv beta iota.
    rewrite brake_eq by assumption. cbv beta iota.
    rewrite bms_eq by assumption. cbv beta iota.
    split; [|reflexivity]. constructor; try reflexivity; try assumption.
    cbn [fst fm_or fm_faults isFaultInverter isLVErrorBMS isLVErrorInverter].
    rewrite !Z.lor_0_r.
    transitivity (Z.lor (word_of newlead) (word_of (trips c tick l))).
    2:{ rewrite <- word_of_or. reflexivity. }
    rewrite <- (newlead_imm BmsIndicator), <- (newlead_imm LowCharge) by reflexivity.
    rewrite <- W.
    change F_ACCELPDL_RANGE with (2 ^ 8). change F_ACCELPDL_SENSE with (2 ^ 9).
    change F_BRAKEPDL_RANGE with (2 ^ 10). change F_BRAKEPDL_ABUSE with (2 ^ 12).
    change F_BMS_CELLTEMP with (2 ^ 13). change F_BMS_CURRENT with (2 ^ 14).
    change F_BMS_CELLVOLT with (2 ^ 15). change F_BMS_LOWSOC with (2 ^ 16).
    change F_BMS_FAULTIND with (2 ^ 17).
    rewrite !or_unless_lor. unfold word_of. cbn [fold_right all_kinds fault_bit].
    apply Z.bits_inj'. intros i _. rewrite !Z.lor_spec, Z.bits_0.
    repeat match goal with |- context [Z.testbit (if ?b then ?x else 0) i] =>
       generalize (Z.testbit (if b then x else 0) i); intro end.
    generalize (Z.testbit (fm_faults s) i). intro. btauto.
  Qed.
End StepRel.

Lemma evaluated_app : forall a b, evaluated (a ++ b) = evaluated a ++ evaluated b.
Proof. induction a as [|[d|] t IH]; intros; simpl; auto. now rewrite IH. Qed.

Lemma fm_run_app : forall c h1 h2 s,
  fst (fm_run c s (h1 ++ h2)) = fst (fm_run c (fst (fm_run c s h1)) h2).
Proof.
  induction h1 as [|x t IH]; intros h2 s; [reflexivity|].
  cbn [app fm_run]. destruct (fm_step c s x) as [s1 r]. specialize (IH h2 s1).
  destruct (fm_run c s1 (t ++ h2)) eqn:E1. destruct (fm_run c s1 t) eqn:E2. exact IH.
Qed.

Lemma fm_run_one : forall c s x, fst (fm_run c s [x]) = fst (fm_step c s x).
Proof. intros. cbn [fm_run]. now destruct (fm_step c s x). Qed.

Lemma fm_run_rel : forall c tick s h, cfg_ok c tick -> tol_small c tick ->
  fm_init c tick = Some s ->
  fm_rel c tick (rev (evaluated h)) (fst (fm_run c s h)).
Proof.
  intros c tick s h Hc HT Hi. induction h as [|x h IH] using rev_ind.
  - now apply fm_init_rel.
  - rewrite fm_run_app, fm_run_one, evaluated_app, rev_app_distr.
    destruct x as [d|]; [|exact IH]. cbn [evaluated rev app].
    now apply fm_step_rel.
Qed.

(** ** Consequences used by the property files *)
Lemma fault_bit_exact : forall c tick s h k, cfg_ok c tick -> tol_small c tick ->
  fm_init c tick = Some s ->
  (Z.testbit (fm_faults (fst (fm_run c s h))) (fault_bit k) = true <->
   sustained (fault_cond c k) (tolerance c tick k) (evaluated h)).
Proof.
  intros c tick s h k Hc HT Hi.
  rewrite (r_word _ _ _ _ (fm_run_rel c tick s h Hc HT Hi)), word_of_kind.
  unfold trips. rewrite tripped_sustained by (apply HT). now rewrite rev_involutive.
Qed.

Lemma fault_bits_only : forall c tick s h i, cfg_ok c tick -> tol_small c tick ->
  fm_init c tick = Some s ->
  Z.testbit (fm_faults (fst (fm_run c s h))) i = true ->
  exists k, i = fault_bit k /\ exists d, In d (evaluated h) /\ fault_cond c k d = true.
Proof.
  intros c tick s h i Hc HT Hi H.
  rewrite (r_word _ _ _ _ (fm_run_rel c tick s h Hc HT Hi)), word_of_bit in H.
  apply existsb_exists in H. destruct H as (k & _ & H). apply andb_true_iff in H.
  destruct H as [H1 H2]. exists k. split; [lia|].
  unfold trips in H1. rewrite tripped_sustained in H1 by (apply HT). rewrite rev_involutive in H1.
  destruct H1 as (b & w & a & E & L & F).
  pose proof (HT k). destruct w as [|d w]; [simpl in L; lia|].
  exists d. split; [rewrite E, in_app_iff; right; left; auto|].
  simpl in F. now apply andb_true_iff in F.
Qed.

(** Bits never disappear, for every state whatever (no configuration needed). *)
Lemma or_unless_keep : forall b bit f i, Z.testbit f i = true -> Z.testbit (or_unless b bit f) i = true.
Proof. intros [] bit f i H; simpl; auto. now rewrite Z.lor_spec, H. Qed.

Lemma fm_step_keep : forall c s x i,
  Z.testbit (fm_faults s) i = true -> Z.testbit (fm_faults (fst (fm_step c s x))) i = true.
Proof.
  intros c s [d|] i H; [|exact H]. unfold fm_step.
  destruct (isFaultAccelPedal c s d) as [f1 s1] eqn:E1.
  assert (H1 : fm_faults s1 = fm_faults s).
  { unfold isFaultAccelPedal in E1.
    repeat match goal with E : context [let '(_, _) := ?x in _] |- _ => destruct x end.
    now inversion E1. }
  destruct (isFaultBrakePedal c (fm_or s1 f1) d) as [f2 s2] eqn:E2.
  assert (H2 : fm_faults s2 = fm_faults (fm_or s1 f1)).
  { unfold isFaultBrakePedal in E2.
    repeat match goal with E : context [let '(_, _) := ?x in _] |- _ => destruct x end.
    now inversion E2. }
  destruct (isFaultBMS c (fm_or s2 f2) d) as [f3 s3] eqn:E3.
  assert (H3 : fm_faults s3 = fm_faults (fm_or s2 f2)).
  { unfold isFaultBMS in E3.
    repeat match goal with E : context [let '(_, _) := ?x in _] |- _ => destruct x end.
    now inversion E3. }
  cbn [fst fm_or fm_faults] in *. rewrite H3, H2, H1, !Z.lor_spec, H. reflexivity.
Qed.

Lemma fm_run_keep : forall c h s i,
  Z.testbit (fm_faults s) i = true -> Z.testbit (fm_faults (fst (fm_run c s h))) i = true.
Proof.
  induction h as [|x h IH] using rev_ind; intros s i H; [exact H|].
  rewrite fm_run_app, fm_run_one. apply fm_step_keep. auto.
Qed.

Definition word_ok (z : Z) : Prop := forall i, 32 <= i \/ i < 0 -> Z.testbit z i = false.

(** The masks of [classify]. *)
Lemma land_high_pos : forall z, 0 <= z ->
  (Z.land z FAULT_MASK > 0 <-> exists i, 8 <= i < 32 /\ Z.testbit z i = true).
Proof.
  intros z Hz. unfold FAULT_MASK.
  assert (MB : forall i, 0 <= i -> Z.testbit 0xFFFFFF00 i = (8 <=? i) && (i <? 32)).
  { intros i Hi. change 0xFFFFFF00 with (Z.shiftl (Z.ones 24) 8).
    rewrite Z.shiftl_spec by lia. destruct (8 <=? i) eqn:E.
    - rewrite Z.testbit_ones by lia. lia.
    - rewrite Z.testbit_neg_r by lia. reflexivity. }
  assert (NN : 0 <= Z.land z 0xFFFFFF00) by (apply Z.land_nonneg; lia).
  split.
  - intros H.
    exists (Z.log2 (Z.land z 0xFFFFFF00)).
    assert (B : Z.testbit (Z.land z 0xFFFFFF00) (Z.log2 (Z.land z 0xFFFFFF00)) = true)
      by (apply Z.bit_log2; lia).
    rewrite Z.land_spec, MB in B by apply Z.log2_nonneg.
    apply andb_true_iff in B. destruct B as [B1 B2]. split; [lia|exact B1].
  - intros (i & Hi & B).
    assert (Z.land z 0xFFFFFF00 <> 0); [|lia].
    intro E. assert (Z.testbit (Z.land z 0xFFFFFF00) i = true).
    { rewrite Z.land_spec, MB, B by lia. lia. }
    rewrite E, Z.bits_0 in H. discriminate.
Qed.

Lemma fm_step_report : forall c s d,
  snd (fm_step c s (Some d)) = classify (fm_faults (fst (fm_step c s (Some d)))).
Proof.
  intros c s d. unfold fm_step.
  destruct (isFaultAccelPedal c s d) as [f1 s1].
  destruct (isFaultBrakePedal c (fm_or s1 f1) d) as [f2 s2].
  destruct (isFaultBMS c (fm_or s2 f2) d) as [f3 s3]. reflexivity.
Qed.

Lemma classify_fault : forall z,
  classify z = FS_Fault <-> Z.land z FAULT_MASK > 0.
Proof.
  intros z. unfold classify. destruct (Z.land z FAULT_MASK >? 0) eqn:E.
  - split; [lia|auto].
  - split; [|lia]. destruct (Z.land z LV_ERROR_MASK >? 0); discriminate.
Qed.

Lemma mask_nonneg : forall z, 0 <= Z.land z FAULT_MASK.
Proof. intros. apply Z.land_nonneg. right. unfold FAULT_MASK. lia. Qed.

Lemma mask_keep : forall z z', (forall i, Z.testbit z i = true -> Z.testbit z' i = true) ->
  Z.land z FAULT_MASK > 0 -> Z.land z' FAULT_MASK > 0.
Proof.
  intros z z' K H. pose proof (mask_nonneg z').
  destruct (Z.eq_dec (Z.land z' FAULT_MASK) 0) as [E|]; [|lia]. exfalso.
  set (i := Z.log2 (Z.land z FAULT_MASK)).
  assert (B : Z.testbit (Z.land z FAULT_MASK) i = true) by (apply Z.bit_log2; lia).
  rewrite Z.land_spec in B. apply andb_true_iff in B. destruct B as [B1 B2].
  assert (C : Z.testbit (Z.land z' FAULT_MASK) i = true).
  { rewrite Z.land_spec, (K _ B1), B2. reflexivity. }
  rewrite E, Z.bits_0 in C. discriminate.
Qed.

Lemma latch_reports : forall c h s, classify (fm_faults s) = FS_Fault ->
  Forall2 (fun x r => r = match x with Some _ => FS_Fault | None => FS_LvError end)
          h (snd (fm_run c s h)).
Proof.
  induction h as [|x t IH]; intros s H; [constructor|].
  cbn [fm_run]. destruct (fm_step c s x) as [s1 r] eqn:E1.
  assert (K : classify (fm_faults s1) = FS_Fault).
  { apply classify_fault. apply classify_fault in H. revert H.
    apply mask_keep. intros i B. apply (fm_step_keep c s x) in B. now rewrite E1 in B. }
  specialize (IH s1 K). destruct (fm_run c s1 t) as [s2 rs]. cbn [snd] in *.
  constructor; [|exact IH].
  destruct x as [d|].
  - pose proof (fm_step_report c s d) as R. rewrite E1 in R. simpl in R. congruence.
  - simpl in E1. now inversion E1.
Qed.

Lemma fm_run_app_reports : forall c h1 h2 s,
  snd (fm_run c s (h1 ++ h2)) =
  snd (fm_run c s h1) ++ snd (fm_run c (fst (fm_run c s h1)) h2).
Proof.
  induction h1 as [|x t IH]; intros h2 s; [reflexivity|].
  cbn [app fm_run]. destruct (fm_step c s x) as [s1 r]. specialize (IH h2 s1).
  destruct (fm_run c s1 (t ++ h2)) eqn:E1. destruct (fm_run c s1 t) eqn:E2.
  cbn [fst snd app] in *. now rewrite IH.
Qed.

(** Last report of a non-empty history. *)
Lemma last_report_fault : forall c s h x,
  snd (fm_step c (fst (fm_run c s h)) x) = FS_Fault ->
  classify (fm_faults (fst (fm_run c s (h ++ [x])))) = FS_Fault.
Proof.
  intros c s h x H. rewrite fm_run_app, fm_run_one. destruct x as [d|].
  - now rewrite fm_step_report in H.
  - discriminate.
Qed.

(** The report stream is determined by the word. *)
Lemma word_zero_iff : forall c tick s h, cfg_ok c tick -> tol_small c tick ->
  fm_init c tick = Some s ->
  (fm_faults (fst (fm_run c s h)) = 0 <->
   forall k, ~ sustained (fault_cond c k) (tolerance c tick k) (evaluated h)).
Proof.
  intros c tick s h Hc HT Hi. split.
  - intros E k S. apply (fault_bit_exact c tick s h k Hc HT Hi) in S.
    rewrite E, Z.bits_0 in S. discriminate.
  - intros N. apply Z.bits_inj'. intros i _. rewrite Z.bits_0.
    destruct (Z.testbit _ i) eqn:B; auto. exfalso.
    rewrite (r_word _ _ _ _ (fm_run_rel c tick s h Hc HT Hi)), word_of_bit in B.
    apply existsb_exists in B. destruct B as (k & _ & B). apply andb_true_iff in B.
    destruct B as [B _]. apply (N k). unfold trips in B.
    rewrite tripped_sustained in B by apply HT. now rewrite rev_involutive in B.
Qed.

Lemma report_exact : forall c tick s h d, cfg_ok c tick -> tol_small c tick ->
  fm_init c tick = Some s ->
  let r := snd (fm_step c (fst (fm_run c s h)) (Some d)) in
  (r = FS_Fault <->
   exists k, sustained (fault_cond c k) (tolerance c tick k) (evaluated h ++ [d])) /\
  (r = FS_NoFault <->
   forall k, ~ sustained (fault_cond c k) (tolerance c tick k) (evaluated h ++ [d])).
Proof.
  intros c tick s h d Hc HT Hi r. subst r.
  assert (E : evaluated h ++ [d] = evaluated (h ++ [Some d])) by now rewrite evaluated_app.
  rewrite E. rewrite fm_step_report. rewrite <- fm_run_one, <- fm_run_app.
  set (z := fm_faults (fst (fm_run c s (h ++ [Some d])))).
  assert (W : z = word_of (trips c tick (rev (evaluated (h ++ [Some d])))))
    by (apply (r_word _ _ _ _ (fm_run_rel c tick s _ Hc HT Hi))).
  assert (NN : 0 <= z).
  { rewrite W. unfold word_of. generalize all_kinds. induction l as [|k l IH]; simpl; [lia|].
    apply Z.lor_nonneg. split; [|exact IH]. destruct (trips _ _ _ k); [|lia].
    apply Z.pow_nonneg. lia. }
  assert (F : classify z = FS_Fault <->
     exists k, sustained (fault_cond c k) (tolerance c tick k) (evaluated (h ++ [Some d]))).
  { rewrite classify_fault, land_high_pos by exact NN. split.
    - intros (i & Hi8 & B). rewrite W, word_of_bit in B.
      apply existsb_exists in B. destruct B as (k & _ & B). apply andb_true_iff in B.
      destruct B as [B _]. exists k. unfold trips in B.
      rewrite tripped_sustained in B by apply HT. now rewrite rev_involutive in B.
    - intros (k & S). exists (fault_bit k). split; [destruct k; simpl; lia|].
      now apply (fault_bit_exact c tick s _ k Hc HT Hi). }
  split; [exact F|]. split.
  - intros N k S. assert (classify z = FS_Fault) by (apply F; eauto). congruence.
  - intros N. assert (z = 0) by (now apply (word_zero_iff c tick s)).
    rewrite H. reflexivity.
Qed.

(** ** The one unreachable limit: 65535 *)
Lemma timed_65535 : forall b t, fst (handleTimedCondition b t 65535) = true.
Proof.
  intros b t. unfold handleTimedCondition, u16. destruct b; auto.
  destruct ((t + 1) mod 2 ^ 16 >? 65535) eqn:E; auto.
  pose proof (Z.mod_pos_bound (t + 1) (2 ^ 16)). lia.
Qed.

Lemma or_unless_bit : forall b n i f, 0 <= n -> i <> n ->
  Z.testbit (or_unless b (2 ^ n) f) i = Z.testbit f i.
Proof.
  intros [] n i f Hn Hi; simpl; auto. rewrite Z.lor_spec, Z.pow2_bits_false by lia. apply orb_false_r.
Qed.

Lemma never_trips_step : forall c s x, fm_accRangeL s = 65535 ->
  Z.testbit (fm_faults s) 8 = false ->
  fm_accRangeL (fst (fm_step c s x)) = 65535 /\
  Z.testbit (fm_faults (fst (fm_step c s x))) 8 = false.
Proof.
  intros c s [d|] HL H; [|auto]. unfold fm_step.
  destruct (isFaultAccelPedal c s d) as [f1 s1] eqn:E1.
  assert (H1 : fm_faults s1 = fm_faults s /\ fm_accRangeL s1 = 65535 /\ Z.testbit f1 8 = false).
  { unfold isFaultAccelPedal in E1. rewrite HL in E1.
    match type of E1 with context [handleTimedCondition ?a ?b 65535] =>
      pose proof (timed_65535 a b) as TT; destruct (handleTimedCondition a b 65535) end.
    simpl in TT. subst b.
    destruct (handleTimedCondition _ _ (fm_accConsL s)) as [b2 t2].
    inversion E1; subst; clear E1. cbn [fm_faults fm_accRangeL]. repeat split; auto.
    change F_ACCELPDL_SENSE with (2 ^ 9). rewrite or_unless_bit by lia. exact H. }
  destruct H1 as (HA & HB & HC).
  destruct (isFaultBrakePedal c (fm_or s1 f1) d) as [f2 s2] eqn:E2.
  assert (H2 : fm_faults s2 = fm_faults (fm_or s1 f1) /\ fm_accRangeL s2 = 65535 /\ Z.testbit f2 8 = false).
  { unfold isFaultBrakePedal in E2.
    destruct (handleTimedCondition _ _ (fm_brkRangeL (fm_or s1 f1))) as [b1 t1].
    assert (Q : Z.testbit (fm_faults (fm_or s1 f1)) 8 = false).
    { cbn [fm_or fm_faults]. now rewrite Z.lor_spec, HA, H, HC. }
    change F_BRAKEPDL_RANGE with (2 ^ 10) in E2. change F_BRAKEPDL_ABUSE with (2 ^ 12) in E2.
    destruct (ci_abuseEnabled (cf_inputs c) =? 1);
      [destruct (handleTimedCondition _ _ (fm_abuseL (fm_or s1 f1))) as [b2 t2]|];
      inversion E2; subst; clear E2; cbn [fm_faults fm_accRangeL]; repeat split; auto;
      rewrite !or_unless_bit by lia; exact Q. }
  destruct H2 as (HA2 & HB2 & HC2).
  destruct (isFaultBMS c (fm_or s2 f2) d) as [f3 s3] eqn:E3.
  assert (H3 : fm_faults s3 = fm_faults (fm_or s2 f2) /\ fm_accRangeL s3 = 65535 /\ Z.testbit f3 8 = false).
  { unfold isFaultBMS in E3.
    repeat match goal with E : context [let '(_, _) := ?x in _] |- _ => destruct x end.
    assert (Q : Z.testbit (fm_faults (fm_or s2 f2)) 8 = false).
    { cbn [fm_or fm_faults]. rewrite Z.lor_spec, HA2. cbn [fm_or fm_faults].
      now rewrite Z.lor_spec, HA, H, HC, HC2. }
    inversion E3; subst; clear E3; cbn [fm_faults fm_accRangeL]; repeat split; auto.
    change F_BMS_CELLTEMP with (2 ^ 13). change F_BMS_CURRENT with (2 ^ 14).
    change F_BMS_CELLVOLT with (2 ^ 15). change F_BMS_LOWSOC with (2 ^ 16).
    change F_BMS_FAULTIND with (2 ^ 17).
    rewrite !or_unless_bit by lia. exact Q. }
  destruct H3 as (HA3 & HB3 & HC3).
  cbn [fst fm_or fm_faults fm_accRangeL isFaultInverter isLVErrorBMS isLVErrorInverter] in *.
  split; [exact HB3|].
  rewrite !Z.lor_0_r, HA3, HA2, HA, !Z.lor_spec, H, HC, HC2, HC3. reflexivity.
Qed.

Lemma never_trips : forall c h s, fm_accRangeL s = 65535 ->
  Z.testbit (fm_faults s) 8 = false ->
  Z.testbit (fm_faults (fst (fm_run c s h))) 8 = false.
Proof.
  intros c h s HL H.
  assert (G : fm_accRangeL (fst (fm_run c s h)) = 65535 /\
              Z.testbit (fm_faults (fst (fm_run c s h))) 8 = false); [|tauto].
  induction h as [|x h IH] using rev_ind; [auto|].
  rewrite fm_run_app, fm_run_one. destruct IH. now apply never_trips_step.
Qed.

(** ** Only the pedal/brake inputs and the battery record are looked at *)
Definition same_watched (d d' : vstate) : Prop :=
  vs_inputs d = vs_inputs d' /\ vs_battery d = vs_battery d'.

Lemma fm_step_watched : forall c s d d', same_watched d d' ->
  fm_step c s (Some d) = fm_step c s (Some d').
Proof.
  intros c s d d' [E1 E2]. unfold fm_step, isFaultAccelPedal, isFaultBrakePedal, isFaultBMS.
  now rewrite E1, E2.
Qed.

Lemma fm_run_watched : forall c h h' s,
  Forall2 (fun x x' => match x, x' with
     | Some d, Some d' => same_watched d d' | None, None => True | _, _ => False end) h h' ->
  fm_run c s h = fm_run c s h'.
Proof.
  intros c h h' s H. revert s. induction H as [|x x' h h' X _ IH]; intros s; [reflexivity|].
  cbn [fm_run].
  replace (fm_step c s x') with (fm_step c s x).
  - destruct (fm_step c s x). now rewrite IH.
  - destruct x, x'; try contradiction; [now apply fm_step_watched|reflexivity].
Qed.

Lemma repeat_no_fault : forall c s d,
  fm_step c s (Some d) = (s, FS_NoFault) ->
  forall n, fm_run c s (repeat (Some d) n) = (s, repeat FS_NoFault n).
Proof.
  intros c s d E. induction n as [|n IH]; [reflexivity|].
  cbn [repeat fm_run]. now rewrite E, IH.
Qed.

Lemma tol_small_10 : forall c, cfg_ok c 10 -> tol_small c 10.
Proof.
  intros c (H1 & H2 & _) k. unfold tolerance. destruct k; lia.
Qed.
