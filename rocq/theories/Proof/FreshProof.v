From Verif.Base Require Import Words.
From Verif.Model Require Import Fresh.
From Verif.Spec Require Import FreshSpec.
From Coq Require Import ZifyBool ZifyNat.

Lemma fresh_run_snoc : forall d v tr ev,
  fresh_run d v (tr ++ [ev]) = fresh_step d (fresh_run d v tr) ev.
Proof. intros. unfold fresh_run. now rewrite fold_left_app. Qed.

Lemma put_same : forall A (f : Z -> A) t v, put f t v t = v.
Proof. intros. unfold put. now rewrite Z.eqb_refl. Qed.
Lemma put_other : forall A (f : Z -> A) t u v, u <> t -> put f t v u = f u.
Proof. intros. unfold put. now destruct (Z.eqb_spec u t). Qed.

(** ** What is published *)
Lemma publish_shows : forall d cy v, shows_cycle d cy (ds_step d v (locked cy)).
Proof.
  intros d cy v. unfold shows_cycle, ds_step, locked.
  generalize (ADC_ApplyScaling (ds_accelA d)) (ADC_ApplyScaling (ds_accelB d))
             (ADC_ApplyScaling (ds_brakeFront d)) (ADC_ApplyScaling (ds_brakeRear d)).
  intros fA fB fF fR. generalize (fmul f_half). intros half. generalize fadd. intros add.
  cbn [cy_lock cy_A cy_B cy_front cy_rear cy_button set_inputs set_dash vs_inputs vs_dash d_buttonPressed].
  destruct (vs_inputs v) as [i1 i2 i3 i4 i5 i6 i7 i8 i9 i10].
  Ltac fields := cbn [i_accel i_accelA i_accelB i_accelRawA i_accelRawB i_accelValid
       i_brakePresFront i_brakePresRear i_brakeRawFront i_brakeRawRear].
  destruct (Z.eqb_spec (fst (cy_A cy)) ADC_STATUS_OK) as [a|a], (Z.eqb_spec (fst (cy_B cy)) ADC_STATUS_OK) as [b|b],
    (Z.eqb_spec (fst (cy_front cy)) ADC_STATUS_OK) as [c|c], (Z.eqb_spec (fst (cy_rear cy)) ADC_STATUS_OK) as [e|e];
  apply Z.eqb_eq in a || apply Z.eqb_neq in a; apply Z.eqb_eq in b || apply Z.eqb_neq in b;
  apply Z.eqb_eq in c || apply Z.eqb_neq in c; apply Z.eqb_eq in e || apply Z.eqb_neq in e;
  unfold put_A, ok; rewrite a; unfold put_B, ok; rewrite b; fields;
  unfold put_accel, ok; rewrite a, b; cbn [andb]; fields;
  unfold put_front, ok; rewrite c; fields; unfold put_rear, ok; rewrite e; fields;
  apply Z.eqb_eq in a || apply Z.eqb_neq in a; apply Z.eqb_eq in b || apply Z.eqb_neq in b;
  apply Z.eqb_eq in c || apply Z.eqb_neq in c; apply Z.eqb_eq in e || apply Z.eqb_neq in e;
  repeat apply conj; intros; try contradiction; repeat apply conj; reflexivity.
Qed.

Lemma others_show : forall d cy v w, shows_cycle d cy v -> shows_cycle d cy (others_of w v).
Proof. intros d cy v w H. unfold shows_cycle, others_of in *. cbn. exact H. Qed.

(** ** The invariant *)
Definition stamp (s : fresh) : Z := match f_last s with Some (n, _) => n | None => 0 end.
Definition since (g : stage) : option Z :=
  match g with Waiting => None | Running a | Wants a | Inside a => Some a end.

Record good (d : ds_scaling) (s : fresh) : Prop := mkGood {
  g_note : f_note s T_SENSE = f_wait s;
  g_wait : 0 <= f_wait s;
  g_idle : f_stage s T_SENSE = Waiting -> f_note s T_SENSE = 0 -> stamp s = f_now s;
  g_act : forall a, since (f_stage s T_SENSE) = Some a ->
     stamp s <= a /\ a <= f_now s /\ (f_note s T_SENSE = 0 -> a = f_now s) /\
     (f_pub s = true -> stamp s = a);
  g_now : stamp s <= f_now s;
  g_low : forall t a, priority t < priority T_SENSE -> since (f_stage s t) = Some a -> a <= stamp s;
  g_hold : forall t, (exists a, f_stage s t = Inside a) <-> f_holder s = Some t;
  g_task : forall t, f_stage s t <> Waiting -> In t task_ids;
  g_show : forall n cy, f_last s = Some (n, cy) -> shows_cycle d cy (f_vs s) }.

Lemma init_good : forall d v, good d (fresh_init v).
Proof.
  intros d v. constructor; cbn; auto; try lia; try discriminate; try congruence.
  intros t. split; [intros (a & H)|]; discriminate.
Qed.

Lemma sense_in : In T_SENSE task_ids.
Proof. cbn. tauto. Qed.

Lemma fold_max_ge : forall l p, p <= fold_right Z.max p l.
Proof. induction l as [|x l IH]; intros p; cbn; [lia|]. specialize (IH p). lia. Qed.
Lemma fold_max_in : forall l p x, In x l -> x <= fold_right Z.max p l.
Proof.
  induction l as [|y l IH]; intros p x []; cbn; [subst; lia|]. specialize (IH p x H). lia.
Qed.

(** A task of lower priority starts only when the sensing task has nothing to do. *)
Lemma low_starts : forall d s t, good d s -> priority t < priority T_SENSE ->
  f_stage s t = Waiting -> kernel_allows s t = true ->
  f_stage s T_SENSE = Waiting /\ f_note s T_SENSE = 0.
Proof.
  intros d s t G P W K. unfold kernel_allows in K. rewrite forallb_forall in K.
  assert (ET : effective s t = priority t).
  { unfold effective. destruct (f_holder s) as [h|] eqn:H; auto.
    destruct (Z.eqb_spec h t) as [->|]; auto.
    apply (g_hold d s G) in H. destruct H as (a & H). congruence. }
  assert (SE : forall u, priority u <= effective s u).
  { intros u. unfold effective. destruct (f_holder s) as [h|]; [|lia].
    destruct (h =? u); [apply fold_max_ge|lia]. }
  assert (KS := K T_SENSE sense_in). rewrite ET in KS. specialize (SE T_SENSE).
  assert (R : surely_ready s T_SENSE = false).
  { destruct (surely_ready s T_SENSE); auto. cbn [negb orb] in KS. lia. }
  unfold surely_ready in R. destruct (f_stage s T_SENSE) as [|a|a|a] eqn:E; try discriminate.
  - split; auto. lia.
  - exfalso. destruct (f_holder s) as [h|] eqn:H; [|discriminate].
    assert (HI := proj2 (g_hold d s G h) H). destruct HI as (b & HI).
    assert (IN : In h task_ids) by (apply (g_task d s G); congruence).
    specialize (K h IN). unfold surely_ready in K. rewrite HI, ET in K. cbn [negb orb] in K.
    unfold effective in K. rewrite H, Z.eqb_refl in K.
    assert (Q : priority T_SENSE <=
       fold_right Z.max (priority h) (map priority (filter (fun u => is_wants (f_stage s u)) task_ids))).
    { apply fold_max_in. apply in_map. apply filter_In. split; [apply sense_in|]. now rewrite E. }
    lia.
Qed.

Lemma existsb_in : forall t, existsb (Z.eqb t) task_ids = true -> In t task_ids.
Proof.
  intros t H. apply existsb_exists in H. destruct H as (x & I & E).
  apply Z.eqb_eq in E. now subst.
Qed.

(** Changing only the stage of [t], keeping its starting time. *)
Lemma stage_keeps : forall d s t g h,
  good d s -> In t task_ids -> since g = since (f_stage s t) -> g <> Waiting ->
  (forall u, (exists a, put (f_stage s) t g u = Inside a) <-> h = Some u) ->
  good d (set_holder (set_stage s t g) h).
Proof.
  intros d s t g h G IN E NW HH. destruct G as [N W ID AC NO LO HO TA SH].
  assert (SS : forall u, since (put (f_stage s) t g u) = since (f_stage s u)).
  { intros u. unfold put. destruct (Z.eqb_spec u t) as [->|]; auto. }
  constructor; cbn [set_holder set_stage f_now f_note f_stage f_holder f_vs f_pub f_last f_wait]; auto.
  - intros Q. apply ID. specialize (SS T_SENSE). rewrite Q in SS.
    destruct (f_stage s T_SENSE); try discriminate; auto.
  - intros a Q. rewrite SS in Q. exact (AC a Q).
  - intros u a P Q. rewrite SS in Q. exact (LO u a P Q).
  - intros u Q. destruct (Z.eq_dec u t) as [UT|UT]; [now rewrite UT|]. rewrite put_other in Q by exact UT. auto.
Qed.

Lemma act_good : forall d s t a, good d s -> In t task_ids -> kernel_allows s t = true ->
  good d (act_step d s t a).
Proof.
  intros d s t a G IN K. unfold act_step.
  destruct a; destruct (f_stage s t) as [|b|b|b] eqn:E; auto.
  - (* AStart *)
    destruct (Z.eqb_spec (f_note s t) 0) as [|NZ]; auto.
    destruct (Z.eqb_spec t T_SENSE) as [->|NT].
    + destruct G as [N W ID AC NO LO HO TA SH].
      constructor; cbn [set_stage f_now f_note f_stage f_holder f_vs f_pub f_last f_wait]; auto; try lia.
      * rewrite put_same. discriminate.
      * rewrite put_same. intros a Q. cbn in Q. injection Q as <-.
        unfold stamp in *. cbn [f_last]. repeat split; try lia; auto.
      * intros u a P Q. rewrite put_other in Q by (intros ->; lia). exact (LO u a P Q).
      * intros u. rewrite <- HO. unfold put. destruct (Z.eqb_spec u T_SENSE) as [->|]; [|tauto].
        rewrite E. split; intros (a & Q); discriminate.
      * intros u Q. destruct (Z.eq_dec u T_SENSE) as [UT|UT]; [rewrite UT; auto|]. rewrite put_other in Q by exact UT. auto.
    + pose proof (low_starts d s t G) as LS.
      destruct G as [N W ID AC NO LO HO TA SH].
      constructor; cbn [set_stage f_now f_note f_stage f_holder f_vs f_pub f_last f_wait]; auto; try lia.
      * rewrite put_other by congruence. auto.
      * rewrite !put_other by congruence. auto.
      * rewrite !put_other by congruence. auto.
      * intros u a P Q. unfold put in Q. destruct (Z.eqb_spec u t) as [->|]; [|exact (LO u a P Q)].
        cbn in Q. injection Q as <-. destruct (LS P E K) as [L1 L2].
        specialize (ID L1 L2). unfold stamp in *. cbn [set_stage f_last]. lia.
      * intros u. rewrite <- HO. unfold put. destruct (Z.eqb_spec u t) as [->|]; [|tauto].
        rewrite E. split; intros (a & Q); discriminate.
      * intros u Q. destruct (Z.eq_dec u t) as [UT|UT]; [now rewrite UT|]. rewrite put_other in Q by exact UT. auto.
  - (* ACall *)
    destruct ((t =? T_SENSE) && f_pub s); auto.
    change (set_stage s t (Wants b)) with (set_holder (set_stage s t (Wants b)) (f_holder s)).
    apply stage_keeps; auto; [now rewrite E|discriminate|].
    intros u. rewrite <- (g_hold d s G). unfold put. destruct (Z.eqb_spec u t) as [->|]; [|tauto].
    rewrite E. split; intros (a & Q); discriminate.
  - (* ATake *)
    destruct (f_holder s) as [h|] eqn:H; auto.
    apply stage_keeps; auto; [now rewrite E|discriminate|].
    intros u. unfold put. destruct (Z.eqb_spec u t) as [->|].
    + split; eauto.
    + rewrite (g_hold d s G), H. split; [discriminate|congruence].
  - (* APublish *)
    destruct (Z.eqb_spec t T_SENSE) as [->|]; auto.
    destruct G as [N W ID AC NO LO HO TA SH].
    assert (AB : since (f_stage s T_SENSE) = Some b) by now rewrite E.
    destruct (AC b AB) as (A1 & A2 & A3 & A4).
    constructor; cbn [f_now f_note f_stage f_holder f_vs f_pub f_last f_wait]; auto.
    + intros a Q. rewrite AB in Q. injection Q as <-. unfold stamp. cbn [f_last].
      repeat split; auto; lia.
    + intros u a P Q. specialize (LO u a P Q). unfold stamp at 1. cbn [f_last]. lia.
    + intros n c Q. injection Q as _ <-. apply publish_shows.
  - (* AWrite *)
    destruct (Z.eqb_spec t T_SENSE); auto.
    destruct G as [N W ID AC NO LO HO TA SH].
    constructor; cbn [f_now f_note f_stage f_holder f_vs f_pub f_last f_wait]; auto.
  - (* AGive *)
    destruct ((t =? T_SENSE) && negb (f_pub s)); auto.
    apply stage_keeps; auto; [now rewrite E|discriminate|].
    intros u. split; [|discriminate]. unfold put. destruct (Z.eqb_spec u t) as [->|NU].
    + intros (a & Q). discriminate.
    + intros Q. exfalso. apply (g_hold d s G) in Q.
      assert (T : f_holder s = Some t) by (apply (g_hold d s G); eauto). congruence.
  - (* ADone *)
    destruct ((t =? T_SENSE) && negb (f_pub s)) eqn:B; auto.
    destruct G as [N W ID AC NO LO HO TA SH].
    constructor; cbn [set_stage f_now f_note f_stage f_holder f_vs f_pub f_last f_wait]; auto.
    + intros Q NZ. destruct (Z.eq_dec t T_SENSE) as [->|NT].
      * assert (AB : since (f_stage s T_SENSE) = Some b) by now rewrite E.
        destruct (AC b AB) as (_ & _ & A3 & A4). rewrite Z.eqb_refl in B. cbn [andb] in B.
        apply negb_false_iff in B. specialize (A3 NZ). specialize (A4 B).
        unfold stamp in *. cbn [set_stage f_last]. lia.
      * rewrite put_other in Q by congruence. exact (ID Q NZ).
    + intros a Q. unfold put in Q. destruct (T_SENSE =? t); [discriminate|exact (AC a Q)].
    + intros u a P Q. unfold put in Q. destruct (u =? t); [discriminate|exact (LO u a P Q)].
    + intros u. rewrite <- HO. unfold put. destruct (Z.eqb_spec u t) as [->|]; [|tauto].
      rewrite E. split; intros (a & Q); discriminate.
    + intros u Q. destruct (Z.eq_dec u t) as [UT|UT]; [now rewrite UT|]. rewrite put_other in Q by exact UT. auto.
Qed.

Lemma step_good : forall d s ev, good d s -> f_wait (fresh_step d s ev) < 4294967296 ->
  good d (fresh_step d s ev).
Proof.
  intros d s [|t|t a] G Wt.
  - destruct G as [N W ID AC NO LO HO TA SH]. cbn [fresh_step f_wait] in Wt.
    assert (U : u32 (f_note s T_SENSE + 1) = f_wait s + 1)
      by (rewrite N; unfold u32; apply Z.mod_small; lia).
    constructor; unfold fresh_step; cbn [f_now f_note f_stage f_holder f_vs f_pub f_last f_wait]; auto;
      try (change (on_timer T_SENSE) with true; cbn iota); try rewrite U; try lia.
    + intros a Q. destruct (AC a Q) as (A1 & A2 & _ & A4). repeat split; auto; lia.
    + unfold stamp in *. cbn [set_stage f_last]. lia.
  - cbn [fresh_step]. destruct (Z.eqb_spec t T_SENSE) as [|NT]; auto.
    destruct G as [N W ID AC NO LO HO TA SH].
    constructor; cbn [f_now f_note f_stage f_holder f_vs f_pub f_last f_wait]; auto;
      rewrite put_other by congruence; auto.
  - cbn [fresh_step]. destruct (existsb (Z.eqb t) task_ids) eqn:I; cbn [andb]; auto.
    destruct (kernel_allows s t) eqn:K; auto. apply act_good; auto. now apply existsb_in.
Qed.

Lemma run_good : forall d v tr, not_starved d v tr -> good d (fresh_run d v tr).
Proof.
  intros d v tr. induction tr as [|ev tr IH] using rev_ind; intros NS.
  - apply init_good.
  - assert (NS' : not_starved d v tr).
    { intros a b E. apply (NS a (b ++ [ev])). rewrite E. now rewrite app_assoc. }
    rewrite fresh_run_snoc. apply step_good; auto.
    rewrite <- fresh_run_snoc. apply (NS (tr ++ [ev]) []). now rewrite app_nil_r.
Qed.

(** ** The claims *)
Lemma inside_is_fresh : forall d v tr t at_, not_starved d v tr ->
  priority t < priority T_SENSE -> f_stage (fresh_run d v tr) t = Inside at_ -> 1 <= at_ ->
  exists n cy, f_last (fresh_run d v tr) = Some (n, cy) /\ at_ <= n <= f_now (fresh_run d v tr) /\
    shows_cycle d cy (f_vs (fresh_run d v tr)).
Proof.
  intros d v tr t at_ NS P E L. pose proof (run_good d v tr NS) as G.
  assert (S : since (f_stage (fresh_run d v tr) t) = Some at_) by now rewrite E.
  pose proof (g_low _ _ G t at_ P S) as B. pose proof (g_now _ _ G) as C.
  pose proof (g_show _ _ G) as D. unfold stamp in *.
  destruct (f_last (fresh_run d v tr)) as [[n cy]|]; [|lia].
  exists n, cy. split; [reflexivity|]. split; [lia|]. exact (D n cy eq_refl).
Qed.

Lemma low_tasks : forall t, In t [T_THROTTLE; T_VSM; T_PC; T_SDC; T_GPS] ->
  priority t < priority T_SENSE.
Proof. intros t [<-|[<-|[<-|[<-|[<-|[]]]]]]; vm_compute; reflexivity. Qed.

(** ** A checker for the examples *)
Fixpoint waits_okb (d : ds_scaling) (s : fresh) (tr : list f_event) : bool :=
  (f_wait s <? 4294967296) &&
  match tr with [] => true | ev :: tr => waits_okb d (fresh_step d s ev) tr end.

Lemma waits_okb_ok : forall d v tr, waits_okb d (fresh_init v) tr = true -> not_starved d v tr.
Proof.
  intros d v tr. unfold not_starved, fresh_run. generalize (fresh_init v).
  induction tr as [|ev tr IH]; intros s H a b E.
  - destruct a; [|discriminate]. cbn [waits_okb] in H. apply andb_prop in H. cbn [fold_left]. lia.
  - cbn [waits_okb] in H. apply andb_prop in H. destruct H as [H1 H2].
    destruct a as [|x a]; cbn [fold_left]; [lia|].
    injection E as <- E. exact (IH _ H2 a b E).
Qed.

Lemma low_goes_second : forall d v tr t, not_starved d v tr ->
  priority t < priority T_SENSE ->
  f_stage (fresh_run d v tr) t = Waiting ->
  f_stage (fresh_step d (fresh_run d v tr) (FRun t AStart)) t <> Waiting ->
  f_stage (fresh_run d v tr) T_SENSE = Waiting /\ f_note (fresh_run d v tr) T_SENSE = 0.
Proof.
  intros d v tr t NS P W ST. pose proof (run_good d v tr NS) as G.
  apply (low_starts d _ t G P W). cbn [fresh_step] in ST.
  destruct (kernel_allows (fresh_run d v tr) t); auto.
  rewrite andb_false_r in ST. contradiction.
Qed.

(** The clock counts ticks. *)
Lemma act_now : forall d s t a, f_now (act_step d s t a) = f_now s.
Proof.
  intros d s t a. unfold act_step. destruct a, (f_stage s t); cbn; try reflexivity;
  repeat match goal with |- context [if ?b then _ else _] => destruct b; cbn; try reflexivity
                       | |- context [match ?b with None => _ | _ => _ end] => destruct b; cbn; try reflexivity end.
Qed.
Lemma now_ticks : forall d v tr, f_now (fresh_run d v tr) = ticks tr.
Proof.
  intros d v tr. unfold fresh_run, ticks.
  enough (H : forall s, f_now (fold_left (fresh_step d) tr s) =
    f_now s + Z.of_nat (length (filter (fun ev => match ev with FTick => true | _ => false end) tr))) by (rewrite H; reflexivity).
  induction tr as [|ev tr IH]; intros s; cbn [fold_left filter length]; [lia|]. rewrite IH. destruct ev as [|u|u a]; cbn [fresh_step].
  - cbn [f_now length]. lia.
  - destruct (u =? T_SENSE); reflexivity.
  - destruct (existsb (Z.eqb u) task_ids && kernel_allows s u); [now rewrite act_now|reflexivity].
Qed.
