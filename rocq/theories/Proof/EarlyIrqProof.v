From Verif.Model Require Import EarlyIrq.
From Verif.Spec Require Import EarlyIrqSpec.
From Coq Require Import Lia ZifyBool ZifyNat.

(** A property of states that holds after each store. *)
Fixpoint along {S : Type} (P : S -> Prop) (todo : list (S -> S)) (s : S) : Prop :=
  P s /\ match todo with f :: r => along P r (f s) | [] => True end.

Lemma along_run S I (h : S -> I -> option S) (P : S -> Prop) :
  (forall s i, P s -> h s i = Some s) ->
  forall tr todo s, along P todo s -> init_run h todo s tr <> None.
Proof.
  intros H. induction tr as [|[|i] tr IH]; intros todo s A; cbn [init_run]; [discriminate| |].
  - destruct todo as [|f r]; [apply IH, A|]. apply IH. apply A.
  - rewrite H by (destruct todo; apply A). now apply IH.
Qed.

Lemma along_app S (P Q : S -> Prop) a : forall b s,
  (forall s, Q s -> P s) ->
  (forall s, Q s -> along P b s) ->
  along P a s -> Q (fold_left (fun s f => f s) a s) -> along P (a ++ b) s.
Proof.
  induction a as [|f a IH]; intros b s QP QB A F.
  - now apply QB.
  - cbn [app along]. split; [apply A|]. apply IH; auto. apply A.
Qed.

Lemma set_nth_length A n (x : A) : forall l, length (set_nth n x l) = length l.
Proof. induction n as [|n IH]; intros [|h t]; cbn [set_nth length]; auto. Qed.
Lemma firstn_set_nth A (x : A) : forall n l, firstn n (set_nth n x l) = firstn n l.
Proof. induction n as [|n IH]; intros [|h t]; cbn [set_nth firstn]; auto. now rewrite IH. Qed.
Lemma nth_error_set_nth A (x : A) : forall n l, (n < length l)%nat -> nth_error (set_nth n x l) n = Some x.
Proof. induction n as [|n IH]; intros [|h t] L; cbn [set_nth nth_error length] in *; try lia; auto. apply IH. lia. Qed.
Lemma firstn_S_nth A : forall n (l : list A) x, nth_error l n = Some x -> firstn (S n) l = firstn n l ++ [x].
Proof.
  induction n as [|n IH]; intros [|h t] x E; cbn [nth_error] in E; try discriminate.
  - injection E as ->. reflexivity.
  - cbn [firstn app]. f_equal. now apply IH.
Qed.

(** ** Task timer *)
Definition tt_slot_ok (h : nat -> bool) (e : option nat) : bool :=
  match e with Some k => h k | None => false end.
Definition tt_safe (s : tt_t) : Prop := forall mine, tt_handler s mine = Some s.
Definition tt_good (s : tt_t) : Prop :=
  tt_isInitialized s = true /\ tt_timer s = true /\ length (tt_slots s) = Z.to_nat TT_MAX /\
  (Z.of_nat (tt_num s) <= TT_MAX) /\
  forallb (tt_slot_ok (tt_handles s)) (firstn (tt_num s) (tt_slots s)) = true.

Lemma tt_good_safe s : tt_good s -> tt_safe s.
Proof.
  intros (A & B & _ & _ & F) mine. unfold tt_handler. rewrite A, B. cbn [negb].
  destruct mine; [cbn [negb]|reflexivity]. fold tt_slot_ok.
  change (fun e : option nat => match e with Some k => tt_handles s k | None => false end)
    with (tt_slot_ok (tt_handles s)). now rewrite F.
Qed.

Lemma tt_slot_upd h k l : forallb (tt_slot_ok h) l = true -> forallb (tt_slot_ok (upd h k)) l = true.
Proof.
  induction l as [|[e|] l IH]; cbn; intros H; auto. apply andb_prop in H. destruct H as [H1 H2].
  rewrite IH by exact H2. unfold upd. destruct (Nat.eqb e k); [reflexivity|]. now rewrite H1.
Qed.

Lemma tt_register_good k s :
  tt_good s -> along tt_good (tt_register_stores k) s.
Proof.
  intros G. pose proof G as (A & B & L & N & F). unfold tt_register_stores. cbn [along].
  set (s1 := mkTt _ _ (upd _ k) _ _).
  assert (G1 : tt_good s1).
  { repeat split; cbn; auto. now apply tt_slot_upd. }
  split; [exact G|]. split; [exact G1|].
  change (tt_num s1) with (tt_num s). unfold TT_MAX in *.
  destruct (Z.eqb_spec (Z.of_nat (tt_num s)) 16) as [E|E].
  - change (tt_num s1) with (tt_num s). rewrite (proj2 (Z.eqb_eq _ _) E). auto.
  - set (s2 := mkTt _ _ _ (set_nth _ _ _) _).
    assert (G2 : tt_good s2).
    { repeat split; cbn; auto.
      - rewrite set_nth_length. exact L.
      - rewrite firstn_set_nth. now apply tt_slot_upd. }
    split; [exact G2|]. change (tt_num s2) with (tt_num s).
    rewrite (proj2 (Z.eqb_neq _ _) E). split; [|exact I].
    repeat split; cbn [tt_isInitialized tt_timer tt_slots tt_num tt_handles s2 s1]; auto.
    + rewrite set_nth_length. exact L.
    + unfold TT_MAX; lia.
    + rewrite (firstn_S_nth _ _ _ (Some k)); [|apply nth_error_set_nth; rewrite L; lia].
      rewrite forallb_app, firstn_set_nth, tt_slot_upd by exact F. cbn.
      unfold upd. now rewrite Nat.eqb_refl.
Qed.

Lemma along_last S (P : S -> Prop) todo : forall s, along P todo s -> P (fold_left (fun s f => f s) todo s).
Proof. induction todo as [|f r IH]; intros s A; [apply A|]. apply IH, A. Qed.
Lemma along_impl S (P Q : S -> Prop) : (forall s, P s -> Q s) -> forall todo s, along P todo s -> along Q todo s.
Proof.
  intros H. induction todo as [|f r IH]; intros s A; cbn [along] in *; split; try (apply H, A); auto.
  apply IH, A.
Qed.

Lemma tt_registers ks : forall s, tt_good s -> along tt_good (flat_map tt_register_stores ks) s.
Proof.
  induction ks as [|k ks IH]; intros s G; [split; [exact G|exact I]|].
  cbn [flat_map]. apply along_app with (Q := tt_good); auto.
  - now apply tt_register_good.
  - now apply along_last, tt_register_good.
Qed.

Lemma tasktimer_harmless ks : harmless (tasktimer_driver ks).
Proof.
  intros tr. unfold run_driver, tasktimer_driver. cbn [dr_handler dr_stores dr_start].
  apply along_run with (P := tt_safe); [intros s i H; apply H|].
  apply along_app with (Q := tt_good).
  - apply tt_good_safe.
  - intros s G. eapply along_impl; [apply tt_good_safe|]. now apply tt_registers.
  - cbn [along tt_init_stores]. repeat split; try (intros mine; reflexivity).
    intros [|]; reflexivity.
  - repeat split; cbn; try reflexivity; unfold TT_MAX; lia.
Qed.

(** ** Wheel speed, UART, ADC *)
Lemma wheelspeed_harmless : harmless wheelspeed_driver.
Proof.
  intros tr. unfold run_driver, wheelspeed_driver. cbn [dr_handler dr_stores dr_start].
  apply along_run with (P := fun s => forall i, ws_handler s i = Some s); [auto|].
  cbn [along ws_stores wi_config wi_stream wi_isInitialized]. repeat split; intros []; reflexivity.
Qed.
Lemma uart_harmless : harmless uart_driver.
Proof.
  intros tr. unfold run_driver, uart_driver. cbn [dr_handler dr_stores dr_start].
  apply along_run with (P := fun s => forall i, ua_handler s i = Some s); [auto|].
  cbn [along ua_stores ua_isEnabled ua_handle ua_outputSb ua_outputSbEnabled ua_txPending].
  repeat split; intros []; reflexivity.
Qed.
Lemma adc_harmless n : 0 <= n <= 16 -> harmless (adc_driver n).
Proof.
  intros N tr. unfold run_driver, adc_driver. cbn [dr_handler dr_stores dr_start].
  apply along_run with (P := fun s => forall i, adc_handler s i = Some s); [auto|].
  assert (n / 2 <= 8) by (apply Z.div_le_upper_bound; lia).
  assert (n mod 2 = n - 2 * (n / 2)) by (rewrite Z.mod_eq; lia).
  assert (0 <= n / 2) by (apply Z.div_pos; lia).
  cbn [along adc_stores ai_handle ai_half ai_off ai_len].
  repeat split; intros []; unfold adc_handler; cbn [ai_handle ai_half ai_off ai_len negb];
    try reflexivity;
    match goal with |- (if ?c then _ else _) = _ => replace c with true; [reflexivity|] end;
    try (destruct (Z.eqb_spec (n mod 2) 0)); lia.
Qed.

(** ** CAN *)
Definition can_good (s : can_t) : Prop :=
  ci_inUse s = true /\ ci_handle s = true /\ ci_txQueue s = true /\
  length (ci_queues s) = Z.to_nat CAN_MAX_QUEUES /\ (Z.of_nat (ci_num s) <= CAN_MAX_QUEUES) /\
  forallb rq_queue (firstn (ci_num s) (ci_queues s)) = true.
Definition can_safe (s : can_t) : Prop := forall i, can_handler s i = Some s.

Lemma can_good_safe s : can_good s -> can_safe s.
Proof.
  intros (A & B & C & _ & _ & F) i. unfold can_handler. rewrite A, B, C. cbn [negb andb].
  destruct i as [id|]; [|reflexivity].
  replace (forallb _ _) with true; [reflexivity|]. symmetry.
  rewrite forallb_forall in *. intros q IN. rewrite (F q IN). now rewrite Bool.orb_true_r.
Qed.

Lemma on_nth_length A n (f : A -> A) l : length (on_nth n f l) = length l.
Proof. unfold on_nth. destruct (nth_error l n); [apply set_nth_length|reflexivity]. Qed.
Lemma firstn_on_nth A n (f : A -> A) l : firstn n (on_nth n f l) = firstn n l.
Proof. unfold on_nth. destruct (nth_error l n); [apply firstn_set_nth|reflexivity]. Qed.
Lemma nth_error_on_nth A n (f : A -> A) l x :
  nth_error l n = Some x -> nth_error (on_nth n f l) n = Some (f x).
Proof.
  intros E. unfold on_nth. rewrite E. apply nth_error_set_nth. apply nth_error_Some. congruence.
Qed.

Lemma can_upd_good f s : can_good s ->
  can_good (mkCan (ci_inUse s) (ci_handle s) (ci_txQueue s) (on_nth (ci_num s) f (ci_queues s)) (ci_num s)).
Proof.
  intros (A & B & C & L & N & F). repeat split; cbn; auto.
  - now rewrite on_nth_length.
  - now rewrite firstn_on_nth.
Qed.

Lemma can_register_good r s : can_good s -> along can_good (can_register_stores r) s.
Proof.
  intros G. unfold can_register_stores. cbn [along]. split; [exact G|].
  destruct (Z.eqb_spec (Z.of_nat (ci_num s)) CAN_MAX_QUEUES) as [E|E].
  { rewrite !(proj2 (Z.eqb_eq _ _) E). repeat (split; [exact G|]). exact I. }
  set (s1 := mkCan _ _ _ (on_nth _ _ (ci_queues s)) _).
  assert (G1 : can_good s1) by now apply can_upd_good.
  split; [exact G1|]. change (ci_num s1) with (ci_num s). rewrite (proj2 (Z.eqb_neq _ _) E).
  set (s2 := mkCan _ _ _ (on_nth _ _ (ci_queues s1)) _).
  assert (G2 : can_good s2) by now apply (can_upd_good _ s1).
  split; [exact G2|]. change (ci_num s2) with (ci_num s). rewrite (proj2 (Z.eqb_neq _ _) E).
  set (s3 := mkCan _ _ _ (on_nth _ _ (ci_queues s2)) _).
  assert (G3 : can_good s3) by now apply (can_upd_good _ s2).
  split; [exact G3|]. change (ci_num s3) with (ci_num s). rewrite (proj2 (Z.eqb_neq _ _) E).
  split; [|exact I].
  pose proof G3 as (A3 & B3 & C3 & L3 & N3 & F3).
  change (ci_num s3) with (ci_num s) in *.
  repeat split; cbn [ci_inUse ci_handle ci_txQueue ci_queues ci_num]; auto; try lia.
  pose proof G2 as (_ & _ & _ & L2 & _). 
  destruct (nth_error (ci_queues s2) (ci_num s)) as [q|] eqn:Q.
  - rewrite (firstn_S_nth _ _ _ (mkRxq (rq_id q) (rq_mask q) true)).
    + rewrite forallb_app, F3. reflexivity.
    + unfold s3. cbn [ci_queues]. change (ci_num s2) with (ci_num s).
      now rewrite (nth_error_on_nth _ _ _ _ q Q).
  - apply nth_error_None in Q. rewrite L2 in Q. unfold CAN_MAX_QUEUES in *. lia.
Qed.

Lemma can_registers rs : forall s, can_good s -> along can_good (flat_map can_register_stores rs) s.
Proof.
  induction rs as [|k rs IH]; intros s G; [split; [exact G|exact I]|].
  cbn [flat_map]. apply along_app with (Q := can_good); auto.
  - now apply can_register_good.
  - now apply along_last, can_register_good.
Qed.

Lemma can_harmless rs : harmless (can_driver rs).
Proof.
  intros tr. unfold run_driver, can_driver. cbn [dr_handler dr_stores dr_start].
  apply along_run with (P := can_safe); [intros s i H; apply H|].
  apply along_app with (Q := can_good).
  - apply can_good_safe.
  - intros s G. eapply along_impl; [apply can_good_safe|]. now apply can_registers.
  - cbn [along can_init_stores]. repeat split; intros [id|]; reflexivity.
  - repeat split; cbn; try reflexivity; unfold CAN_MAX_QUEUES; lia.
Qed.

(** ** Shutdown circuit *)
Lemma sdc_before_config tr : has_interrupt tr -> (stores_before_first tr < 5)%nat ->
  run_driver sdc_driver tr = None.
Proof.
  intros (i & IN) K. unfold run_driver, sdc_driver. cbn [dr_handler dr_stores dr_start].
  do 5 (destruct tr as [|[|j] tr]; [now elim IN| |reflexivity];
        cbn [stores_before_first In] in *; destruct IN as [IN|IN]; [discriminate|];
        try lia).
Qed.

Definition sdc_ready (s : sdci_t) : Prop := si_config s = true /\ si_task s = true.
Lemma sdc_ready_run tr : forall s, sdc_ready s -> init_run sdc_handler [] s tr <> None.
Proof.
  induction tr as [|[|i] tr IH]; intros s [C T]; cbn [init_run]; [discriminate|now apply IH|].
  unfold sdc_handler. rewrite C, T. cbn [negb]. rewrite Bool.andb_false_r. now apply IH.
Qed.

Lemma sdc_after_init tr : (6 <= stores_before_first tr)%nat ->
  run_driver sdc_driver tr <> None.
Proof.
  intros K. unfold run_driver, sdc_driver. cbn [dr_handler dr_stores dr_start].
  do 6 (destruct tr as [|[|j] tr]; cbn [stores_before_first] in K; try lia).
  cbn [init_run sdc_stores]. apply sdc_ready_run. split; reflexivity.
Qed.
