From Coq Require Import ZifyBool ZifyNat.
From Verif.Model Require Import I2c.
From Verif.Spec Require Import BusSpec.

Lemma i2c_ind : forall (P : i2c_bus -> Prop), P i2c_init -> (forall b e, P b -> P (i2c_step b e)) ->
  forall es, P (i2c_run i2c_init es).
Proof.
  intros P P0 PS es. unfold i2c_run. revert P0. generalize i2c_init.
  induction es as [|e es IH]; intros b B; [exact B|]. cbn [fold_left]. apply IH, PS, B.
Qed.

Definition owner (b : i2c_bus) : Prop := forall t, inside b t <-> ib_busy b = Some t.

Lemma owner_step : forall b e, owner b -> owner (i2c_step b e).
Proof.
  intros b e O. unfold i2c_step. destruct (ib_halted b); [exact O|].
  assert (RET : forall t r s d, ib_pc b t <> Outside -> owner (ib_return b t r s d)).
  { intros t r s d H u. unfold inside, ib_return. cbn [ib_pc ib_busy].
    apply O in H. destruct (Z.eqb_spec u t); [split; [congruence|discriminate]|].
    split; [|discriminate]. intros I. apply O in I. congruence. }
  assert (MOVE : forall t p x1 x2 x3 x4 x5 x6 x7 x8, ib_pc b t <> Outside -> p <> Outside ->
    owner (ib_set_pc (mkI2cBus (ib_busy b) x1 x2 x3 x4 (ib_pc b) x5 x6 x7 x8) t p)).
  { intros t p x1 x2 x3 x4 x5 x6 x7 x8 H NP u. unfold inside, ib_set_pc. cbn [ib_pc ib_busy].
    apply O in H. destruct (Z.eqb_spec u t) as [->|]; [tauto|]. apply O. }
  destruct e as [t r|t|t ok|t to|t|bytes|]; try exact O.
  - destruct (ib_pc b t) eqn:P; try exact O. destruct (ib_busy b) eqn:B;
      [intros u; specialize (O u); rewrite B in O; exact O|].
    intros u. unfold inside, ib_set_pc. cbn [ib_pc ib_busy].
    destruct (Z.eqb_spec u t) as [->|]; [split; [reflexivity|discriminate]|].
    split; [|congruence]. intros I. apply O in I. congruence.
  - destruct (ib_pc b t) eqn:P; try exact O. destruct (_ >=? _); [apply RET|apply MOVE]; congruence.
  - destruct (ib_pc b t) eqn:P; try exact O. destruct ok; [destruct (ib_dma b)|]; (apply RET || apply MOVE); congruence.
  - destruct (ib_pc b t) eqn:P; try exact O. destruct (ib_sem b); [apply MOVE; congruence|].
    destruct to; [apply RET; congruence|exact O].
  - destruct (ib_pc b t) eqn:P; try exact O. apply RET; congruence.
  - destruct (ib_dma b) as [[t r]|]; exact O.
Qed.

Lemma owner_reach : forall es, owner (i2c_run i2c_init es).
Proof.
  apply i2c_ind; [|exact owner_step]. intros t. unfold inside, i2c_init. cbn. split; [tauto|discriminate].
Qed.

Definition completed (p : i2c_pc) : Prop := exists r, p = Completed r.

(** The semaphore is taken at most once, ever. *)
Definition once (b : i2c_bus) : Prop :=
  (ib_holder b = None /\ ib_sem b = true /\ ok_count b = 0%nat /\ (forall t, ~ completed (ib_pc b t))) \/
  ((exists h, ib_holder b = Some h) /\ ib_sem b = false /\
   ((ok_count b = 1%nat /\ (forall t, ~ completed (ib_pc b t))) \/
    (ok_count b = 0%nat /\ exists h, completed (ib_pc b h) /\ forall t, completed (ib_pc b t) -> t = h))).

Lemma ok_count_app : forall l r, length (filter ok_return (l ++ [r])) =
  (length (filter ok_return l) + if ok_return r then 1 else 0)%nat.
Proof. intros l r. rewrite filter_app, app_length. cbn [filter]. destruct (ok_return r); reflexivity. Qed.

Lemma once_step : forall b e, once b -> once (i2c_step b e).
Proof.
  intros b e O. unfold i2c_step. destruct (ib_halted b); [exact O|].
  assert (RET : forall t r s d, s <> I2C_OK -> ~ completed (ib_pc b t) -> once (ib_return b t r s d)).
  { intros t r s d NS NC. unfold once, ok_count in *. unfold ib_return. cbn [ib_returns ib_holder ib_sem ib_pc].
    rewrite ok_count_app. replace (ok_return (mkI2cRet t r s d)) with false by (destruct s; cbn; congruence).
    rewrite Nat.add_0_r.
    assert (Q : forall u, completed (if u =? t then Outside else ib_pc b u) <-> completed (ib_pc b u)).
    { intros u. destruct (Z.eqb_spec u t) as [->|]; [|tauto]. split; [intros [? ?]; discriminate|tauto]. }
    setoid_rewrite Q. exact O. }
  assert (MOVE : forall t p x1 x3 x4 x5 x6 x7, ~ completed (ib_pc b t) -> ~ completed p ->
    once (ib_set_pc (mkI2cBus x1 (ib_sem b) (ib_holder b) x3 x4 (ib_pc b) x5 x6 x7 (ib_returns b)) t p)).
  { intros t p x1 x3 x4 x5 x6 x7 NC NP. unfold once, ok_count in *. unfold ib_set_pc.
    cbn [ib_returns ib_holder ib_sem ib_pc].
    assert (Q : forall u, completed (if u =? t then p else ib_pc b u) <-> completed (ib_pc b u)).
    { intros u. destruct (Z.eqb_spec u t) as [->|]; tauto. }
    setoid_rewrite Q. exact O. }
  assert (NC : forall t p, ib_pc b t = p -> (forall r, p <> Completed r) -> ~ completed (ib_pc b t)).
  { intros t p E H [r C]. apply (H r). congruence. }
  assert (NC' : forall p, (forall r, p <> Completed r) -> ~ completed p).
  { intros p H [r C]. exact (H r C). }
  destruct e as [t r|t|t ok|t to|t|bytes|]; try exact O.
  - destruct (ib_pc b t) eqn:P; try exact O. destruct (ib_busy b) eqn:B.
    + unfold once, ok_count in *. cbn [ib_returns ib_holder ib_sem ib_pc]. rewrite ok_count_app.
      cbn [ok_return rt_status]. rewrite Nat.add_0_r. exact O.
    + apply MOVE; [eapply NC; [exact P|]|apply NC']; discriminate.
  - destruct (ib_pc b t) eqn:P; try exact O.
    destruct (_ >=? _); [apply RET|apply MOVE]; try discriminate; try (eapply NC; [exact P|]); try (apply NC'); discriminate.
  - destruct (ib_pc b t) eqn:P; try exact O.
    destruct ok; [destruct (ib_dma b)|]; (apply RET || apply MOVE); try discriminate; try (eapply NC; [exact P|]); try (apply NC'); discriminate.
  - destruct (ib_pc b t) eqn:P; try exact O. destruct (ib_sem b) eqn:S.
    + destruct O as [(H & _ & C & N)|(_ & F & _)]; [|congruence]. right. cbn.
      split; [eexists; reflexivity|]. split; [reflexivity|]. right. split; [exact C|]. exists t. split.
      * rewrite Z.eqb_refl. eexists. reflexivity.
      * intros u. destruct (Z.eqb_spec u t); [auto|]. intros CU. now apply N in CU.
    + destruct to; [|exact O]. apply RET; [discriminate|]. eapply NC; [exact P|discriminate].
  - destruct (ib_pc b t) eqn:P; try exact O.
    assert (CT : completed (ib_pc b t)) by (rewrite P; eexists; reflexivity).
    destruct O as [(_ & _ & _ & N)|(H & F & [(_ & N)|(C & h & CH & U)])]; try (now apply N in CT).
    right. unfold ok_count, ib_return. cbn [ib_returns ib_holder ib_sem ib_pc]. rewrite ok_count_app. cbn [ok_return rt_status].
    split; [exact H|]. split; [exact F|]. left. split; [unfold ok_count in C; rewrite C; reflexivity|].
    intros u. destruct (Z.eqb_spec u t); [intros [? ?]; discriminate|]. intros CU.
    apply U in CU. apply U in CT. congruence.
  - destruct (ib_dma b) as [[t r]|]; [|exact O].
    destruct O as [(H & F & C & N)|((h & H) & F & R)]; rewrite H; [left|right]; cbn; auto.
    split; [eexists; reflexivity|]. auto.
Qed.

Lemma once_reach : forall es, once (i2c_run i2c_init es).
Proof.
  apply i2c_ind; [|exact once_step]. left. repeat split. intros t [r H]. discriminate.
Qed.

Lemma once_count : forall b, once b -> (ok_count b <= 1)%nat.
Proof. intros b [(_ & _ & C & _)|(_ & _ & [(C & _)|(C & _)])]; lia. Qed.

Lemma once_ok_holder : forall b, once b -> (1 <= ok_count b)%nat -> exists h, ib_holder b = Some h.
Proof. intros b [(_ & _ & C & _)|(H & _)] L; [lia|exact H]. Qed.

(** ** One call on an idle bus whose semaphore is available *)

Ltac fields1 := cbn [ib_set_pc ib_return ib_halted ib_pc ib_busy ib_sem ib_holder ib_buf ib_dma ib_started ib_finished ib_returns].

Lemma call_enter : forall b t r, ib_halted b = false -> ib_pc b t = Outside -> ib_busy b = None ->
  let b' := i2c_step b (IEnter t r) in
  ib_halted b' = false /\ ib_pc b' t = Entered r /\ ib_sem b' = ib_sem b /\ ib_dma b' = ib_dma b /\ ib_buf b' = ib_buf b /\
  ib_finished b' = ib_finished b /\ ib_returns b' = ib_returns b.
Proof. intros b t r H P B. unfold i2c_step. rewrite H, P, B. fields1. rewrite Z.eqb_refl. repeat split; auto. Qed.

Lemma call_fill : forall b t r, ib_halted b = false -> ib_pc b t = Entered r -> rq_len r < DMA_BUF_LEN ->
  let b' := i2c_step b (IFill t) in
  ib_halted b' = false /\ ib_pc b' t = Filled r /\ ib_sem b' = ib_sem b /\ ib_dma b' = ib_dma b /\
  ib_buf b' = (if rq_write r then overlay (rq_data r) (ib_buf b) else ib_buf b) /\
  ib_finished b' = ib_finished b /\ ib_returns b' = ib_returns b.
Proof.
  intros b t r H P L. unfold i2c_step. rewrite H, P. rewrite Z.geb_leb. destruct (Z.leb_spec DMA_BUF_LEN (rq_len r)); [lia|].
  fields1. rewrite Z.eqb_refl. repeat split; auto.
Qed.

Lemma call_start : forall b t r, ib_halted b = false -> ib_pc b t = Filled r -> ib_dma b = None ->
  let b' := i2c_step b (IStart t true) in
  ib_halted b' = false /\ ib_pc b' t = Waiting r /\ ib_sem b' = ib_sem b /\ ib_dma b' = Some (t, r) /\
  ib_buf b' = ib_buf b /\ ib_finished b' = ib_finished b /\ ib_returns b' = ib_returns b.
Proof. intros b t r H P D. unfold i2c_step. rewrite H, P, D. fields1. rewrite Z.eqb_refl. repeat split; auto. Qed.

Lemma call_wait : forall b t r, ib_halted b = false -> ib_pc b t = Waiting r -> ib_sem b = true ->
  let b' := i2c_step b (IWait t false) in
  ib_halted b' = false /\ ib_pc b' t = Completed r /\ ib_dma b' = ib_dma b /\
  ib_buf b' = ib_buf b /\ ib_finished b' = ib_finished b /\ ib_returns b' = ib_returns b.
Proof. intros b t r H P S. unfold i2c_step. rewrite H, P, S. fields1. rewrite Z.eqb_refl. repeat split; auto. Qed.

Lemma call_return : forall b t r, ib_halted b = false -> ib_pc b t = Completed r ->
  let b' := i2c_step b (IReturn t) in
  ib_dma b' = ib_dma b /\ ib_finished b' = ib_finished b /\
  ib_returns b' = ib_returns b ++ [mkI2cRet t r I2C_OK (if rq_write r then rq_data r else firstn (length (rq_data r)) (ib_buf b))].
Proof. intros b t r H P. unfold i2c_step. rewrite H, P. fields1. repeat split; auto. Qed.

Lemma call_early : forall t r, rq_len r < DMA_BUF_LEN ->
  let b := i2c_run i2c_init [IEnter t r; IFill t; IStart t true; IWait t false; IReturn t] in
  ib_dma b = Some (t, r) /\ ib_finished b = [] /\
  ib_returns b = [mkI2cRet t r I2C_OK (if rq_write r then rq_data r else repeat 0 (length (rq_data r)))].
Proof.
  intros t r L. cbn [i2c_run fold_left].
  destruct (call_enter i2c_init t r eq_refl eq_refl eq_refl) as (H1 & P1 & S1 & D1 & B1 & F1 & R1).
  revert H1 P1 S1 D1 B1 F1 R1. generalize (i2c_step i2c_init (IEnter t r)) as b1. intros b1 H1 P1 S1 D1 B1 F1 R1.
  destruct (call_fill b1 t r H1 P1 L) as (H2 & P2 & S2 & D2 & B2 & F2 & R2).
  revert H2 P2 S2 D2 B2 F2 R2. generalize (i2c_step b1 (IFill t)) as b2. intros b2 H2 P2 S2 D2 B2 F2 R2.
  destruct (call_start b2 t r H2 P2 ltac:(rewrite D2, D1; reflexivity)) as (H3 & P3 & S3 & D3 & B3 & F3 & R3).
  revert H3 P3 S3 D3 B3 F3 R3. generalize (i2c_step b2 (IStart t true)) as b3. intros b3 H3 P3 S3 D3 B3 F3 R3.
  destruct (call_wait b3 t r H3 P3 ltac:(rewrite S3, S2, S1; reflexivity)) as (H4 & P4 & D4 & B4 & F4 & R4).
  revert H4 P4 D4 B4 F4 R4. generalize (i2c_step b3 (IWait t false)) as b4. intros b4 H4 P4 D4 B4 F4 R4.
  destruct (call_return b4 t r H4 P4) as (D5 & F5 & R5).
  rewrite D5, F5, R5, D4, F4, R4, F3, R3, F2, R2, F1, R1, B4, B3, B2, B1. split; [exact D3|]. split; [reflexivity|].
  cbn [i2c_init ib_returns app]. destruct (rq_write r); [reflexivity|]. do 2 f_equal. cbn [i2c_init ib_buf].
  unfold rq_len in L.
  replace (Z.to_nat DMA_BUF_LEN) with (length (rq_data r) + (Z.to_nat DMA_BUF_LEN - length (rq_data r)))%nat by lia.
  rewrite repeat_app, firstn_app, repeat_length, Nat.sub_diag, firstn_O, app_nil_r.
  apply firstn_all2. now rewrite repeat_length.
Qed.
