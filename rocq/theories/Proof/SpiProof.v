From Coq Require Import ZifyBool ZifyNat.
From Verif.Model Require Import Spi.
From Verif.Spec Require Import BusSpec.

Lemma put_same : forall A (f : Z -> A) k v, put f k v k = v.
Proof. intros. unfold put. now rewrite Z.eqb_refl. Qed.
Lemma put_other : forall A (f : Z -> A) k v i, i <> k -> put f k v i = f i.
Proof. intros. unfold put. destruct (Z.eqb_spec i k); congruence. Qed.

Lemma spi_run_app : forall es es' s, spi_run s (es ++ es') = spi_run (spi_run s es) es'.
Proof. intros. apply fold_left_app. Qed.

(** [inv]: each bus is used at most once; the queue holds known buses. *)
Definition free (s : spi) (k : Z) : Prop := sp_dma s k = None /\ ~ In k (sp_queue s).
Definition inv (s : spi) : Prop :=
  NoDup (sp_queue s) /\ Forall (fun k => spi_bus_known k = true) (sp_queue s) /\
  (forall k, sp_dma s k <> None -> spi_bus_known k = true /\ sp_sem s k = false /\ ~ In k (sp_queue s) /\ sp_device s k = sp_dma s k) /\
  (forall k, In k (sp_queue s) -> sp_sem s k = false /\ sp_device s k <> None) /\
  sp_null s = false.

Lemma inv_init : inv spi_init.
Proof.
  repeat split; cbn; try constructor; try congruence; try contradiction; intuition congruence.
Qed.

Lemma known_range : forall k, spi_bus_known k = true <-> 0 <= k < 4.
Proof. intros k. unfold spi_bus_known, SPI_NUM_BUSSES. lia. Qed.

Lemma short_queue : forall q, NoDup q -> Forall (fun k => spi_bus_known k = true) q -> (length q <= 4)%nat.
Proof.
  intros q ND F.
  assert (I : incl q [0; 1; 2; 3]).
  { intros k K. rewrite Forall_forall in F. apply F in K. apply known_range in K. cbn. lia. }
  exact (NoDup_incl_length ND I).
Qed.

Lemma inv_step : forall s e, inv s -> inv (spi_step s e).
Proof.
  intros s e V. pose proof V as (ND & KQ & DM & QU & NU). destruct e as [d ok|k| |]; cbn [spi_step].
  - unfold SPI_TransmitReceive. destruct (spi_bus_known (sd_bus d)) eqn:K; [|exact V]. cbn [negb].
    destruct (sp_sem s (sd_bus d)) eqn:S; [|exact V]. cbn [negb].
    assert (DN : sp_dma s (sd_bus d) = None).
    { destruct (sp_dma s (sd_bus d)) eqn:D; [|reflexivity]. destruct (DM (sd_bus d)) as (_ & F & _); congruence. }
    assert (NQ : ~ In (sd_bus d) (sp_queue s)) by (intros I; apply QU in I as [F _]; congruence).
    rewrite DN. unfold inv. destruct ok; cbn [fst sp_queue sp_dma sp_sem sp_device sp_null].
    + split; [exact ND|]. split; [exact KQ|]. split; [|split; [|exact NU]].
      * intros k H. destruct (Z.eq_dec k (sd_bus d)) as [->|N].
        { rewrite !put_same. auto. }
        { rewrite !put_other in * by auto. now apply DM. }
      * intros k I. destruct (Z.eq_dec k (sd_bus d)) as [->|N]; [contradiction|]. rewrite !put_other by auto. now apply QU.
    + split; [exact ND|]. split; [exact KQ|]. split; [|split; [|exact NU]].
      * intros k H. destruct (Z.eq_dec k (sd_bus d)) as [->|N]; [congruence|]. rewrite !put_other by auto. now apply DM.
      * intros k I. destruct (Z.eq_dec k (sd_bus d)) as [->|N]; [contradiction|]. rewrite !put_other by auto. now apply QU.
  - unfold HAL_SPI_TxRxCpltCallback. destruct (sp_dma s k) as [d|] eqn:D; [|exact V].
    destruct (DM k ltac:(congruence)) as (K & S & NQ & DV). rewrite K, DV, D. cbn [negb].
    pose proof (short_queue _ ND KQ) as SQ. unfold SPI_QUEUE_LENGTH.
    destruct (Z.ltb_spec (Z.of_nat (length (sp_queue s))) 10); [|lia].
    unfold inv. cbn [sp_queue sp_dma sp_sem sp_device sp_null]. repeat split; auto.
    + apply NoDup_rev in ND. rewrite <- (rev_involutive (sp_queue s ++ [k])). apply NoDup_rev. rewrite rev_app_distr. cbn.
      constructor; [now rewrite <- in_rev|exact ND].
    + apply Forall_app. split; [exact KQ|]. constructor; [exact K|constructor].
    + destruct (Z.eq_dec k0 k) as [->|N]; [rewrite put_same in *; congruence|]. rewrite put_other in * by auto. now apply DM.
    + destruct (Z.eq_dec k0 k) as [->|N]; [rewrite put_same in *; congruence|]. rewrite put_other in * by auto. now apply DM.
    + destruct (Z.eq_dec k0 k) as [->|N]; [rewrite put_same in *; congruence|]. rewrite put_other in * by auto.
      intros I. apply in_app_or in I as [I|[I|[]]]; [|congruence]. destruct (DM k0 H0) as (_ & _ & NI & _). contradiction.
    + destruct (Z.eq_dec k0 k) as [->|N]; [rewrite put_same in *; congruence|]. rewrite put_other in * by auto. now apply DM.
    + apply in_app_or in H0 as [I|[I|[]]]; [now apply QU|]. congruence.
    + apply in_app_or in H0 as [I|[I|[]]]; [now apply QU|]. congruence.
  - unfold rx_take. destruct (_ && _); exact V.
  - unfold rx_item. destruct (0 <? _); [|exact V]. destruct (sp_queue s) as [|k q] eqn:Q;
      [unfold inv; cbn [sp_queue sp_dma sp_sem sp_device sp_null]; auto|].
    inversion ND as [|? ? NI ND']; subst. inversion KQ as [|? ? K KQ']; subst.
    destruct (QU k ltac:(now left)) as (S & DV). destruct (sp_device s k) as [d|] eqn:DE; [|congruence].
    unfold inv. cbn [sp_queue sp_dma sp_sem sp_device sp_null]. split; [exact ND'|]. split; [exact KQ'|]. split; [|split; [|exact NU]].
    + intros i H. destruct (DM i H) as (K1 & S1 & N1 & D1). assert (i <> k) by (intros ->; apply N1; now left).
      rewrite put_other by auto. repeat split; auto. intros I. apply N1. now right.
    + intros i I. assert (i <> k) by congruence. rewrite put_other by auto. apply QU. now right.
Qed.

Lemma inv_run : forall es s, inv s -> inv (spi_run s es).
Proof. induction es; intros s V; [exact V|]. apply IHes, inv_step, V. Qed.
Lemma inv_reach : forall es, inv (spi_run spi_init es).
Proof. intros. apply inv_run, inv_init. Qed.

(** ** A bus that is taken but not in use stays so. *)
Definition stuck (k : Z) (s : spi) : Prop := sp_sem s k = false /\ sp_dma s k = None /\ ~ In k (sp_queue s).

Lemma stuck_step : forall k s e, stuck k s -> stuck k (spi_step s e).
Proof.
  intros k s e (S & D & Q). destruct e as [d ok|i| |]; cbn [spi_step].
  - unfold SPI_TransmitReceive. destruct (spi_bus_known (sd_bus d)); [|split; auto]. cbn [negb].
    destruct (sp_sem s (sd_bus d)) eqn:SB; [|split; auto]. cbn [negb].
    assert (N : k <> sd_bus d) by congruence.
    unfold stuck. destruct ok; [destruct (sp_dma s (sd_bus d))|]; cbn [fst sp_sem sp_dma sp_queue]; rewrite !put_other by auto; auto.
  - unfold HAL_SPI_TxRxCpltCallback. destruct (sp_dma s i) eqn:DI; [|split; auto].
    assert (N : k <> i) by congruence. destruct (spi_bus_known i); unfold stuck; cbn [negb sp_sem sp_dma sp_queue];
      rewrite put_other by auto; repeat split; auto.
    destruct (_ <? _); [|exact Q]. intros I. apply in_app_or in I as [I|[I|[]]]; [auto|congruence].
  - unfold rx_take. destruct (_ && _); split; auto.
  - unfold rx_item. destruct (0 <? _); [|split; auto]. destruct (sp_queue s) as [|i q] eqn:E; [repeat split; auto|].
    assert (N : k <> i) by (intros ->; apply Q; now left).
    unfold stuck. cbn [sp_sem sp_dma sp_queue]. rewrite put_other by auto. repeat split; auto. intros I. apply Q. now right.
Qed.

Lemma stuck_run : forall k es s, stuck k s -> stuck k (spi_run s es).
Proof. induction es; intros s V; [exact V|]. apply IHes, stuck_step, V. Qed.

Lemma failed_start_stuck : forall s d, inv s -> spi_bus_known (sd_bus d) = true -> sp_sem s (sd_bus d) = true ->
  stuck (sd_bus d) (fst (SPI_TransmitReceive s d false)).
Proof.
  intros s d (ND & KQ & DM & QU & NU) K S. unfold SPI_TransmitReceive. rewrite K, S. cbn [negb].
  unfold stuck. cbn [fst sp_sem sp_dma sp_queue]. rewrite put_same. split; [reflexivity|]. split.
  - destruct (sp_dma s (sd_bus d)) eqn:D; [|reflexivity]. destruct (DM (sd_bus d)) as (_ & F & _); congruence.
  - intros I. apply QU in I as [F _]. congruence.
Qed.

(** ** Without failed starts *)
Definition live (s : spi) : Prop :=
  inv s /\ (forall k, spi_bus_known k = true -> sp_sem s k = false -> sp_dma s k <> None \/ In k (sp_queue s)) /\
  0 <= sp_budget s /\ 0 <= sp_notif s /\
  exists a, 0 <= a <= sp_notif s /\ Z.of_nat (length (sp_queue s)) <= sp_budget s + a.

Lemma live_init : live spi_init.
Proof.
  split; [exact inv_init|]. split; [intros k _ H; discriminate|]. cbn. split; [lia|]. split; [lia|]. exists 0. lia.
Qed.

Lemma live_step : forall s e, (forall d, e <> STransfer d false) -> live s -> live (spi_step s e).
Proof.
  intros s e NF (V & L & B & N & a & A & Q). split; [now apply inv_step|]. pose proof V as (ND & KQ & DM & QU & NU).
  destruct e as [d ok|i| |]; cbn [spi_step].
  - unfold SPI_TransmitReceive. destruct (spi_bus_known (sd_bus d)) eqn:K; [|split; eauto]. cbn [negb].
    destruct (sp_sem s (sd_bus d)) eqn:S; [|split; eauto]. cbn [negb].
    assert (DN : sp_dma s (sd_bus d) = None).
    { destruct (sp_dma s (sd_bus d)) eqn:D; [|reflexivity]. destruct (DM (sd_bus d)) as (_ & F & _); congruence. }
    destruct ok; [|exfalso; now apply (NF d)]. rewrite DN. cbn [fst sp_sem sp_dma sp_queue sp_budget sp_notif].
    split; [|split; [exact B|split; [exact N|exists a; auto]]].
    intros k KK F. destruct (Z.eq_dec k (sd_bus d)) as [->|NE]; [left; rewrite put_same; discriminate|].
    rewrite put_other in * by auto. now apply L.
  - unfold HAL_SPI_TxRxCpltCallback. destruct (sp_dma s i) as [d|] eqn:D; [|split; eauto].
    destruct (DM i ltac:(congruence)) as (K & S & NQ & DV). rewrite K. cbn [negb].
    pose proof (short_queue _ ND KQ) as SQ. unfold SPI_QUEUE_LENGTH.
    destruct (Z.ltb_spec (Z.of_nat (length (sp_queue s))) 10); [|lia].
    cbn [sp_sem sp_dma sp_queue sp_budget sp_notif].
    split; [|split; [exact B|split; [lia|exists (a + 1)]]].
    + intros k KK F. destruct (Z.eq_dec k i) as [->|NE]; [right; apply in_or_app; right; now left|].
      rewrite put_other by auto. destruct (L k KK F); [now left|right; apply in_or_app; now left].
    + rewrite app_length. cbn [length]. lia.
  - unfold rx_take. destruct (Z.eqb_spec (sp_budget s) 0); [|cbn [andb]; split; eauto].
    destruct (Z.ltb_spec 0 (sp_notif s)); cbn [andb]; [|split; eauto].
    cbn [sp_sem sp_dma sp_queue sp_budget sp_notif]. split; [exact L|]. split; [lia|]. split; [lia|]. exists 0. lia.
  - unfold rx_item. destruct (Z.ltb_spec 0 (sp_budget s)); [|split; eauto].
    destruct (sp_queue s) as [|k q] eqn:E; cbn [sp_sem sp_dma sp_queue sp_budget sp_notif].
    + split; [exact L|]. split; [lia|]. split; [lia|]. exists a. cbn [length]. lia.
    + split; [|split; [lia|split; [lia|exists a; cbn [length] in Q; lia]]].
      intros i KI F. destruct (Z.eq_dec i k) as [->|NE]; [rewrite put_same in F; discriminate|].
      rewrite put_other in F by auto. destruct (L i KI F) as [X|[X|X]]; [now left|congruence|now right].
Qed.

Lemma live_run : forall es s, no_failed_start es -> live s -> live (spi_run s es).
Proof.
  induction es as [|e es IH]; intros s NF V; [exact V|]. apply IH; [intros d I; apply (NF d); now right|].
  apply live_step; [|exact V]. intros d ->. apply (NF d). now left.
Qed.

Lemma live_rx_runs : forall n s, live s -> live (rx_runs n s).
Proof.
  induction n; intros s V; [exact V|]. cbn [rx_runs]. apply IHn.
  destruct (_ =? 0); [apply (live_step s SRxTake)|apply (live_step s SRxItem)]; auto; discriminate.
Qed.

Lemma blocked_available : forall s, live s -> rx_blocked s ->
  forall k, spi_bus_known k = true -> sp_sem s k = true \/ sp_dma s k <> None.
Proof.
  intros s (V & L & B & N & a & A & Q) [B0 N0] k K. destruct (sp_sem s k) eqn:S; [now left|]. right.
  destruct (L k K S) as [H|H]; [exact H|]. destruct (sp_queue s); [contradiction|]. cbn [length] in Q. lia.
Qed.

(** The callback task eventually blocks. *)
Lemma rx_runs_add : forall n m s, rx_runs (n + m) s = rx_runs m (rx_runs n s).
Proof. induction n; intros m s; [reflexivity|]. cbn [rx_runs Nat.add]. apply IHn. Qed.

Lemma rx_one_take : forall s, sp_notif s = sp_notif s -> 0 <= sp_budget s -> 
  exists n, sp_budget (rx_runs n s) = 0 /\ sp_notif (rx_runs n s) = sp_notif s.
Proof.
  intros s _ B. remember (Z.to_nat (sp_budget s)) as m eqn:E. revert s B E.
  induction m as [|m IH]; intros s B E.
  - exists O. cbn. split; [lia|reflexivity].
  - assert (P : 0 < sp_budget s) by lia.
    assert (X : sp_notif (rx_item s) = sp_notif s /\ (sp_budget (rx_item s) = 0 \/ sp_budget (rx_item s) = sp_budget s - 1)).
    { unfold rx_item. destruct (Z.ltb_spec 0 (sp_budget s)); [|lia]. destruct (sp_queue s); cbn; auto. }
    destruct X as (XN & [X0|X1]).
    + exists 1%nat. cbn [rx_runs]. destruct (Z.eqb_spec (sp_budget s) 0); [lia|]. auto.
    + destruct (IH (rx_item s)) as (n & H1 & H2); [lia|lia|]. exists (S n). cbn [rx_runs].
      destruct (Z.eqb_spec (sp_budget s) 0); [lia|]. split; [exact H1|congruence].
Qed.

Lemma rx_blocks : forall s, 0 <= sp_budget s -> 0 <= sp_notif s -> exists n, rx_blocked (rx_runs n s).
Proof.
  intros s B N. destruct (rx_one_take s eq_refl B) as (n0 & B0 & N0).
  remember (rx_runs n0 s) as s1 eqn:E1. rewrite <- N0 in N.
  assert (G : forall m s, sp_budget s = 0 -> sp_notif s = Z.of_nat m -> exists n, rx_blocked (rx_runs n s)).
  { clear. induction m as [|m IH]; intros s B N; [exists O; split; auto; lia|].
    assert (T : sp_budget (rx_take s) = Z.of_nat (S m) /\ sp_notif (rx_take s) = Z.of_nat m).
    { unfold rx_take. rewrite B. destruct (Z.ltb_spec 0 (sp_notif s)); [|lia]. cbn. lia. }
    destruct T as (TB & TN). destruct (rx_one_take (rx_take s) eq_refl ltac:(lia)) as (n1 & B1 & N1).
    destruct (IH (rx_runs n1 (rx_take s)) B1 ltac:(lia)) as (n2 & H).
    exists (S (n1 + n2)). cbn [rx_runs]. rewrite B. cbn [Z.eqb]. rewrite rx_runs_add. exact H. }
  destruct (G (Z.to_nat (sp_notif s1)) s1 B0 ltac:(lia)) as (n2 & H).
  exists (n0 + n2)%nat. rewrite rx_runs_add, <- E1. exact H.
Qed.

(** ** Callbacks *)
Definition dev_id (s : spi) (k : Z) : Z := match sp_device s k with Some d => sd_id d | None => 0 end.
Definition pending (s : spi) : list Z := map (dev_id s) (sp_queue s).

Lemma pending_ext : forall s s', sp_queue s' = sp_queue s ->
  (forall k, In k (sp_queue s) -> sp_device s' k = sp_device s k) -> pending s' = pending s.
Proof.
  intros s s' Q D. unfold pending. rewrite Q. apply map_ext_in. intros k K. unfold dev_id. now rewrite D.
Qed.

Lemma calls_run : forall es s, inv s ->
  sp_calls (spi_run s es) ++ pending (spi_run s es) = sp_calls s ++ pending s ++ completions s es.
Proof.
  induction es as [|e es IH]; intros s V; cbn [completions].
  - now rewrite app_nil_r.
  - change (spi_run s (e :: es)) with (spi_run (spi_step s e) es). rewrite (IH _ (inv_step s e V)).
    rewrite (app_assoc (pending s)), !app_assoc. f_equal.
    pose proof V as (ND & KQ & DM & QU & NU). destruct e as [d ok|k| |]; cbn [spi_step]; rewrite ?app_nil_r.
    + unfold SPI_TransmitReceive. destruct (spi_bus_known (sd_bus d)) eqn:K; [|reflexivity]. cbn [negb].
      destruct (sp_sem s (sd_bus d)) eqn:S; [|reflexivity]. cbn [negb].
      assert (NQ : forall k, In k (sp_queue s) -> k <> sd_bus d) by (intros k I ->; apply QU in I as [F _]; congruence).
      destruct ok; [destruct (sp_dma s (sd_bus d))|]; cbn [fst sp_calls]; f_equal; apply pending_ext; try reflexivity;
        intros k I; cbn [sp_device]; apply put_other; auto.
    + unfold HAL_SPI_TxRxCpltCallback. destruct (sp_dma s k) as [d|] eqn:D; [|now rewrite app_nil_r].
      destruct (DM k ltac:(congruence)) as (K & S & NQ & DV). rewrite K. cbn [negb].
      pose proof (short_queue _ ND KQ) as SQ. unfold SPI_QUEUE_LENGTH.
      destruct (Z.ltb_spec (Z.of_nat (length (sp_queue s))) 10); [|lia].
      cbn [sp_calls]. unfold pending. cbn [sp_queue]. rewrite map_app, app_assoc. f_equal. cbn [map].
      unfold dev_id. cbn [sp_device]. rewrite DV, D. reflexivity.
    + unfold rx_take. destruct (_ && _); reflexivity.
    + unfold rx_item. destruct (0 <? _); [|reflexivity]. destruct (sp_queue s) as [|k q] eqn:E.
      { cbn [sp_calls]. f_equal. unfold pending. cbn [sp_queue]. now rewrite E. }
      destruct (QU k ltac:(now left)) as (S & DV). destruct (sp_device s k) as [d|] eqn:DE; [|congruence].
      cbn [sp_calls]. unfold pending. cbn [sp_queue]. rewrite E, <- app_assoc. cbn [map app]. f_equal.
      unfold dev_id at 2. rewrite DE. reflexivity.
Qed.

(** ** Chip-selects *)
Definition busy_dev (s : spi) (x : Z) : Prop := exists k d, sp_dma s k = Some d /\ sd_id d = x.
Definition cs_inv (bus_of : Z -> Z) (s : spi) : Prop :=
  (forall k d, sp_dma s k = Some d -> sd_bus d = k /\ bus_of (sd_id d) = k) /\
  (forall x, sp_cs s x = false <-> busy_dev s x).

Lemma cs_step : forall bus_of s e, inv s ->
  (forall d ok, e = STransfer d ok -> sd_bus d = bus_of (sd_id d)) ->
  cs_inv bus_of s -> cs_inv bus_of (spi_step s e).
Proof.
  intros bus_of s e V W (C1 & C2). pose proof V as (ND & KQ & DM & QU & NU).
  destruct e as [d ok|k| |]; cbn [spi_step].
  - specialize (W d ok eq_refl). unfold SPI_TransmitReceive. destruct (spi_bus_known (sd_bus d)) eqn:K; [|split; auto]. cbn [negb].
    destruct (sp_sem s (sd_bus d)) eqn:S; [|split; auto]. cbn [negb].
    assert (DN : sp_dma s (sd_bus d) = None).
    { destruct (sp_dma s (sd_bus d)) eqn:D; [|reflexivity]. destruct (DM (sd_bus d)) as (_ & F & _); congruence. }
    rewrite DN. destruct ok; unfold cs_inv, busy_dev; cbn [fst sp_dma sp_cs].
    + split.
      * intros k x H. destruct (Z.eq_dec k (sd_bus d)) as [->|N].
        { rewrite put_same in H. injection H as <-. auto. }
        { rewrite put_other in H by auto. now apply C1. }
      * intros x. destruct (Z.eq_dec x (sd_id d)) as [->|N].
        { rewrite put_same. split; [|reflexivity]. intros _. exists (sd_bus d), d. now rewrite put_same. }
        { rewrite put_other by auto. rewrite C2. unfold busy_dev. split; intros (k & y & H1 & H2); exists k, y; split; auto.
          - rewrite put_other; [exact H1|]. intros ->. congruence.
          - destruct (Z.eq_dec k (sd_bus d)) as [->|NE]; [rewrite put_same in H1; injection H1 as <-; congruence|].
            rewrite put_other in H1 by auto. exact H1. }
    + split; [exact C1|]. intros x. destruct (Z.eq_dec x (sd_id d)) as [->|N].
      { rewrite put_same. split; [discriminate|]. intros (k & y & H1 & H2). pose proof (C1 _ _ H1) as [_ B]. congruence. }
      { rewrite put_other by auto. apply C2. }
  - unfold HAL_SPI_TxRxCpltCallback. destruct (sp_dma s k) as [d|] eqn:D; [|split; auto].
    destruct (DM k ltac:(congruence)) as (K & S & NQ & DV). rewrite K, DV, D. cbn [negb].
    unfold cs_inv, busy_dev. cbn [sp_dma sp_cs]. split.
    + intros i x H. destruct (Z.eq_dec i k) as [->|N]; [rewrite put_same in H; discriminate|].
      rewrite put_other in H by auto. now apply C1.
    + intros x. destruct (Z.eq_dec x (sd_id d)) as [->|N].
      { rewrite put_same. split; [discriminate|]. intros (i & y & H1 & H2).
        destruct (Z.eq_dec i k) as [->|NE]; [rewrite put_same in H1; discriminate|]. rewrite put_other in H1 by auto.
        destruct (C1 _ _ H1) as [_ B1]. destruct (C1 _ _ D) as [_ B2]. congruence. }
      { rewrite put_other by auto. rewrite C2. unfold busy_dev. split; intros (i & y & H1 & H2); exists i, y; split; auto.
        - rewrite put_other; [exact H1|]. intros ->. congruence.
        - destruct (Z.eq_dec i k) as [->|NE]; [rewrite put_same in H1; discriminate|]. rewrite put_other in H1 by auto. exact H1. }
  - unfold rx_take. destruct (_ && _); split; auto.
  - unfold rx_item. destruct (0 <? _); [|split; auto]. destruct (sp_queue s); split; auto.
Qed.

Lemma cs_run : forall bus_of es s, inv s -> wired bus_of es -> cs_inv bus_of s ->
  cs_inv bus_of (spi_run s es).
Proof.
  induction es as [|e es IH]; intros s V W C; [exact C|]. apply IH.
  - now apply inv_step.
  - intros d ok I. apply (W d ok). now right.
  - apply cs_step; auto.
    + intros d ok ->. apply (W d ok). now left.
Qed.
