From Coq Require Import ZifyBool ZifyNat.
From Verif.Model Require Import SpiSync.
From Verif.Spec Require Import BusSpec SpiSyncSpec.
From Verif.Proof Require Import SpiProof.

Lemma run_snoc b es e : sync_run b (es ++ [e]) = sync_step (sync_run b es) e.
Proof. unfold sync_run. now rewrite fold_left_app. Qed.

(** ** The mutex *)
Definition lock_inv (b : sync) : Prop :=
  (forall t, in_call b t <-> sy_holder b = Some t) /\
  (forall t d len, sy_pc b t = BLow d len \/ sy_pc b t = BCall d len \/ sy_pc b t = BMoving d len -> len <= 16) /\
  Forall (fun m => snd m <= 16) (sy_moved b).

Lemma lock_init : lock_inv sync_init.
Proof.
  split; [|split; [|constructor]].
  - intros t. split; [intros H; now elim H|discriminate].
  - intros t d len [H|[H|H]]; discriminate.
Qed.

Lemma lock_move b t p s m r :
  lock_inv b -> in_call b t -> p <> BOut ->
  (forall d len, p = BLow d len \/ p = BCall d len \/ p = BMoving d len -> len <= 16) ->
  Forall (fun m => snd m <= 16) m ->
  lock_inv (mkSync s (sy_holder b) (put (sy_pc b) t p) m r).
Proof.
  intros (L & W & M) IN NP WP MP. split; [|split; [|exact MP]]; unfold in_call in *; cbn [sy_pc sy_holder].
  - intros u. destruct (Z.eq_dec u t) as [->|N].
    + rewrite put_same. split; [intros _; now apply L|auto].
    + rewrite put_other by auto. apply L.
  - intros u d len. destruct (Z.eq_dec u t) as [->|N]; [rewrite put_same; apply WP|rewrite put_other by auto; apply W].
Qed.

Lemma lock_step b e : lock_inv b -> lock_inv (sync_step b e).
Proof.
  intros V. pose proof V as (L & W & M). destruct e as [t d len|t hal|e]; cbn [sync_step].
  - unfold blocking_enter. destruct (sy_pc b t) eqn:P; try exact V.
    destruct (Z.gtb_spec len SPI_SYNC_MAX_DATA_LENGTH) as [G|G]; [exact V|].
    unfold SPI_SYNC_MAX_DATA_LENGTH in G. destruct (sy_holder b) as [h|] eqn:H; [exact (conj L (conj W M))|].
    split; [|split; [|exact M]]; unfold in_call in *; cbn [sy_pc sy_holder].
    + intros u. destruct (Z.eq_dec u t) as [->|N]; [rewrite put_same; split; [reflexivity|discriminate]|].
      rewrite put_other by auto. split; [intros X; apply L in X; congruence|congruence].
    + intros u x n. destruct (Z.eq_dec u t) as [->|N]; [|rewrite put_other by auto; apply W].
      rewrite put_same. intros [E|[E|E]]; try discriminate. injection E as _ <-. lia.
  - assert (IN : sy_pc b t <> BOut -> in_call b t) by auto.
    unfold blocking_step. destruct (sy_pc b t) as [|d len|d len|d len|d h|h] eqn:P; [exact V|..].
    + apply lock_move; auto; [apply IN; discriminate|discriminate|].
      intros x n [E|[E|E]]; try discriminate. injection E as _ <-. apply (W t d len). auto.
    + apply lock_move; auto; [apply IN; discriminate|destruct (sp_dma _ _); discriminate|].
      intros x n E. assert (len <= 16) by (apply (W t d len); auto).
      destruct (sp_dma _ _); destruct E as [E|[E|E]]; try discriminate. injection E as _ <-. auto.
    + apply lock_move; auto; [apply IN; discriminate|discriminate|intros x n [E|[E|E]]; discriminate|].
      apply Forall_app. split; [exact M|]. constructor; [|constructor]. cbn [snd]. apply (W t d len). auto.
    + apply lock_move; auto; [apply IN; discriminate|discriminate|intros x n [E|[E|E]]; discriminate].
    + assert (HT : sy_holder b = Some t) by (apply L; unfold in_call; congruence).
      split; [|split; [|exact M]]; unfold in_call in *; cbn [sy_pc sy_holder].
      * intros u. destruct (Z.eq_dec u t) as [->|N]; [rewrite put_same; split; [intros X; now elim X|discriminate]|].
        rewrite put_other by auto. split; [intros X; apply L in X; congruence|discriminate].
      * intros u x n. destruct (Z.eq_dec u t) as [->|N]; [rewrite put_same; intros [E|[E|E]]; discriminate|].
        rewrite put_other by auto. apply W.
  - exact V.
Qed.

Lemma lock_reach es : lock_inv (sync_run sync_init es).
Proof. induction es as [|e es IH] using rev_ind; [exact lock_init|]. rewrite run_snoc. now apply lock_step. Qed.

(** ** Chip-selects *)
(** The task has the chip-select of [d] low. *)
Definition low_by (p : bpc) (d : spi_dev) : Prop :=
  (exists len, p = BCall d len \/ p = BMoving d len) \/ exists h, p = BUp d h.

Definition sel_inv (bus_of : Z -> Z) (blocking : Z -> bool) (b : sync) : Prop :=
  inv (sy_spi b) /\
  (forall k d, sp_dma (sy_spi b) k = Some d -> sd_bus d = k /\ bus_of (sd_id d) = k /\ blocking k = false) /\
  (forall t d, low_by (sy_pc b t) d \/ (exists len, sy_pc b t = BLow d len) ->
     sd_bus d = bus_of (sd_id d) /\ blocking (sd_bus d) = true) /\
  (forall x, selected b x <->
     (exists k d, sp_dma (sy_spi b) k = Some d /\ sd_id d = x) \/ (exists t d, low_by (sy_pc b t) d /\ sd_id d = x)).

Lemma sel_init bus_of blocking : sel_inv bus_of blocking sync_init.
Proof.
  split; [exact inv_init|]. split; [discriminate|].
  assert (N : forall t d, low_by (sy_pc sync_init t) d -> False).
  { intros t d [(len & [H|H])|(h & H)]; discriminate. }
  split.
  - intros t d [H|(len & H)]; [now apply N in H|discriminate].
  - intros x. unfold selected. cbn. split; [discriminate|].
    intros [(k & d & H & _)|(t & d & H & _)]; [discriminate|now apply N in H].
Qed.

(** The part of the DMA transfers that one event of them changes. *)
Lemma dma_shape s e : inv s ->
  (exists d, e = STransfer d true /\ spi_bus_known (sd_bus d) = true /\ sp_dma s (sd_bus d) = None /\
     sp_dma (spi_step s e) = put (sp_dma s) (sd_bus d) (Some d) /\ sp_cs (spi_step s e) = put (sp_cs s) (sd_id d) false) \/
  (exists d, e = STransfer d false /\ sp_dma s (sd_bus d) = None /\
     sp_dma (spi_step s e) = sp_dma s /\ sp_cs (spi_step s e) = put (sp_cs s) (sd_id d) true) \/
  (exists k d, e = SComplete k /\ sp_dma s k = Some d /\
     sp_dma (spi_step s e) = put (sp_dma s) k None /\ sp_cs (spi_step s e) = put (sp_cs s) (sd_id d) true) \/
  (sp_dma (spi_step s e) = sp_dma s /\ sp_cs (spi_step s e) = sp_cs s).
Proof.
  intros (ND & KQ & DM & QU & NU). destruct e as [d ok|k| |]; cbn [spi_step].
  - unfold SPI_TransmitReceive. destruct (spi_bus_known (sd_bus d)) eqn:K; [|now repeat right]. cbn [negb].
    destruct (sp_sem s (sd_bus d)) eqn:S1; [|now repeat right]. cbn [negb].
    assert (DN : sp_dma s (sd_bus d) = None).
    { destruct (sp_dma s (sd_bus d)) eqn:D; [|reflexivity]. destruct (DM (sd_bus d)) as (_ & F & _); congruence. }
    rewrite DN. destruct ok; [left|right; left]; exists d; cbn [fst sp_dma sp_cs]; auto.
  - unfold HAL_SPI_TxRxCpltCallback. destruct (sp_dma s k) as [d|] eqn:D; [|now repeat right].
    right. right. left. exists k, d. destruct (DM k ltac:(congruence)) as (K & _ & _ & DV). rewrite K, DV, D. cbn [negb sp_dma sp_cs]. auto.
  - unfold rx_take. destruct (_ && _); now repeat right.
  - unfold rx_item. destruct (0 <? _); [|now repeat right]. destruct (sp_queue s); now repeat right.
Qed.

Lemma sel_dma bus_of blocking b e :
  (match e with STransfer d _ => sd_bus d = bus_of (sd_id d) /\ blocking (sd_bus d) = false | _ => True end) ->
  sel_inv bus_of blocking b ->
  sel_inv bus_of blocking (mkSync (spi_step (sy_spi b) e) (sy_holder b) (sy_pc b) (sy_moved b) (sy_returns b)).
Proof.
  intros W (V & C1 & C2 & C3). unfold sel_inv, selected in *. cbn [sy_spi sy_pc].
  pose proof (inv_step _ e V) as V'.
  destruct (dma_shape (sy_spi b) e V) as [(d & -> & K & DN & ED & EC)|[(d & -> & DN & ED & EC)|[(k & d & -> & D & ED & EC)|(ED & EC)]]];
    split; try exact V'; rewrite ?ED, ?EC; clear V' ED EC.
  - destruct W as [W1 W2]. split; [|split; [exact C2|]].
    + intros k x H. destruct (Z.eq_dec k (sd_bus d)) as [->|N].
      * rewrite put_same in H. injection H as <-. auto.
      * rewrite put_other in H by auto. now apply C1.
    + intros x. destruct (Z.eq_dec x (sd_id d)) as [->|N].
      * rewrite put_same. split; [|reflexivity]. intros _. left. exists (sd_bus d), d. now rewrite put_same.
      * rewrite put_other by auto. rewrite C3. split; (intros [(k & y & H1 & H2)|H]; [left; exists k, y; split; auto|now right]).
        -- rewrite put_other; [exact H1|]. intros ->. congruence.
        -- destruct (Z.eq_dec k (sd_bus d)) as [->|NE]; [rewrite put_same in H1; injection H1 as <-; congruence|].
           rewrite put_other in H1 by auto. exact H1.
  - destruct W as [W1 W2]. split; [exact C1|]. split; [exact C2|].
    intros x. destruct (Z.eq_dec x (sd_id d)) as [->|N]; [|rewrite put_other by auto; apply C3].
    rewrite put_same. split; [discriminate|]. intros [(k & y & H1 & H2)|(t & y & H1 & H2)].
    + destruct (C1 _ _ H1) as (_ & B & _). rewrite H2, <- W1 in B. subst k. congruence.
    + destruct (C2 t y (or_introl H1)) as [B1 B2]. rewrite H2, <- W1 in B1. rewrite B1 in B2. congruence.
  - destruct (C1 _ _ D) as (B1 & B2 & B3). split; [|split; [exact C2|]].
    + intros i x H. destruct (Z.eq_dec i k) as [->|N]; [rewrite put_same in H; discriminate|]. rewrite put_other in H by auto. now apply C1.
    + intros x. destruct (Z.eq_dec x (sd_id d)) as [->|N].
      * rewrite put_same. split; [discriminate|]. intros [(i & y & H1 & H2)|(t & y & H1 & H2)].
        -- destruct (Z.eq_dec i k) as [->|NE]; [rewrite put_same in H1; discriminate|]. rewrite put_other in H1 by auto.
           destruct (C1 _ _ H1) as (_ & B4 & _). congruence.
        -- destruct (C2 t y (or_introl H1)) as [B4 B5]. rewrite H2, B2 in B4. rewrite B4 in B5. congruence.
      * rewrite put_other by auto. rewrite C3. split; (intros [(i & y & H1 & H2)|H]; [left; exists i, y; split; auto|now right]).
        -- rewrite put_other; [exact H1|]. intros ->. congruence.
        -- destruct (Z.eq_dec i k) as [->|NE]; [rewrite put_same in H1; discriminate|]. rewrite put_other in H1 by auto. exact H1.
  - auto.
Qed.

(** The chip-select is low before and after, or high before and after. *)
Lemma sel_same bus_of blocking b t p h m r :
  (forall d, low_by p d <-> low_by (sy_pc b t) d) ->
  (forall d len, p = BLow d len -> sd_bus d = bus_of (sd_id d) /\ blocking (sd_bus d) = true) ->
  sel_inv bus_of blocking b -> sel_inv bus_of blocking (mkSync (sy_spi b) h (put (sy_pc b) t p) m r).
Proof.
  intros E EL (V & C1 & C2 & C3). unfold sel_inv, selected in *. cbn [sy_spi sy_pc]. split; [exact V|]. split; [exact C1|].
  assert (Q : forall u d, low_by (put (sy_pc b) t p u) d <-> low_by (sy_pc b u) d).
  { intros u d. destruct (Z.eq_dec u t) as [->|N]; [rewrite put_same; apply E|now rewrite put_other by auto]. }
  split.
  - intros u d [H|(len & H)]; [apply Q in H; now apply (C2 u d); left|].
    destruct (Z.eq_dec u t) as [->|N]; [rewrite put_same in H; eapply EL; eassumption|].
    rewrite put_other in H by auto. apply (C2 u d). right. eauto.
  - intros x. rewrite C3. split; (intros [H|(u & d & H1 & H2)]; [now left|right; exists u, d; split; auto; now apply Q]).
Qed.

Lemma low_iff p d : low_by p d <-> match p with BCall d' _ | BMoving d' _ | BUp d' _ => d' = d | _ => False end.
Proof.
  unfold low_by. split.
  - intros [(len & [->| ->])|(h & ->)]; reflexivity.
  - destruct p; intros H; try contradiction; subst; eauto.
Qed.

Lemma sel_step bus_of blocking b e : lock_inv b ->
  (match e with
   | YEnter _ d _ => sd_bus d = bus_of (sd_id d) /\ blocking (sd_bus d) = true
   | YDma (STransfer d _) => sd_bus d = bus_of (sd_id d) /\ blocking (sd_bus d) = false
   | _ => True end) ->
  sel_inv bus_of blocking b -> sel_inv bus_of blocking (sync_step b e).
Proof.
  intros (L & _) W I. pose proof I as (V & C1 & C2 & C3). destruct e as [t d len|t hal|e]; cbn [sync_step].
  - unfold blocking_enter. destruct (sy_pc b t) eqn:P; try exact I. destruct (_ >? _); [exact I|].
    destruct (sy_holder b); [exact I|]. apply sel_same; auto.
    + intros x. rewrite !low_iff, P. tauto.
    + intros x n E. injection E as <- <-. exact W.
  - unfold blocking_step. destruct (sy_pc b t) as [|d len|d len|d len|d h|h] eqn:P; [exact I|..].
    + (* chip-select goes low *)
      unfold sel_inv, selected in *. cbn [sy_spi sy_pc set_cs sp_dma sp_cs]. split; [exact V|]. split; [exact C1|].
      destruct (C2 t d) as [B1 B2]; [right; eauto|]. split.
      * intros u x H. destruct (Z.eq_dec u t) as [->|N]; [|rewrite put_other in H by auto; now apply (C2 u x)].
        rewrite put_same in H. destruct H as [H|(n & H)]; [|discriminate]. apply low_iff in H. subst. auto.
      * intros x. destruct (Z.eq_dec x (sd_id d)) as [->|N].
        { rewrite put_same. split; [|reflexivity]. intros _. right. exists t, d. rewrite put_same. split; [apply low_iff; reflexivity|reflexivity]. }
        rewrite put_other by auto. rewrite C3. split; (intros [H|(u & y & H1 & H2)]; [now left|right; exists u, y; split; auto]).
        -- destruct (Z.eq_dec u t) as [->|NE]; [rewrite low_iff, P in H1; contradiction|now rewrite put_other by auto].
        -- destruct (Z.eq_dec u t) as [->|NE]; [rewrite put_same in H1; apply low_iff in H1; congruence|now rewrite put_other in H1 by auto].
    + apply sel_same; auto.
      * intros x. rewrite !low_iff, P. destruct (sp_dma _ _); tauto.
      * intros x n. destruct (sp_dma _ _); discriminate.
    + apply sel_same; auto; [intros x; rewrite !low_iff, P; tauto|discriminate].
    + (* chip-select goes high *)
      unfold sel_inv, selected in *. cbn [sy_spi sy_pc set_cs sp_dma sp_cs]. split; [exact V|]. split; [exact C1|].
      destruct (C2 t d) as [B1 B2]; [left; apply low_iff; now rewrite P|]. split.
      * intros u x H. destruct (Z.eq_dec u t) as [->|N]; [|rewrite put_other in H by auto; now apply (C2 u x)].
        rewrite put_same in H. destruct H as [H|(n & H)]; [|discriminate]. apply low_iff in H. contradiction.
      * intros x. destruct (Z.eq_dec x (sd_id d)) as [->|N].
        { rewrite put_same. split; [discriminate|]. intros [(k & y & H1 & H2)|(u & y & H1 & H2)].
          - destruct (C1 _ _ H1) as (_ & B4 & B5). rewrite H2, <- B1 in B4. rewrite B4 in B2. congruence.
          - destruct (Z.eq_dec u t) as [->|NE]; [rewrite put_same in H1; apply low_iff in H1; contradiction|].
            rewrite put_other in H1 by auto. exfalso. apply NE.
            assert (X : forall v, sy_pc b v <> BOut -> sy_holder b = Some v) by (intros v; apply L).
            assert (HT : sy_holder b = Some t) by (apply X; congruence).
            assert (HU : sy_holder b = Some u).
            { apply X. intros Z0. rewrite Z0 in H1. now apply low_iff in H1. }
            congruence. }
        rewrite put_other by auto. rewrite C3. split; (intros [H|(u & y & H1 & H2)]; [now left|right; exists u, y; split; auto]).
        -- destruct (Z.eq_dec u t) as [->|NE]; [rewrite low_iff, P in H1; congruence|now rewrite put_other by auto].
        -- destruct (Z.eq_dec u t) as [->|NE]; [rewrite put_same in H1; apply low_iff in H1; contradiction|now rewrite put_other in H1 by auto].
    + apply sel_same; auto; [intros x; rewrite !low_iff, P; tauto|discriminate].
  - apply sel_dma; [|exact I]. destruct e; cbn [dma_event]; auto.
Qed.

Lemma sel_run bus_of blocking : forall es, one_way bus_of blocking es -> sel_inv bus_of blocking (sync_run sync_init es).
Proof.
  induction es as [|e es IH] using rev_ind; intros W; [apply sel_init|]. rewrite run_snoc. apply sel_step.
  - apply lock_reach.
  - apply (W e). apply in_or_app. right. now left.
  - apply IH. intros x Hx. apply W. apply in_or_app. now left.
Qed.

(** ** A bus lost by a refused DMA start stays lost *)
Lemma stuck_sync_step k b e : stuck k (sy_spi b) -> stuck k (sy_spi (sync_step b e)).
Proof.
  intros S1. destruct e as [t d len|t hal|e]; cbn [sync_step].
  - unfold blocking_enter. destruct (sy_pc b t); try exact S1. destruct (_ >? _); [exact S1|]. destruct (sy_holder b); exact S1.
  - unfold blocking_step. destruct (sy_pc b t); exact S1.
  - cbn [sy_spi]. now apply stuck_step.
Qed.
Lemma stuck_sync k es : forall b, stuck k (sy_spi b) -> stuck k (sy_spi (sync_run b es)).
Proof.
  induction es as [|e es IH]; intros b H; [exact H|]. unfold sync_run in *. cbn [fold_left]. apply IH. now apply stuck_sync_step.
Qed.

Lemma sync_inv_spi es : inv (sy_spi (sync_run sync_init es)).
Proof.
  induction es as [|e es IH] using rev_ind; [exact inv_init|]. rewrite run_snoc. set (b := sync_run sync_init es) in *.
  destruct e as [t d len|t hal|e]; cbn [sync_step].
  - unfold blocking_enter. destruct (sy_pc b t); try exact IH. destruct (_ >? _); [exact IH|]. destruct (sy_holder b); exact IH.
  - unfold blocking_step. destruct (sy_pc b t); exact IH.
  - cbn [sy_spi]. now apply inv_step.
Qed.

(** ** A call without interference *)
Lemma undisturbed b t d len hal : sy_pc b t = BOut -> sy_holder b = None -> len <= 16 ->
  sp_dma (sy_spi b) (sd_bus d) = None ->
  exists f, f t = BOut /\
    sync_run b (YEnter t d len :: repeat (YStep t hal) 5) =
    mkSync (set_cs (set_cs (sy_spi b) (sd_id d) false) (sd_id d) true) None f (sy_moved b ++ [(d, len)])
      (sy_returns b ++ [(t, if hal =? HAL_OK then SPI_STATUS_OK else hal)]).
Proof.
  intros P H Ln D. unfold sync_run. cbn [repeat fold_left sync_step].
  unfold blocking_enter. rewrite P, H.
  destruct (Z.gtb_spec len SPI_SYNC_MAX_DATA_LENGTH) as [G|G]; [unfold SPI_SYNC_MAX_DATA_LENGTH in G; lia|].
  Local Ltac one := match goal with |- context [blocking_step (mkSync ?a ?h ?p ?m ?r) ?t ?v] =>
    let x := eval cbv beta delta [blocking_step] in (blocking_step (mkSync a h p m r) t v) in
    change (blocking_step (mkSync a h p m r) t v) with x; cbn [sy_pc sy_spi sy_holder sy_moved sy_returns]; rewrite put_same; cbv beta iota zeta end.
  eexists. split; [|one; one; cbn [set_cs sp_dma]; rewrite D; cbv beta iota; one; one; one; reflexivity].
  apply put_same.
Qed.
