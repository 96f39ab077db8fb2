(** C88: while an SPI bus is clocked, exactly the addressed device is selected. *)
From Coq Require Import ZifyBool ZifyNat.
From Verif.Model Require Import SpiSync.
From Verif.Spec Require Import SpiSyncSpec.
From Verif.Proof Require Import SpiProof SpiSyncProof.

(** Any tasks, any interleaving, with DMA transfers on other buses: if each bus is
    used either by blocking calls or by DMA, the device a bus is clocked for is
    selected and no other device on that bus is. *)
Theorem C88_one_device_selected_partial :
  forall bus_of blocking es, one_way bus_of blocking es ->
  forall k d, clocked (sync_run sync_init es) k d ->
    selected (sync_run sync_init es) (sd_id d) /\
    forall x, bus_of x = k -> selected (sync_run sync_init es) x -> x = sd_id d.
Proof.
  intros bus_of blocking es W k d. destruct (sel_run bus_of blocking es W) as (V & C1 & C2 & C3).
  pose proof (lock_reach es) as (L & _ & _). set (b := sync_run sync_init es) in *.
  assert (X : forall t, sy_pc b t <> BOut -> sy_holder b = Some t) by (intros t; apply L).
  intros [D|(t & len & M & K)].
  - destruct (C1 _ _ D) as (B1 & B2 & B3). split; [apply C3; left; eauto|].
    intros x Bx S1. apply C3 in S1 as [(i & y & D2 & <-)|(u & y & M2 & <-)].
    + destruct (C1 _ _ D2) as (_ & B4 & _). rewrite Bx in B4. subst i. congruence.
    + destruct (C2 u y (or_introl M2)) as [B4 B5]. rewrite Bx in B4. rewrite B4 in B5. congruence.
  - assert (LB : low_by (sy_pc b t) d) by (apply low_iff; now rewrite M).
    split; [apply C3; right; eauto|].
    destruct (C2 t d (or_introl LB)) as [B1 B2].
    intros x Bx S1. apply C3 in S1 as [(i & y & D2 & <-)|(u & y & M2 & <-)].
    + destruct (C1 _ _ D2) as (_ & B4 & B5). rewrite Bx in B4. subst i. rewrite K in B2. congruence.
    + assert (HT : sy_holder b = Some t) by (apply X; congruence).
      assert (HU : sy_holder b = Some u) by (apply X; intros Z0; rewrite Z0 in M2; now apply low_iff in M2).
      assert (u = t) by congruence. subst u. apply low_iff in M2. rewrite M in M2. now subst.
Qed.
Print Assumptions C88_one_device_selected_partial.

(** With both kinds of transfer on one bus it is not so: while DMA clocks the bus
    for one device, a blocking call selects a second one. *)
Theorem C88_two_devices_selected_refuted :
  forall d d' t len, sd_bus d = sd_bus d' -> 0 <= sd_bus d < 4 -> sd_id d <> sd_id d' -> len <= 16 ->
  let b := sync_run sync_init [YDma (STransfer d true); YEnter t d' len; YStep t HAL_OK] in
  clocked b (sd_bus d) d /\ selected b (sd_id d) /\ selected b (sd_id d').
Proof.
  intros d d' t len EB K N Ln. apply known_range in K. unfold sync_run. cbn [fold_left sync_step].
  unfold dma_event, moving_on. cbn [sync_init sy_holder negb andb]. cbn [sy_spi sync_init spi_step].
  unfold SPI_TransmitReceive. rewrite K. cbn [negb spi_init sp_sem sp_dma fst].
  unfold blocking_enter. cbn [sy_pc sync_init sy_holder].
  destruct (Z.gtb_spec len SPI_SYNC_MAX_DATA_LENGTH) as [G|G]; [unfold SPI_SYNC_MAX_DATA_LENGTH in G; lia|].
  unfold blocking_step. cbn [sy_pc]. rewrite put_same. unfold clocked, selected. cbn [sy_spi set_cs sp_dma sp_cs].
  rewrite !put_same. split; [now left|]. rewrite put_other by auto. now rewrite put_same.
Qed.
Print Assumptions C88_two_devices_selected_refuted.

(** And a DMA transfer asked for while a blocking one is clocked on the bus locks
    that bus for ever, although no hardware failed. *)
Theorem C88_refused_start_locks_bus_refuted :
  forall es k d, 0 <= k < 4 -> sd_bus d = k ->
  let b := sync_run sync_init es in
  moving_on b k = true -> sp_sem (sy_spi b) k = true ->
  forall es', sp_sem (sy_spi (sync_run b (YDma (STransfer d true) :: es'))) k = false.
Proof.
  intros es k d K E b M S1 es'. apply known_range in K.
  change (sync_run b (YDma (STransfer d true) :: es')) with (sync_run (sync_step b (YDma (STransfer d true))) es').
  apply (stuck_sync k es'). cbn [sync_step sy_spi]. unfold dma_event. rewrite E, M. cbn [negb andb spi_step].
  rewrite <- E in *. apply failed_start_stuck; auto. apply sync_inv_spi.
Qed.
Print Assumptions C88_refused_start_locks_bus_refuted.

(** For every history: at most one task is between taking and giving the mutex,
    the mutex is held exactly then, and nothing longer than 16 bytes is clocked. *)
Theorem C88_blocking_calls_exclusive :
  forall es, let b := sync_run sync_init es in
  (forall t u, in_call b t -> in_call b u -> t = u) /\
  (sy_holder b = None <-> forall t, ~ in_call b t) /\
  Forall (fun m => snd m <= 16) (sy_moved b).
Proof.
  intros es b. destruct (lock_reach es) as (L & _ & M). fold b in L, M. split; [|split; [|exact M]].
  - intros t u T U. apply L in T, U. congruence.
  - split.
    + intros H t T. apply L in T. congruence.
    + intros H. destruct (sy_holder b) as [t|] eqn:E; [|reflexivity]. exfalso. apply (H t). now apply L.
Qed.
Print Assumptions C88_blocking_calls_exclusive.

(** A request of more than 16 bytes, or while another call has the mutex, is
    refused at once with its status and touches neither bus nor chip-selects. *)
Theorem C88_refused_requests :
  forall b t d len, sy_pc b t = BOut -> 16 < len \/ (exists u, sy_holder b = Some u) ->
  let b' := sync_step b (YEnter t d len) in
  sy_spi b' = sy_spi b /\ sy_pc b' = sy_pc b /\ sy_moved b' = sy_moved b /\ sy_holder b' = sy_holder b /\
  sy_returns b' = sy_returns b ++ [(t, if 16 <? len then SPI_STATUS_ERROR_TOO_MUCH_DATA else SPI_STATUS_ERROR_SEM)].
Proof.
  intros b t d len P R b'. subst b'. cbn [sync_step]. unfold blocking_enter. rewrite P, Z.gtb_ltb.
  unfold SPI_SYNC_MAX_DATA_LENGTH. destruct (Z.ltb_spec 16 len) as [G|G]; [cbn; auto|].
  destruct R as [R|(u & ->)]; [lia|]. cbn. auto.
Qed.
Print Assumptions C88_refused_requests.

(** Undisturbed, a call that is accepted ends with everything released whatever
    the HAL answers, and reports success exactly if the HAL did. *)
Theorem C88_call_ends_released :
  forall b t d len hal, sy_pc b t = BOut -> sy_holder b = None -> len <= 16 ->
  sp_dma (sy_spi b) (sd_bus d) = None -> sp_cs (sy_spi b) (sd_id d) = true ->
  let b' := sync_run b (YEnter t d len :: repeat (YStep t hal) 5) in
  sy_pc b' t = BOut /\ sy_holder b' = None /\ (forall x, sp_cs (sy_spi b') x = sp_cs (sy_spi b) x) /\
  sy_moved b' = sy_moved b ++ [(d, len)] /\
  exists r, sy_returns b' = sy_returns b ++ [(t, r)] /\ (r = SPI_STATUS_OK <-> hal = HAL_OK).
Proof.
  intros b t d len hal P H Ln D C. cbv zeta. destruct (undisturbed b t d len hal P H Ln D) as (f & Ef & ->).
  cbn [sy_spi sy_holder sy_moved sy_returns sy_pc].
  split; [exact Ef|]. split; [reflexivity|]. split; [|split; [reflexivity|]].
  - intros x. cbn [set_cs sp_cs]. destruct (Z.eq_dec x (sd_id d)) as [->|N]; [now rewrite put_same|now rewrite !put_other by auto].
  - eexists. split; [reflexivity|]. unfold HAL_OK, SPI_STATUS_OK. destruct (Z.eqb_spec hal 0); lia.
Qed.
Print Assumptions C88_call_ends_released.

(** The failure code does not say what happened: a time-out of the HAL is
    reported as an invalid bus. *)
Theorem C88_timeout_named_invalid_bus_refuted :
  forall d len, len <= 16 -> 0 <= sd_bus d < 4 ->
  sy_returns (sync_run sync_init (YEnter 1 d len :: repeat (YStep 1 HAL_TIMEOUT) 5)) = [(1, SPI_STATUS_ERROR_INVALID_BUS)].
Proof.
  intros d len Ln K. unfold sync_run. cbn [repeat fold_left sync_step].
  unfold blocking_enter. cbn [sync_init sy_pc sy_holder].
  destruct (Z.gtb_spec len SPI_SYNC_MAX_DATA_LENGTH) as [G|G]; [unfold SPI_SYNC_MAX_DATA_LENGTH in G; lia|].
  reflexivity.
Qed.
Print Assumptions C88_timeout_named_invalid_bus_refuted.

(** Two devices on bus 1 used by two tasks with the blocking call, a third on
    bus 2 with DMA. *)
Example C88_hypotheses_met :
  let es := [YDma (STransfer (mkSpiDev 2 7) true); YEnter 1 (mkSpiDev 1 5) 16; YEnter 2 (mkSpiDev 1 6) 3;
             YStep 1 0; YStep 1 0] in
  let b := sync_run sync_init es in
  one_way (fun x => if x =? 7 then 2 else 1) (fun k => k =? 1) es /\
  clocked b 1 (mkSpiDev 1 5) /\ clocked b 2 (mkSpiDev 2 7) /\ moving_on b 1 = true /\ sp_sem (sy_spi b) 1 = true /\
  sy_returns b = [(2, SPI_STATUS_ERROR_SEM)].
Proof.
  cbv zeta. split; [|split; [|split; [|split; [|split]]]].
  - intros e I. cbn in I. destruct I as [<-|[<-|[<-|[<-|[<-|[]]]]]]; cbn; auto.
  - right. exists 1, 16. split; reflexivity.
  - left. reflexivity.
  - reflexivity.
  - reflexivity.
  - reflexivity.
Qed.
