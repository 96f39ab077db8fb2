(** C54 (I2C) and C55 (SPI). *)
From Coq Require Import ZifyBool ZifyNat.
From Verif.Model Require Import I2c Spi.
From Verif.Spec Require Import BusSpec.
From Verif.Proof Require Import I2cProof SpiProof.

(** ** C54 *)

(** In every interleaving at most one task is inside a call that has the bus, the
    bus is held exactly while there is one, and it is free after every return. *)
Theorem C54_bus_exclusive_partial : forall es,
  let b := i2c_run i2c_init es in
  (forall t u, inside b t -> inside b u -> t = u) /\
  (ib_busy b = None <-> forall t, ~ inside b t) /\
  (forall e r, ib_returns (i2c_step b e) = ib_returns b ++ [r] -> rt_status r <> I2C_BUSY ->
     ib_busy (i2c_step b e) = None).
Proof.
  intros es b. pose proof (owner_reach es) as O. fold b in O. split; [|split].
  - intros t u T U. apply O in T, U. congruence.
  - split.
    + intros B t I. apply O in I. congruence.
    + intros H. destruct (ib_busy b) as [t|] eqn:B; [|reflexivity]. exfalso. apply (H t). now apply O.
  - intros e r R NB. clearbody b. clear O es. unfold i2c_step in *.
    assert (D : forall l : list i2c_ret, l = l ++ [r] -> False).
    { intros l E. apply (f_equal (@length _)) in E. rewrite app_length in E. cbn in E. lia. }
    destruct (ib_halted b); [now apply D in R|].
    destruct e as [t q|t|t ok|t to|t|bytes|]; cbn [ib_set_pc ib_returns] in R; try (now apply D in R).
    + destruct (ib_pc b t); try (now apply D in R). destruct (ib_busy b); cbn [ib_set_pc ib_returns] in R; [|now apply D in R].
      apply app_inv_head in R. injection R as <-. cbn in NB. congruence.
    + destruct (ib_pc b t); try (now apply D in R). destruct (_ >=? _); [reflexivity|now apply D in R].
    + destruct (ib_pc b t); try (now apply D in R). destruct ok; [destruct (ib_dma b)|]; try reflexivity. now apply D in R.
    + destruct (ib_pc b t); try (now apply D in R). destruct (ib_sem b); [now apply D in R|].
      destruct to; [reflexivity|now apply D in R].
    + destruct (ib_pc b t); try (now apply D in R). reflexivity.
    + destruct (ib_dma b) as [[? ?]|]; now apply D in R.
Qed.
Print Assumptions C54_bus_exclusive_partial.

(** A transfer is started only while none is in progress. *)
Theorem C54_one_transfer_partial : forall b e,
  ib_started (i2c_step b e) <> ib_started b -> ib_dma b = None.
Proof.
  intros b e H. unfold i2c_step in H. destruct (ib_halted b); [congruence|].
  destruct e as [t q|t|t ok|t to|t|bytes|]; cbn in H; try congruence.
  - destruct (ib_pc b t); try congruence. destruct (ib_busy b); cbn in H; congruence.
  - destruct (ib_pc b t); try congruence. destruct (_ >=? _); cbn in H; congruence.
  - destruct (ib_pc b t); try congruence. destruct ok; [destruct (ib_dma b); [|reflexivity]|]; cbn in H; congruence.
  - destruct (ib_pc b t); try congruence. destruct (ib_sem b); [cbn in H; congruence|]. destruct to; cbn in H; congruence.
  - destruct (ib_pc b t); cbn in H; congruence.
  - destruct (ib_dma b) as [[? ?]|]; cbn in H; congruence.
Qed.
Print Assumptions C54_one_transfer_partial.

(** What the bytes are, as long as no call has taken the semaphore and the transfer ends
    before the wait: a write transfers the caller's bytes, a read gives the caller those
    received. *)
Theorem C54_bytes_partial : forall b t r bytes,
  ib_halted b = false -> ib_pc b t = Outside -> ib_busy b = None -> ib_dma b = None -> ib_sem b = true -> ib_holder b = None ->
  rq_len r < DMA_BUF_LEN -> (length (rq_data r) <= length bytes)%nat ->
  (rq_write r = true -> firstn (length (rq_data r)) (ib_buf (i2c_run b [IEnter t r; IFill t; IStart t true])) = rq_data r) /\
  let b' := i2c_run b [IEnter t r; IFill t; IStart t true; IComplete bytes; IWait t false; IReturn t] in
  ib_halted b' = false /\ ib_busy b' = None /\ ib_finished b' = ib_finished b ++ [(t, r)] /\
  ib_returns b' = ib_returns b ++
    [mkI2cRet t r I2C_OK (if rq_write r then rq_data r else firstn (length (rq_data r)) bytes)].
Proof.
  intros b t r bytes H P B D S N L LB. destruct b as [bu se ho buf dm pc ha st fi re]. cbn in H, P, B, D, S, N. subst.
  assert (LF : (rq_len r >=? DMA_BUF_LEN) = false) by lia.
  assert (O : forall d l : list Z, firstn (length d) (overlay d l) = d).
  { intros d l. unfold overlay. rewrite firstn_app, Nat.sub_diag, firstn_all. cbn [firstn]. apply app_nil_r. }
  unfold i2c_run.
  cbn [fold_left i2c_step ib_halted ib_pc ib_busy ib_set_pc ib_dma ib_sem ib_holder ib_buf ib_started ib_finished ib_returns]. rewrite P.
  repeat (cbn [fold_left i2c_step ib_halted ib_pc ib_busy ib_set_pc ib_dma ib_sem ib_holder ib_buf ib_started ib_finished ib_returns ib_return];
          rewrite ?Z.eqb_refl, ?LF).
  destruct (rq_write r); (split; [intros W; try discriminate W; apply O|]);
    (split; [reflexivity|]); (split; [reflexivity|]); (split; [reflexivity|]); [reflexivity|].
  pose proof (O (firstn (length (rq_data r)) bytes) buf) as Q. rewrite firstn_length_le in Q by exact LB. now rewrite Q.
Qed.
Print Assumptions C54_bytes_partial.

Example C54_bytes_example :
  ib_returns (i2c_run i2c_init [IEnter 7 (mkI2cReq false 80 [0; 0]); IFill 7; IStart 7 true; IComplete [5; 6]; IWait 7 false; IReturn 7])
    = [mkI2cRet 7 (mkI2cReq false 80 [0; 0]) I2C_OK [5; 6]].
Proof. apply (C54_bytes_partial i2c_init 7 (mkI2cReq false 80 [0; 0]) [5; 6]); reflexivity || (cbn; lia). Qed.

(** The completion semaphore is created available. The first call therefore
    returns OK while its transfer is still in progress; a read returns what the
    buffer held before. *)
Theorem C54_first_call_returns_early_refuted : forall t r, rq_len r < DMA_BUF_LEN ->
  let b := i2c_run i2c_init [IEnter t r; IFill t; IStart t true; IWait t false; IReturn t] in
  ib_dma b = Some (t, r) /\ ib_finished b = [] /\
  ib_returns b = [mkI2cRet t r I2C_OK (if rq_write r then rq_data r else repeat 0 (length (rq_data r)))].
Proof. exact call_early. Qed.
Print Assumptions C54_first_call_returns_early_refuted.

Example C54_early_nonvacuous :
  let b := i2c_run i2c_init [IEnter 7 (mkI2cReq false 80 [0; 0]); IFill 7; IStart 7 true; IWait 7 false; IReturn 7] in
  ib_dma b = Some (7, mkI2cReq false 80 [0; 0]) /\ ib_finished b = [] /\
  ib_returns b = [mkI2cRet 7 (mkI2cReq false 80 [0; 0]) I2C_OK [0; 0]].
Proof. apply (C54_first_call_returns_early_refuted 7 (mkI2cReq false 80 [0; 0])). reflexivity. Qed.

(** The semaphore is a mutex. Taking it makes the caller its holder for good, so
    in every execution at most one call ever returns OK ... *)
Theorem C54_second_success_impossible_refuted : forall es, (ok_count (i2c_run i2c_init es) <= 1)%nat.
Proof. intros es. apply once_count, once_reach. Qed.
Print Assumptions C54_second_success_impossible_refuted.

(** ... and the completion of a transfer after it stops the processor. *)
Theorem C54_completion_halts_refuted : forall es bytes,
  let b := i2c_run i2c_init es in
  (1 <= ok_count b)%nat -> ib_dma b <> None -> ib_halted (i2c_step b (IComplete bytes)) = true.
Proof.
  intros es bytes b OK D. destruct (once_ok_holder b (once_reach es) OK) as (h & H).
  unfold i2c_step. destruct (ib_halted b) eqn:HB; [exact HB|]. destruct (ib_dma b) as [[t r]|]; [|congruence].
  cbn. now rewrite H.
Qed.
Print Assumptions C54_completion_halts_refuted.

Example C54_halts_nonvacuous :
  let b := i2c_run i2c_init [IEnter 7 (mkI2cReq true 80 [1; 2]); IFill 7; IStart 7 true; IWait 7 false; IReturn 7] in
  ok_count b = 1%nat /\ ib_dma b <> None /\ ib_halted b = false /\ ib_halted (i2c_step b (IComplete [])) = true.
Proof. vm_compute. repeat split; discriminate. Qed.

(** The wire address carries the direction in bit 0 and nothing else changes. *)
Theorem C54_direction_bit : forall r, 0 <= rq_addr r < 65536 ->
  Z.testbit (wire_addr r) 0 = negb (rq_write r) /\
  forall i, 0 < i -> Z.testbit (wire_addr r) i = Z.testbit (rq_addr r) i.
Proof.
  intros r A. unfold wire_addr, u16.
  assert (H : forall i, 16 <= i -> Z.testbit (rq_addr r) i = false).
  { intros i I. destruct (Z.eq_dec (rq_addr r) 0) as [->|NZ]; [apply Z.bits_0|].
    apply Z.bits_above_log2; [lia|]. apply Z.lt_le_trans with 16; [|lia]. apply Z.log2_lt_pow2; lia. }
  destruct (rq_write r); cbn [negb].
  - split.
    + rewrite Z.mod_pow2_bits_low by lia. rewrite Z.land_spec, Z.lnot_spec by lia. cbn. apply andb_false_r.
    + intros i I. destruct (Z.ltb_spec i 16).
      * rewrite Z.mod_pow2_bits_low by lia. rewrite Z.land_spec, Z.lnot_spec by lia.
        replace (Z.testbit 1 i) with false; [apply andb_true_r|].
        symmetry. apply Z.bits_above_log2; cbn; lia.
      * rewrite Z.mod_pow2_bits_high by lia. now rewrite H by lia.
  - split.
    + rewrite Z.mod_pow2_bits_low by lia. rewrite Z.lor_spec. cbn. apply orb_true_r.
    + intros i I. destruct (Z.ltb_spec i 16).
      * rewrite Z.mod_pow2_bits_low by lia. rewrite Z.lor_spec.
        replace (Z.testbit 1 i) with false; [apply orb_false_r|].
        symmetry. apply Z.bits_above_log2; cbn; lia.
      * rewrite Z.mod_pow2_bits_high by lia. now rewrite H by lia.
Qed.
Print Assumptions C54_direction_bit.

(** ** C55 *)

(** If no start fails: whenever the callback task has nothing left to do, every
    bus without a transfer in progress is available; and the callback task gets
    there from every reachable state. *)
Theorem C55_released_after_completion_partial : forall es, no_failed_start es ->
  let s := spi_run spi_init es in
  (rx_blocked s -> forall k, 0 <= k < SPI_NUM_BUSSES -> sp_sem s k = true \/ sp_dma s k <> None) /\
  exists n, rx_blocked (rx_runs n s) /\
    forall k, 0 <= k < SPI_NUM_BUSSES -> sp_sem (rx_runs n s) k = true \/ sp_dma (rx_runs n s) k <> None.
Proof.
  intros es NF s. pose proof (live_run es spi_init NF live_init) as L. fold s in L. split.
  - intros B k K. apply blocked_available; auto. now apply known_range.
  - pose proof L as (_ & _ & B & N & _). destruct (rx_blocks s B N) as (n & R). exists n. split; [exact R|].
    intros k K. apply blocked_available; auto; [now apply live_rx_runs|now apply known_range].
Qed.
Print Assumptions C55_released_after_completion_partial.

Example C55_released_nonvacuous :
  let es := [STransfer (mkSpiDev 1 5) true; STransfer (mkSpiDev 3 6) true; SComplete 3; SComplete 1; SRxTake; SRxItem] in
  no_failed_start es /\ sp_sem (spi_run spi_init es) 1 = false /\ rx_blocked (rx_runs 4 (spi_run spi_init es)) /\
  sp_sem (rx_runs 4 (spi_run spi_init es)) 1 = true /\ sp_calls (rx_runs 4 (spi_run spi_init es)) = [6; 5].
Proof.
  cbv zeta. split; [intros d I; cbn in I; intuition discriminate|]. vm_compute. repeat split.
Qed.

(** A start that fails leaves the bus taken for ever: whatever happens afterwards,
    every transfer on it is refused as busy. *)
Theorem C55_failed_start_refuted : forall es d es' d',
  let s := spi_run spi_init es in
  0 <= sd_bus d < SPI_NUM_BUSSES -> sp_sem s (sd_bus d) = true -> sd_bus d' = sd_bus d ->
  let s' := spi_run s (STransfer d false :: es') in
  snd (SPI_TransmitReceive s d false) = SPI_STATUS_ERROR_TX /\ sp_sem s' (sd_bus d) = false /\
  forall ok, snd (SPI_TransmitReceive s' d' ok) = SPI_STATUS_ERROR_BUSY.
Proof.
  intros es d es' d' s K S E s'. assert (KB : spi_bus_known (sd_bus d) = true) by now apply known_range.
  pose proof (failed_start_stuck s d (inv_reach es) KB S) as ST.
  assert (ST' : stuck (sd_bus d) s').
  { unfold s'. change (spi_run s (STransfer d false :: es')) with (spi_run (spi_step s (STransfer d false)) es').
    apply stuck_run. exact ST. }
  destruct ST' as (SF & _ & _). split; [|split; [exact SF|]].
  - unfold SPI_TransmitReceive. rewrite KB, S. reflexivity.
  - intros ok. unfold SPI_TransmitReceive. rewrite E, KB, SF. reflexivity.
Qed.
Print Assumptions C55_failed_start_refuted.

Example C55_failed_start_nonvacuous :
  let s := spi_run spi_init [STransfer (mkSpiDev 2 9) true; SComplete 2; SRxTake; SRxItem] in
  0 <= 2 < SPI_NUM_BUSSES /\ sp_sem s 2 = true.
Proof. vm_compute. repeat split; discriminate. Qed.

(** Completed transfers cause their device's callback, once each, in order: the
    callbacks made are the completions, except those still queued. *)
Theorem C55_callbacks_exact : forall es, exists rest,
  sp_calls (spi_run spi_init es) ++ rest = completions spi_init es /\
  length rest = length (sp_queue (spi_run spi_init es)) /\
  (length rest <= 4)%nat /\ sp_null (spi_run spi_init es) = false.
Proof.
  intros es. exists (pending (spi_run spi_init es)).
  pose proof (inv_reach es) as V. pose proof V as (ND & KQ & _ & _ & NU).
  split; [|split; [apply map_length|split; [|exact NU]]].
  - rewrite (calls_run es spi_init inv_init). reflexivity.
  - unfold pending. rewrite map_length. now apply short_queue.
Qed.
Print Assumptions C55_callbacks_exact.

(** The chip-select of a device is low exactly while its transfer is in progress
    (each device on one bus; the blocking call is C88). *)
Theorem C55_chip_select_partial : forall bus_of es x, wired bus_of es ->
  (sp_cs (spi_run spi_init es) x = false <->
   exists k d, sp_dma (spi_run spi_init es) k = Some d /\ sd_id d = x).
Proof.
  intros bus_of es x W.
  assert (C0 : cs_inv bus_of spi_init).
  { split; [discriminate|]. intros y. split; [discriminate|]. intros (k & d & H & _). discriminate. }
  destruct (cs_run bus_of es spi_init inv_init W C0) as (_ & C). apply C.
Qed.
Print Assumptions C55_chip_select_partial.

Example C55_chip_select_nonvacuous :
  wired (fun x => x) [STransfer (mkSpiDev 1 1) true; STransfer (mkSpiDev 3 3) true; SComplete 3].
Proof.
  intros d ok I. cbn in I. destruct I as [I|[I|[I|[]]]]; [injection I as <- _; reflexivity|injection I as <- _; reflexivity|discriminate].
Qed.
