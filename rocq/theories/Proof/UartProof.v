From Coq Require Import ZifyBool ZifyNat.
From Verif.Spec Require Import UartSpec.
From Verif.Proof Require Import MemFacts.

Lemma wr_block_0 (l d : list Z) : (length d <= length l)%nat ->
  wr_block l 0 d = Some (d ++ skipn (length d) l).
Proof.
  intros H. unfold wr_block. destruct (Z.leb_spec 0 0); [|lia]. destruct (Z.leb_spec (0 + Z.of_nat (length d)) (Z.of_nat (length l))); [|lia].
  cbn [andb]. change (Z.to_nat 0) with 0%nat. reflexivity.
Qed.

Lemma wr_block_0_inv (l d l' : list Z) : wr_block l 0 d = Some l' ->
  (length d <= length l)%nat /\ l' = d ++ skipn (length d) l.
Proof.
  intros H. destruct (Nat.le_gt_cases (length d) (length l)) as [L|L].
  - rewrite wr_block_0 in H by exact L. now injection H as <-.
  - unfold wr_block in H. destruct (Z.leb_spec (0 + Z.of_nat (length d)) (Z.of_nat (length l))); [lia|].
    rewrite andb_false_r in H. discriminate.
Qed.

Lemma overwritten_length (l d : list Z) : (length d <= length l)%nat ->
  length (d ++ skipn (length d) l) = length l.
Proof. intros. rewrite app_length, skipn_length. lia. Qed.

Lemma rd_nat (l : list Z) k : (k < length l)%nat ->
  exists b, rd l (Z.of_nat k) = Some b /\ skipn k l = b :: skipn (S k) l.
Proof.
  intros H. unfold rd, get. destruct (Z.ltb_spec (Z.of_nat k) (Z.of_nat (length l))); [|lia].
  destruct (Z.ltb_spec (Z.of_nat k) 0); [lia|]. rewrite Nat2Z.id.
  revert k H H0 H1. induction l as [|x l IH]; intros k H H0 H1; [simpl in H; lia|].
  destruct k as [|k]; [exists x; split; reflexivity|].
  destruct (IH k) as (b & E & S1); [simpl in *; lia..|]. exists b. split; [exact E|exact S1].
Qed.

Record uinv (u : uart) (inside : bool) : Prop := {
  ui_len : length (ua_buf u) = 512%nat;
  ui_pend : (length (ua_pend u) <= 511)%nat;
  ui_dma : forall k n, ua_hw u = TxDma k n -> (k <= n <= 512)%nat;
  ui_busy : ua_busy u = match ua_hw u with TxIdle => false | _ => true end;
  ui_idle : ua_hw u = TxIdle -> ua_pend u = [];
  ui_call : match ua_call u with
            | None => inside = false /\ ua_masked u = false
            | Some (d, saw) => inside = true /\ saw = ua_busy u
            end;
  ui_sum : ua_wire u ++ in_flight u ++ ua_pend u = concat (ua_ok u) }.

Lemma uinv_init : uinv uart_init false.
Proof.
  split; try reflexivity.
  - unfold uart_init. cbn [ua_pend length]. lia.
  - discriminate.
  - split; reflexivity.
Qed.

Definition next_inside (inside : bool) (e : uart_event) : bool :=
  match e with UBegin _ => true | UEnd _ => false | _ => inside end.

Lemma uinv_step u inside e u' :
  uinv u inside -> clean inside [e] -> roomy u [e] -> uart_step u e = Some u' ->
  uinv u' (next_inside inside e).
Proof.
  intros I0 Cl R S1. pose proof I0 as [L P D B I C S]. destruct e as [d|ok| | |ok|]; cbn [uart_step next_inside] in *.
  - injection S1 as <-. unfold send_begin. destruct (ua_call u) as [[d' saw]|] eqn:E.
    + destruct C as [-> C]. exact I0.
    + split; cbn [ua_buf ua_pend ua_hw ua_busy ua_call ua_wire ua_ok]; auto.
  - destruct Cl as [-> _]. cbn [roomy] in R. destruct R as [R _]. unfold send_end in S1.
    destruct (ua_call u) as [[d [|]]|] eqn:E.
    + destruct (stream_send_checked TX_PENDING_CAP (ua_pend u) d) as [pend|] eqn:SC; [|discriminate].
      apply stream_send_checked_some in SC. subst pend.
      injection S1 as <-. destruct C as [_ C]. unfold TX_PENDING_CAP in R.
      assert (X : stream_send TX_PENDING_CAP (ua_pend u) d = ua_pend u ++ d).
      { unfold stream_send, TX_PENDING_CAP. f_equal. apply firstn_all2. lia. }
      split; cbn [ua_buf ua_pend ua_hw ua_busy ua_call ua_wire ua_ok ua_masked]; auto.
      * rewrite X, app_length. lia.
      * intros H. rewrite H in B. congruence.
      * rewrite X, concat_app. cbn [concat]. rewrite app_nil_r, <- S. unfold in_flight. cbn [ua_hw ua_buf].
        now rewrite <- !app_assoc.
    + destruct C as [_ C]. destruct (wr_block (ua_buf u) 0 d) as [buf|] eqn:W; [|discriminate].
      apply wr_block_0_inv in W. destruct W as [Ld ->].
      assert (H : ua_hw u = TxIdle) by (destruct (ua_hw u); congruence).
      rewrite H in S1. cbn [Transmit_DMA negb] in S1. rewrite orb_false_r in S1.
      specialize (I H). unfold in_flight in S. rewrite H, I in S. cbn [app] in S. rewrite app_nil_r in S.
      destruct (Nat.eqb_spec (length d) 0) as [Z0|Z0].
      * injection S1 as <-. destruct d; [|discriminate].
        split; cbn [ua_buf ua_pend ua_hw ua_busy ua_call ua_wire ua_ok ua_masked]; auto; try discriminate.
        unfold in_flight. cbn [ua_hw]. rewrite I. cbn [app]. rewrite app_nil_r. exact S.
      * injection S1 as <-.
        split; cbn [ua_buf ua_pend ua_hw ua_busy ua_call ua_wire ua_ok ua_masked]; auto; try discriminate.
        -- rewrite overwritten_length; assumption.
        -- intros k n [= <- <-]. lia.
        -- unfold in_flight. cbn [ua_hw ua_buf skipn]. rewrite Nat.sub_0_r, I, app_nil_r, concat_app. cbn [concat].
           rewrite app_nil_r. rewrite firstn_app, Nat.sub_diag, firstn_all, firstn_O, app_nil_r.
           now rewrite S.
    + injection S1 as <-. destruct C as [-> C]. exact I0.
  - unfold hw_byte in S1. destruct (ua_hw u) as [|k n|] eqn:H; try (injection S1 as <-; exact I0).
    destruct (Nat.ltb_spec k n) as [Lt|Ge]; [|injection S1 as <-; exact I0].
    destruct (D k n eq_refl) as [_ Ln].
    destruct (rd_nat (ua_buf u) k) as (b & Rb & Sk); [lia|]. rewrite Rb in S1. injection S1 as <-.
    split; cbn [ua_buf ua_pend ua_hw ua_busy ua_call ua_wire ua_ok ua_masked]; auto; try discriminate.
    + intros k' n' [= <- <-]. lia.
    + unfold in_flight in *. rewrite H in S. cbn [ua_hw ua_buf]. rewrite <- S, <- !app_assoc. f_equal.
      replace (n - k)%nat with (Datatypes.S (n - Datatypes.S k)) by lia. rewrite Sk. reflexivity.
  - injection S1 as <-. unfold hw_dma_irq. destruct (ua_hw u) as [|k n|] eqn:H; try exact I0.
    destruct (Nat.eqb_spec k n) as [->|Ne]; [|exact I0]. cbn [andb].
    destruct (negb (ua_masked u)); [|exact I0].
    split; cbn [ua_buf ua_pend ua_hw ua_busy ua_call ua_wire ua_ok ua_masked]; auto; try discriminate.
    unfold in_flight in *. rewrite H, Nat.sub_diag in S. exact S.
  - destruct Cl as (-> & -> & _). unfold hw_tc_irq in S1.
    destruct (ua_hw u) as [|k n|] eqn:H; try (injection S1 as <-; exact I0).
    assert (E : ua_call u = None) by (destruct (ua_call u) as [[? ?]|]; [destruct C; discriminate|reflexivity]).
    rewrite E in *. unfold in_flight in S. rewrite H in S. cbn [app] in S.
    destruct (ua_pend u) as [|x p] eqn:Ep.
    + injection S1 as <-.
      split; cbn [ua_buf ua_pend ua_hw ua_busy ua_call ua_wire ua_ok ua_masked]; auto; try discriminate.
    + rewrite <- Ep in *. cbn [stream_recv] in S1.
      assert (F : firstn UART_MAX_DMA_LEN (ua_pend u) = ua_pend u) by (apply firstn_all2; unfold UART_MAX_DMA_LEN; lia).
      assert (K : skipn UART_MAX_DMA_LEN (ua_pend u) = []) by (apply skipn_all2; unfold UART_MAX_DMA_LEN; lia).
      rewrite F, K in S1. rewrite wr_block_0 in S1 by lia.
      cbn [Transmit_DMA negb] in S1. rewrite orb_false_r in S1.
      assert (Ne : length (ua_pend u) <> 0%nat) by (rewrite Ep; discriminate).
      destruct (Nat.eqb_spec (length (ua_pend u)) 0); [lia|]. injection S1 as <-.
      split; cbn [ua_buf ua_pend ua_hw ua_busy ua_call ua_wire ua_ok ua_masked]; auto; try discriminate.
      * rewrite overwritten_length; lia.
      * cbn [length]. lia.
      * intros k n' [= <- <-]. lia.
      * unfold in_flight. cbn [ua_hw ua_buf skipn].
        rewrite Nat.sub_0_r, app_nil_r, firstn_app, Nat.sub_diag, firstn_all, firstn_O, app_nil_r. exact S.
  - destruct Cl.
Qed.

Lemma clean_split inside e t : clean inside (e :: t) -> clean inside [e] /\ clean (next_inside inside e) t.
Proof. destruct e; cbn; tauto. Qed.

Lemma uinv_run : forall tr u inside u', uinv u inside -> clean inside tr -> roomy u tr ->
  uart_run u tr = Some u' -> exists inside', uinv u' inside'.
Proof.
  induction tr as [|e tr IH]; intros u inside u' I C R S1; cbn [uart_run] in S1.
  - injection S1 as <-. eauto.
  - destruct (uart_step u e) as [u1|] eqn:E; [|discriminate].
    apply clean_split in C. destruct C as [C1 C2]. cbn [roomy] in R. rewrite E in R. destruct R as [R1 R2].
    eapply IH; [|exact C2|exact R2|exact S1]. eapply uinv_step; eauto. cbn [roomy]. rewrite E. auto.
Qed.

Lemma uart_run_app : forall a u b, uart_run u (a ++ b) =
  match uart_run u a with Some u' => uart_run u' b | None => None end.
Proof.
  induction a as [|e a IH]; intros u b; [reflexivity|]. cbn [app uart_run].
  destruct (uart_step u e); auto.
Qed.

(** Finishing the current transfer. *)
Lemma bytes_run : forall m u n, length (ua_buf u) = 512%nat ->
  ua_hw u = TxDma (n - m) n -> (m <= n <= 512)%nat ->
  exists u', uart_run u (repeat UByte m) = Some u' /\ ua_hw u' = TxDma n n /\
    ua_pend u' = ua_pend u /\ ua_call u' = ua_call u /\ ua_ok u' = ua_ok u /\ ua_masked u' = ua_masked u.
Proof.
  induction m as [|m IH]; intros u n L H Hm.
  - exists u. rewrite Nat.sub_0_r in H. cbn. auto 10.
  - cbn [repeat uart_run uart_step]. unfold hw_byte. rewrite H.
    destruct (Nat.ltb_spec (n - S m) n); [|lia].
    destruct (rd_nat (ua_buf u) (n - S m)) as (b & Rb & _); [lia|]. rewrite Rb.
    edestruct (IH (mkUart (ua_busy u) (ua_pend u) (ua_buf u) (TxDma (S (n - S m)) n) (ua_masked u) (ua_call u)
                     (ua_wire u ++ [b]) (ua_ok u)) n) as (u' & R & X); [exact L|cbn; f_equal; lia|lia|].
    rewrite R. exists u'. split; [reflexivity|]. exact X.
Qed.

Lemma hw_clean tr : (forall e, In e tr -> e = UByte \/ e = UDmaIrq \/ e = UTcIrq true) ->
  clean false tr /\ hardware_only tr.
Proof.
  induction tr as [|e tr IH]; intros H.
  - split; [exact Logic.I|intros e []].
  - destruct IH as [A B]; [intros; apply H; now right|]. split.
    + destruct (H e (or_introl eq_refl)) as [->|[->| ->]]; cbn; auto.
    + intros e' [<-|H']; [|now apply B]. destruct (H e (or_introl eq_refl)) as [->|[->| ->]]; exact Logic.I.
Qed.

Lemma hw_roomy : forall tr u, (forall e, In e tr -> e = UByte \/ e = UDmaIrq \/ e = UTcIrq true) -> roomy u tr.
Proof.
  induction tr as [|e tr IH]; intros u H; [exact Logic.I|]. cbn [roomy]. split.
  - destruct (H e (or_introl eq_refl)) as [->|[->| ->]]; exact Logic.I.
  - destruct (uart_step u e); [|exact Logic.I]. apply IH. intros; apply H; now right.
Qed.

Definition hw_ev (e : uart_event) : Prop := e = UByte \/ e = UDmaIrq \/ e = UTcIrq true.

(** One complete transfer from a DMA state. *)
Lemma finish_dma u k n : uinv u false -> ua_hw u = TxDma k n ->
  exists tr u', (forall e, In e tr -> hw_ev e) /\ uart_run u tr = Some u' /\ uinv u' false /\ ua_hw u' = TxLast /\
    ua_pend u' = ua_pend u /\ ua_ok u' = ua_ok u /\ ua_call u' = None.
Proof.
  intros I H. pose proof (ui_dma _ _ I k n H) as D.
  assert (C : ua_call u = None /\ ua_masked u = false).
  { pose proof (ui_call _ _ I) as C. destruct (ua_call u) as [[? ?]|]; [destruct C; discriminate|tauto]. }
  destruct (bytes_run (n - k) u n (ui_len _ _ I)) as (u1 & R & H1 & P1 & C1 & O1 & M1); [rewrite H; f_equal; lia|lia|].
  set (tr := repeat UByte (n - k) ++ [UDmaIrq]).
  assert (E : forall e, In e tr -> hw_ev e).
  { intros e He. apply in_app_or in He. destruct He as [He|[<-|[]]]; [apply repeat_spec in He; subst; now left|right; now left]. }
  assert (R2 : uart_run u tr = Some (mkUart (ua_busy u1) (ua_pend u1) (ua_buf u1) TxLast (ua_masked u1) (ua_call u1) (ua_wire u1) (ua_ok u1))).
  { unfold tr. rewrite uart_run_app, R. cbn [uart_run uart_step]. unfold hw_dma_irq. rewrite H1, Nat.eqb_refl, M1.
    destruct C as [_ ->]. reflexivity. }
  exists tr. eexists. split; [exact E|]. split; [exact R2|].
  destruct (hw_clean tr E) as [Cl _]. pose proof (hw_roomy tr u E) as Ro.
  destruct (uinv_run tr u false _ I Cl Ro R2) as [ins I2].
  assert (ins = false).
  { pose proof (ui_call _ _ I2) as X. cbn [ua_call] in X. destruct C as [C0 _]. rewrite C1, C0 in X. tauto. }
  subst ins. split; [exact I2|]. cbn. destruct C as [Cn _]. rewrite C1, Cn. auto.
Qed.

Lemma finish_last u : uinv u false -> ua_hw u = TxLast -> ua_call u = None ->
  exists u', uart_run u [UTcIrq true] = Some u' /\ uinv u' false /\ ua_pend u' = [] /\ ua_ok u' = ua_ok u /\
    ua_call u' = None /\ (ua_hw u' = TxIdle \/ exists k n, ua_hw u' = TxDma k n).
Proof.
  intros I H C.
  assert (S1 : exists u', uart_step u (UTcIrq true) = Some u' /\ ua_pend u' = [] /\ ua_ok u' = ua_ok u /\ ua_call u' = None /\
     (ua_hw u' = TxIdle \/ exists k n, ua_hw u' = TxDma k n)).
  { cbn [uart_step]. unfold hw_tc_irq. rewrite H. destruct (ua_pend u) as [|x p] eqn:Ep.
    - eexists. split; [reflexivity|]. cbn. auto.
    - rewrite <- Ep. cbn [stream_recv]. pose proof (ui_pend _ _ I) as P. pose proof (ui_len _ _ I) as L.
      assert (F : firstn UART_MAX_DMA_LEN (ua_pend u) = ua_pend u) by (apply firstn_all2; unfold UART_MAX_DMA_LEN; lia).
      assert (K : skipn UART_MAX_DMA_LEN (ua_pend u) = []) by (apply skipn_all2; unfold UART_MAX_DMA_LEN; lia).
      rewrite F, K, wr_block_0 by lia. cbn [Transmit_DMA negb]. rewrite orb_false_r.
      destruct (Nat.eqb_spec (length (ua_pend u)) 0) as [Z0|Z0]; [rewrite Ep in Z0; discriminate|].
      eexists. split; [reflexivity|]. cbn. eauto 10. }
  destruct S1 as (u' & S1 & P & O & C' & Hh). exists u'. cbn [uart_run]. rewrite S1. split; [reflexivity|].
  split; [|auto]. apply (uinv_step u false (UTcIrq true) u' I); [cbn; auto| |exact S1].
  cbn [roomy]. rewrite S1. auto.
Qed.

Lemma drains u : uinv u false ->
  exists tr u', (forall e, In e tr -> hw_ev e) /\ uart_run u tr = Some u' /\ ua_hw u' = TxIdle /\
    ua_pend u' = [] /\ ua_wire u' = concat (ua_ok u) /\ ua_ok u' = ua_ok u.
Proof.
  (* at most: finish current DMA, TC, finish pending DMA, TC *)
  assert (Idle : forall u, uinv u false -> ua_hw u = TxIdle -> ua_wire u = concat (ua_ok u) /\ ua_pend u = []).
  { intros v I H. pose proof (ui_sum _ _ I) as S. rewrite (ui_idle _ _ I H) in S. unfold in_flight in S. rewrite H in S.
    cbn in S. rewrite app_nil_r in S. split; [exact S|exact (ui_idle _ _ I H)]. }
  assert (Last0 : forall u, uinv u false -> ua_hw u = TxLast -> ua_pend u = [] -> ua_call u = None ->
    exists tr u', (forall e, In e tr -> hw_ev e) /\ uart_run u tr = Some u' /\ ua_hw u' = TxIdle /\
      ua_pend u' = [] /\ ua_wire u' = concat (ua_ok u) /\ ua_ok u' = ua_ok u).
  { intros v I H P C. destruct (finish_last v I H C) as (v' & R & I' & P' & O & _ & _).
    assert (H' : ua_hw v' = TxIdle).
    { cbn [uart_run uart_step] in R. unfold hw_tc_irq in R. rewrite H, P in R. now injection R as <-. }
    exists [UTcIrq true], v'. split; [intros e [<-|[]]; right; now right|]. split; [exact R|]. split; [exact H'|].
    destruct (Idle v' I' H') as [W _]. rewrite W, O. auto. }
  assert (Last : forall u, uinv u false -> ua_hw u = TxLast -> ua_call u = None ->
    exists tr u', (forall e, In e tr -> hw_ev e) /\ uart_run u tr = Some u' /\ ua_hw u' = TxIdle /\
      ua_pend u' = [] /\ ua_wire u' = concat (ua_ok u) /\ ua_ok u' = ua_ok u).
  { intros v I H C. destruct (finish_last v I H C) as (v1 & R1 & I1 & P1 & O1 & C1 & [H1|(k & n & H1)]).
    - exists [UTcIrq true], v1. split; [intros e [<-|[]]; right; now right|]. split; [exact R1|]. split; [exact H1|].
      destruct (Idle v1 I1 H1) as [W _]. rewrite W, O1. auto.
    - destruct (finish_dma v1 k n I1 H1) as (t2 & v2 & E2 & R2 & I2 & H2 & P2 & O2 & C2).
      destruct (Last0 v2 I2 H2) as (t3 & v3 & E3 & R3 & H3 & P3 & W3 & O3); [congruence|exact C2|].
      exists ([UTcIrq true] ++ t2 ++ t3), v3. split.
      { intros e He. apply in_app_or in He. destruct He as [[<-|[]]|He]; [right; now right|].
        apply in_app_or in He. destruct He; auto. }
      split; [rewrite uart_run_app, R1, uart_run_app, R2; exact R3|]. rewrite W3, O3, O2, O1. auto. }
  intros I. destruct (ua_hw u) as [|k n|] eqn:H.
  - exists [], u. split; [intros e []|]. destruct (Idle u I H). auto 10.
  - destruct (finish_dma u k n I H) as (t2 & v2 & E2 & R2 & I2 & H2 & P2 & O2 & C2).
    destruct (Last v2 I2 H2 C2) as (t3 & v3 & E3 & R3 & H3 & P3 & W3 & O3).
    exists (t2 ++ t3), v3. split; [intros e He; apply in_app_or in He; destruct He; auto|].
    split; [rewrite uart_run_app, R2; exact R3|]. rewrite W3, O3, O2. auto.
  - apply Last; auto. pose proof (ui_call _ _ I) as C. destruct (ua_call u) as [[? ?]|]; [destruct C; discriminate|reflexivity].
Qed.

(** Bounds, for every history. *)
Record ubound (u : uart) : Prop := {
  ub_len : length (ua_buf u) = 512%nat;
  ub_pend : (length (ua_pend u) <= 511)%nat;
  ub_dma : forall k n, ua_hw u = TxDma k n -> (k <= n <= 512)%nat;
  ub_call : forall d s, ua_call u = Some (d, s) -> (0 < length d <= 512)%nat }.

Lemma ubound_init : ubound uart_init.
Proof.
  split; try discriminate; [reflexivity|]. cbn [ua_pend uart_init length]. lia.
Qed.

Lemma transmit_bound hw n ok hw' r : Transmit_DMA hw n ok = (hw', r) -> (n <= 512)%nat ->
  (forall k m, hw = TxDma k m -> (k <= m <= 512)%nat) -> forall k m, hw' = TxDma k m -> (k <= m <= 512)%nat.
Proof.
  intros T Hn H k m E. unfold Transmit_DMA in T. destruct hw.
  - destruct (_ || _); injection T as <- <-; [discriminate|]. injection E as <- <-. lia.
  - injection T as <- <-. apply (H k m E).
  - injection T as <- <-. discriminate.
Qed.

Lemma ubound_step u e : ubound u -> messages_fit [e] -> exists u', uart_step u e = Some u' /\ ubound u'.
Proof.
  intros I0 F. pose proof I0 as [L P D C]. destruct e as [d|ok| | |ok|]; cbn [uart_step].
  - eexists. split; [reflexivity|]. unfold send_begin. destruct (ua_call u) as [x|] eqn:E.
    + exact I0.
    + split; cbn; auto. intros d' s [= <- <-]. apply (F d). now left.
  - unfold send_end. destruct (ua_call u) as [[d [|]]|] eqn:E.
    + pose proof (C d true eq_refl) as Ld. rewrite stream_send_checked_ok by (intros ->; cbn in Ld; lia).
      eexists. split; [reflexivity|]. split; cbn [ua_buf ua_pend ua_hw ua_call]; auto; try discriminate.
      unfold stream_send, TX_PENDING_CAP. rewrite app_length, firstn_length. lia.
    + pose proof (C d false eq_refl) as Ld. rewrite wr_block_0 by lia.
      destruct (Transmit_DMA (ua_hw u) (length d) ok) as [hw r] eqn:T.
      eexists. split; [reflexivity|]. split; cbn [ua_buf ua_pend ua_hw ua_call]; auto; try discriminate.
      * rewrite overwritten_length; lia.
      * intros k n. apply (transmit_bound _ _ _ _ _ T (proj2 Ld) D).
    + exists u. split; [reflexivity|exact I0].
  - unfold hw_byte. destruct (ua_hw u) as [|k n|] eqn:H; try (exists u; split; [reflexivity|exact I0]).
    destruct (Nat.ltb_spec k n); [|exists u; split; [reflexivity|exact I0]].
    destruct (D k n eq_refl). destruct (rd_nat (ua_buf u) k) as (b & Rb & _); [lia|]. rewrite Rb.
    eexists. split; [reflexivity|]. split; cbn [ua_buf ua_pend ua_hw ua_call]; auto. intros k' n' [= <- <-]. lia.
  - eexists. split; [reflexivity|]. unfold hw_dma_irq. destruct (ua_hw u) as [|k n|] eqn:H; try exact I0.
    destruct (_ && _); [|exact I0]. split; cbn [ua_buf ua_pend ua_hw ua_call]; auto; discriminate.
  - unfold hw_tc_irq. destruct (ua_hw u) as [|k n|] eqn:H; try (exists u; split; [reflexivity|exact I0]).
    destruct (ua_pend u) as [|x p] eqn:Ep.
    + eexists. split; [reflexivity|]. split; cbn [ua_buf ua_pend ua_hw ua_call]; auto; discriminate.
    + rewrite <- Ep. cbn [stream_recv].
      assert (B : (length (firstn UART_MAX_DMA_LEN (ua_pend u)) <= 512)%nat) by (rewrite firstn_length; unfold UART_MAX_DMA_LEN; lia).
      rewrite wr_block_0 by lia. destruct (Transmit_DMA TxIdle _ ok) as [hw r] eqn:T.
      eexists. split; [reflexivity|]. split; cbn [ua_buf ua_pend ua_hw ua_call]; auto.
      * rewrite overwritten_length; lia.
      * rewrite skipn_length, Ep. lia.
      * intros k n. apply (transmit_bound _ _ _ _ _ T B). discriminate.
  - eexists. split; [reflexivity|]. split; cbn; auto.
Qed.

Lemma ubound_run : forall tr u, ubound u -> messages_fit tr -> exists u', uart_run u tr = Some u' /\ ubound u'.
Proof.
  induction tr as [|e tr IH]; intros u B F; [exists u; auto|]. cbn [uart_run].
  destruct (ubound_step u e B) as (u1 & -> & B1); [intros d [H|[]]; apply F; now left|].
  apply IH; [exact B1|]. intros d H. apply F. now right.
Qed.

(** ** Receive side *)
Definition rx_inv (r : uart_rx) (cur : list Z) : Prop :=
  length (rx_buf r) = 512%nat /\ rx_pos r = length cur /\ firstn (length cur) (rx_buf r) = cur.

Lemma rx_byte_spec r cur b : rx_inv r cur -> (length cur < 512)%nat ->
  exists r', rx_byte r b = Some r' /\ rx_inv r' (cur ++ [b]) /\ rx_sb r' = rx_sb r /\
    rx_half r' = (rx_half r || (S (length cur) =? 256)%nat) /\ rx_full r' = (rx_full r || (S (length cur) =? 512)%nat).
Proof.
  intros (L & P & F) H. unfold rx_byte. rewrite P. unfold UART_MAX_DMA_LEN.
  destruct (Nat.ltb_spec (length cur) 512); [|lia].
  assert (Eb : rx_buf r = cur ++ skipn (length cur) (rx_buf r)).
  { rewrite <- F at 1. symmetry. apply firstn_skipn. }
  assert (K : length (skipn (length cur) (rx_buf r)) = (512 - length cur)%nat) by (rewrite skipn_length, L; reflexivity).
  destruct (skipn (length cur) (rx_buf r)) as [|x t] eqn:E; [cbn [length] in K; lia|].
  rewrite Eb, wr_mid by reflexivity. eexists. split; [reflexivity|]. split; [|cbn; auto].
  unfold rx_inv. cbn [rx_buf rx_pos]. rewrite !app_length. cbn [length] in *. split; [lia|]. split; [lia|].
  change (cur ++ b :: t) with (cur ++ [b] ++ t). rewrite app_assoc, firstn_app, app_length. cbn [length].
  rewrite Nat.sub_diag, firstn_O, app_nil_r. apply firstn_all2. rewrite app_length. simpl. lia.
Qed.

Lemma callback_spec cap r cur size restarts : rx_inv r cur -> (size <= length cur)%nat -> (length cur <= 512)%nat ->
  RxEventCallback cap r size restarts =
    Some (if restarts then mkRx (rx_buf r) 0 false false (stream_send cap (rx_sb r) (firstn size cur))
          else mkRx (rx_buf r) (rx_pos r) (rx_half r) (rx_full r) (stream_send cap (rx_sb r) (firstn size cur))).
Proof.
  intros (L & P & F) H H2. unfold RxEventCallback, rd_block.
  destruct (Z.leb_spec 0 0); [|lia]. destruct (Z.leb_spec 0 (Z.of_nat size)); [|lia].
  destruct (Z.leb_spec (0 + Z.of_nat size) (Z.of_nat (length (rx_buf r)))); [|lia]. cbn [andb].
  change (Z.to_nat 0) with 0%nat. cbn [skipn]. rewrite Nat2Z.id.
  replace (firstn size (rx_buf r)) with (firstn size cur).
  - destruct restarts; reflexivity.
  - rewrite <- F, firstn_firstn. f_equal. lia.
Qed.

Lemma rx_inv_restart b h f s : length b = 512%nat -> rx_inv (mkRx b 0 h f s) [].
Proof. intros. repeat split; auto. Qed.

(** Short bursts: what was delivered and what is in the buffer is what arrived. *)
Lemma rx_short cap : forall tr r cur sent, rx_inv r cur -> (length cur < 256)%nat ->
  rx_half r = false -> rx_full r = false -> short_bursts (length cur) tr ->
  (forall n, ~ In (RTake n) tr) ->
  rx_sb r = sent -> (length sent + length cur + length (arrived tr) <= cap)%nat ->
  exists r' cur', rx_run cap r tr = Some r' /\ rx_inv r' cur' /\ (length cur' < 256)%nat /\
    rx_sb r' ++ cur' = sent ++ cur ++ arrived tr.
Proof.
  induction tr as [|e tr IH]; intros r cur sent I Lc Hh Hf Sb NT Es Cap.
  - exists r, cur. cbn [rx_run arrived flat_map]. rewrite app_nil_r, Es. auto.
  - assert (NT' : forall n, ~ In (RTake n) tr) by (intros n Hn; apply (NT n); now right).
    destruct e as [b| | | |n]; cbn [rx_run rx_step].
    + cbn [short_bursts] in Sb. destruct Sb as [S1 S2].
      destruct (rx_byte_spec r cur b I) as (r1 & E1 & I1 & B1 & H1 & F1); [lia|]. rewrite E1.
      rewrite Hh in H1. rewrite Hf in F1.
      destruct (IH r1 (cur ++ [b]) sent I1) as (r2 & c2 & R2 & I2 & L2 & Q2).
      * rewrite app_length. simpl. lia.
      * rewrite H1. destruct (Nat.eqb_spec (S (length cur)) 256); [lia|reflexivity].
      * rewrite F1. destruct (Nat.eqb_spec (S (length cur)) 512); [lia|reflexivity].
      * rewrite app_length. cbn [length]. now rewrite Nat.add_1_r.
      * exact NT'.
      * congruence.
      * cbn [arrived flat_map app] in Cap. rewrite app_length. cbn [length] in *. fold (arrived tr) in Cap. lia.
      * exists r2, c2. split; [exact R2|]. split; [exact I2|]. split; [exact L2|]. rewrite Q2, <- app_assoc. reflexivity.
    + unfold rx_half_irq. rewrite Hh. apply IH; auto.
    + unfold rx_full_irq, rx_half_irq. rewrite Hh, Hf. apply IH; auto.
    + unfold rx_idle_irq, UART_MAX_DMA_LEN. rewrite (proj1 (proj2 I)).
      destruct (Nat.ltb_spec 0 (length cur)) as [L0|L0].
      * destruct (Nat.ltb_spec (length cur) 512); [|lia]. cbn [andb].
        rewrite (callback_spec cap r cur (length cur) true I) by lia. rewrite firstn_all.
        assert (X : stream_send cap (rx_sb r) cur = sent ++ cur).
        { unfold stream_send. rewrite Es. f_equal. apply firstn_all2. lia. }
        rewrite X. edestruct (IH (mkRx (rx_buf r) 0 false false (sent ++ cur)) [] (sent ++ cur)) as (r2 & c2 & R2 & I2 & L2 & Q2).
        -- apply rx_inv_restart. apply I.
        -- cbn [length]. lia.
        -- reflexivity.
        -- reflexivity.
        -- exact Sb.
        -- exact NT'.
        -- reflexivity.
        -- rewrite app_length. cbn [length]. cbn [arrived flat_map app] in Cap. fold (arrived tr) in Cap. lia.
        -- exists r2, c2. split; [exact R2|]. split; [exact I2|]. split; [exact L2|].
           rewrite Q2. cbn [app arrived flat_map]. now rewrite <- app_assoc.
      * cbn [andb]. assert (cur = []) by (destruct cur; [reflexivity|simpl in L0; lia]). subst cur.
        apply IH; auto.
    + exfalso. apply (NT n). now left.
Qed.

(** One burst of bytes. *)
Lemma rx_burst cap : forall bs r cur, rx_inv r cur -> (length cur + length bs < 512)%nat ->
  exists r', rx_run cap r (map RByte bs) = Some r' /\ rx_inv r' (cur ++ bs) /\ rx_sb r' = rx_sb r /\
    rx_full r' = rx_full r /\
    rx_half r' = (rx_half r || ((length cur <? 256)%nat && (256 <=? length cur + length bs)%nat)).
Proof.
  induction bs as [|b bs IH]; intros r cur I H.
  - exists r. cbn [map rx_run length]. rewrite app_nil_r. split; [reflexivity|]. split; [exact I|]. do 2 (split; [reflexivity|]).
    destruct (Nat.ltb_spec (length cur) 256), (Nat.leb_spec 256 (length cur + 0)); cbn; try lia; now rewrite orb_false_r.
  - cbn [map rx_run rx_step]. cbn [length] in H.
    destruct (rx_byte_spec r cur b I) as (r1 & E1 & I1 & B1 & H1 & F1); [lia|]. rewrite E1.
    destruct (IH r1 (cur ++ [b]) I1) as (r2 & R2 & I2 & B2 & F2 & H2); [rewrite app_length; simpl; lia|].
    exists r2. split; [exact R2|]. rewrite <- app_assoc in I2. split; [exact I2|].
    split; [congruence|]. split.
    + rewrite F2, F1. destruct (Nat.eqb_spec (S (length cur)) 512); [lia|]. apply orb_false_r.
    + rewrite H2, H1, <- orb_assoc. f_equal. rewrite app_length. cbn [length].
      destruct (Nat.eqb_spec (S (length cur)) 256), (Nat.ltb_spec (length cur + 1) 256), (Nat.ltb_spec (length cur) 256),
        (Nat.leb_spec 256 (length cur + 1 + length bs)), (Nat.leb_spec 256 (length cur + S (length bs))); cbn; lia.
Qed.

Lemma rx_run_app cap : forall a r b, rx_run cap r (a ++ b) =
  match rx_run cap r a with Some r' => rx_run cap r' b | None => None end.
Proof.
  induction a as [|e a IH]; intros r b; [reflexivity|]. cbn [app rx_run].
  destruct (rx_step cap r e); auto.
Qed.

(** ** Bursts of any length, served promptly *)
Lemma prompt_quiet : forall l n, ((n + length l < 256) \/ (256 <= n /\ n + length l < 512))%nat ->
  prompt n l = map RByte l ++ [RIdle].
Proof.
  induction l as [|b l IH]; intros n H; [reflexivity|]. cbn [prompt map app length] in *.
  destruct (Nat.eqb_spec (S n) 256); [lia|]. destruct (Nat.eqb_spec (S n) 512); [lia|]. rewrite IH by lia. reflexivity.
Qed.
Lemma prompt_half : forall a n rest, (n + length a = 256)%nat -> a <> [] ->
  prompt n (a ++ rest) = map RByte a ++ RHalf :: prompt 256 rest.
Proof.
  induction a as [|b a IH]; intros n rest H N; [now elim N|]. cbn [prompt map app length] in *.
  destruct (Nat.eqb_spec (S n) 256) as [E|E].
  - destruct a; [|cbn [length] in H; lia]. rewrite E. reflexivity.
  - destruct (Nat.eqb_spec (S n) 512); [lia|]. rewrite IH; [reflexivity|lia|]. destruct a; [cbn [length] in H; lia|discriminate].
Qed.
Lemma prompt_full : forall a n rest, (n + length a = 512)%nat -> (256 <= n)%nat -> a <> [] ->
  prompt n (a ++ rest) = map RByte a ++ RFull :: prompt 0 rest.
Proof.
  induction a as [|b a IH]; intros n rest H N0 N; [now elim N|]. cbn [prompt map app length] in *.
  destruct (Nat.eqb_spec (S n) 256) as [E|E]; [lia|].
  destruct (Nat.eqb_spec (S n) 512) as [E2|E2].
  - destruct a; [|cbn [length] in H; lia]. reflexivity.
  - rewrite IH; [reflexivity|lia|lia|]. destruct a; [cbn [length] in H; lia|discriminate].
Qed.

Definition rx_rest (r : uart_rx) (cur s : list Z) : Prop :=
  rx_inv r cur /\ rx_half r = false /\ rx_full r = false /\ rx_sb r = s.

Lemma send_fits cap s d : (length s + length d <= cap)%nat -> stream_send cap s d = s ++ d.
Proof. intros H. unfold stream_send. rewrite firstn_all2 by lia. reflexivity. Qed.

Lemma rx_inv_len r cur : rx_inv r cur -> length (rx_buf r) = 512%nat.
Proof. intros (L & _). exact L. Qed.

(** The first half and its interrupt. *)
Lemma serve_half cap r s a : rx_rest r [] s -> length a = 256%nat -> (length s + 256 <= cap)%nat ->
  exists r', rx_run cap r (map RByte a ++ [RHalf]) = Some r' /\ rx_rest r' a (s ++ a).
Proof.
  intros (I & Hh & Hf & Hs) La Cap.
  destruct (rx_burst cap a r [] I) as (r1 & R1 & I1 & B1 & F1 & H1); [cbn [length]; lia|].
  rewrite rx_run_app, R1. cbn [rx_run rx_step]. unfold rx_half_irq. rewrite H1, Hh, La. cbn [length app orb].
  destruct (Nat.ltb_spec 0 256); [|lia]. destruct (Nat.leb_spec 256 (0 + 256)); [|lia]. cbn [andb].
  assert (I1' : rx_inv (mkRx (rx_buf r1) (rx_pos r1) false (rx_full r1) (rx_sb r1)) a) by exact I1.
  rewrite (callback_spec cap _ a 256 false I1') by lia. cbn [rx_buf rx_pos rx_half rx_full rx_sb].
  eexists. split; [reflexivity|]. split; [exact I1|]. split; [reflexivity|]. split; [cbn [rx_full]; congruence|].
  cbn [rx_sb]. rewrite B1, Hs. rewrite (firstn_all2 a) by lia. apply send_fits. lia.
Qed.

(** The end of a burst of less than 512 bytes. *)
Lemma serve_idle cap r s cur b : rx_rest r cur s ->
  ((length cur = 0 /\ length b < 256) \/ (length cur = 256 /\ length b < 256))%nat ->
  (length s + length cur + length b <= cap)%nat ->
  exists r', rx_run cap r (map RByte b ++ [RIdle]) = Some r' /\ rx_rest r' [] (s ++ cur ++ b).
Proof.
  intros (I & Hh & Hf & Hs) Lc Cap.
  destruct (rx_burst cap b r cur I) as (r1 & R1 & I1 & B1 & F1 & H1); [lia|].
  rewrite rx_run_app, R1. cbn [rx_run rx_step]. unfold rx_idle_irq, UART_MAX_DMA_LEN.
  rewrite (proj1 (proj2 I1)), app_length.
  destruct (Nat.ltb_spec 0 (length cur + length b)).
  - destruct (Nat.ltb_spec (length cur + length b) 512); [|lia]. cbn [andb].
    rewrite <- app_length, (callback_spec cap r1 (cur ++ b) _ true I1) by (rewrite ?app_length; lia).
    eexists. split; [reflexivity|]. split; [apply rx_inv_restart, (rx_inv_len _ _ I1)|].
    split; [reflexivity|]. split; [reflexivity|]. cbn [rx_sb]. rewrite firstn_all, B1, Hs. apply send_fits. rewrite app_length. lia.
  - cbn [andb]. destruct cur; [|cbn [length] in *; lia]. destruct b; [|cbn [length] in *; lia].
    eexists. split; [reflexivity|]. split; [exact I1|].
    split; [rewrite H1, Hh; reflexivity|]. split; [congruence|]. rewrite B1, Hs. now rewrite app_nil_r.
Qed.

(** The second half and its interrupt. *)
Lemma serve_full cap r s a b : rx_rest r a s -> length a = 256%nat -> length b = 256%nat ->
  (length s + 512 <= cap)%nat ->
  exists r', rx_run cap r (map RByte b ++ [RFull]) = Some r' /\ rx_rest r' [] (s ++ a ++ b).
Proof.
  intros (I & Hh & Hf & Hs) La Lb Cap.
  destruct (exists_last (l := b)) as (b1 & x & ->); [intros ->; discriminate|].
  rewrite app_length in Lb. cbn [length] in Lb.
  destruct (rx_burst cap b1 r a I) as (r1 & R1 & I1 & B1 & F1 & H1); [lia|].
  destruct (rx_byte_spec r1 (a ++ b1) x I1) as (r2 & R2 & I2 & B2 & H2 & F2); [rewrite app_length; lia|].
  rewrite map_app, <- app_assoc, rx_run_app, R1. cbn [map app rx_run rx_step]. rewrite R2.
  assert (HH : rx_half r2 = false).
  { rewrite H2, H1, Hh, app_length. destruct (Nat.ltb_spec (length a) 256); [lia|]. cbn [andb orb].
    apply Nat.eqb_neq. lia. }
  assert (FF : rx_full r2 = true).
  { rewrite F2, F1, Hf, app_length. cbn [orb]. apply Nat.eqb_eq. lia. }
  unfold rx_full_irq, rx_half_irq. rewrite HH. cbv beta iota. rewrite FF.
  rewrite <- app_assoc in I2.
  assert (L2 : length (a ++ b1 ++ [x]) = 512%nat) by (rewrite !app_length; cbn [length]; lia).
  rewrite (callback_spec cap r2 (a ++ b1 ++ [x]) 512 true I2) by lia.
  eexists. split; [reflexivity|]. split; [apply rx_inv_restart, (rx_inv_len _ _ I2)|].
  split; [reflexivity|]. split; [reflexivity|]. cbn [rx_sb]. rewrite firstn_all2 by lia.
  rewrite B2, B1, Hs. apply send_fits. lia.
Qed.

Lemma serve_burst cap : forall l out, delivered l out -> forall r s, rx_rest r [] s ->
  (length s + length out <= cap)%nat ->
  exists r', rx_run cap r (prompt 0 l) = Some r' /\ rx_rest r' [] (s ++ out).
Proof.
  induction 1 as [l L|a b La Lb|a b rest out La Lb D IH]; intros r s R Cap.
  - rewrite prompt_quiet by lia. exact (serve_idle cap r s [] l R ltac:(cbn [length]; lia) ltac:(cbn [length]; lia)).
  - rewrite !app_length in Cap. rewrite prompt_half; [|lia|intros ->; discriminate].
    rewrite prompt_quiet by lia.
    destruct (serve_half cap r s a R La) as (r1 & R1 & I1); [lia|].
    destruct (serve_idle cap r1 (s ++ a) a b I1) as (r2 & R2 & I2); [lia|rewrite app_length; lia|].
    exists r2. split; [|now rewrite <- app_assoc in I2].
    change (RHalf :: map RByte b ++ [RIdle]) with ([RHalf] ++ map RByte b ++ [RIdle]).
    rewrite app_assoc, rx_run_app, R1. exact R2.
  - rewrite !app_length in Cap. rewrite prompt_half; [|lia|intros ->; discriminate].
    rewrite prompt_full; [|lia|lia|intros ->; discriminate].
    destruct (serve_half cap r s a R La) as (r1 & R1 & I1); [lia|].
    destruct (serve_full cap r1 (s ++ a) a b I1 La Lb) as (r2 & R2 & I2); [rewrite app_length; lia|].
    destruct (IH r2 _ I2) as (r3 & R3 & I3); [rewrite !app_length; lia|].
    exists r3. split; [|now rewrite <- !app_assoc in I3].
    change (RHalf :: map RByte b ++ RFull :: prompt 0 rest) with ([RHalf] ++ map RByte b ++ [RFull] ++ prompt 0 rest).
    rewrite app_assoc, rx_run_app, R1. rewrite app_assoc, rx_run_app, R2. exact R3.
Qed.

Lemma delivered_total : forall n l, (length l <= n)%nat -> exists out, delivered l out.
Proof.
  induction n as [n IH] using lt_wf_ind. intros l L.
  destruct (Nat.lt_ge_cases (length l) 256) as [H|H]; [exists l; now constructor|].
  pose proof (firstn_skipn 256 l) as E1. set (a := firstn 256 l) in *. set (t := skipn 256 l) in *.
  assert (La : length a = 256%nat) by (apply firstn_length_le; lia).
  assert (Lt : length t = (length l - 256)%nat) by apply skipn_length.
  destruct (Nat.lt_ge_cases (length t) 256) as [H2|H2]; [exists (a ++ a ++ t); rewrite <- E1; now constructor|].
  pose proof (firstn_skipn 256 t) as E2. set (b := firstn 256 t) in *. set (rest := skipn 256 t) in *.
  assert (Lb : length b = 256%nat) by (apply firstn_length_le; lia).
  destruct (IH (length rest) ltac:(unfold rest; rewrite skipn_length; lia) rest ltac:(lia)) as (out & D).
  exists (a ++ a ++ b ++ out). rewrite <- E1, <- E2. now constructor.
Qed.

Lemma serve_bursts cap : forall bursts outs, Forall2 delivered bursts outs -> forall r s, rx_rest r [] s ->
  (length s + length (concat outs) <= cap)%nat ->
  exists r', rx_run cap r (flat_map (prompt 0) bursts) = Some r' /\ rx_rest r' [] (s ++ concat outs).
Proof.
  induction 1 as [|l out bursts outs D F IH]; intros r s R Cap; cbn [flat_map concat] in *.
  - exists r. rewrite app_nil_r. auto.
  - rewrite app_length in Cap. destruct (serve_burst cap l out D r s R) as (r1 & R1 & I1); [lia|].
    destruct (IH r1 _ I1) as (r2 & R2 & I2); [rewrite app_length; lia|].
    exists r2. rewrite rx_run_app, R1. split; [exact R2|now rewrite <- app_assoc in I2].
Qed.
