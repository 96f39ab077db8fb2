From Verif.Model Require Import SerialDma.
From Verif.Spec Require Import BringUpSpec SerialDmaSpec.
From Verif.Proof Require Import BringUpProof.
From Coq Require Import Lia ZifyBool ZifyNat.

Lemma serves_intended p : serves (dma_intended (tx_stream p)) p true = true /\ serves (dma_intended (rx_stream p)) p false = true.
Proof. destruct p; split; reflexivity. Qed.
Lemma serves_reset p d : serves dma_reset p d = false.
Proof. destruct p, d; reflexivity. Qed.

Lemma split_first (x : mx) l : In x l -> exists a b, l = a ++ x :: b /\ ~ In x a.
Proof.
  induction l as [|y l IH]; intros I; [destruct I|].
  destruct (mx_eq_dec y x) as [->|N]; [exists [], l; split; [reflexivity|intros []]|].
  destruct I as [I|I]; [congruence|]. destruct (IH I) as (a & b & -> & NI).
  exists (y :: a), b. split; [reflexivity|]. intros [X|X]; [congruence|auto].
Qed.

Lemma streams_no_dma order s : ~ In MX_DMA order -> hw_stream (bring_up order) s = dma_reset.
Proof.
  induction order as [|f order IH] using rev_ind; intros N; [reflexivity|].
  assert (N' : ~ In MX_DMA order) by (intros X; apply N, in_or_app; now left).
  rewrite bring_up_snoc. destruct (proj2 (dma_on_iff order) N') as [D1 D2].
  rewrite run_streams_off by assumption. now apply IH.
Qed.

Lemma setup_streams f p : In (tx_stream p) (streams_of f) \/ In (rx_stream p) (streams_of f) -> f = setup_of p.
Proof. destruct f, p; cbn; intuition discriminate. Qed.

(** What the two streams of a port hold. *)
Lemma port_streams order p :
  (set_up_after_dma order p ->
     hw_stream (bring_up order) (tx_stream p) = dma_intended (tx_stream p) /\
     hw_stream (bring_up order) (rx_stream p) = dma_intended (rx_stream p)) /\
  (~ set_up_after_dma order p ->
     hw_stream (bring_up order) (tx_stream p) = dma_reset /\ hw_stream (bring_up order) (rx_stream p) = dma_reset).
Proof.
  destruct (mx_in_dec MX_DMA order) as [I|I].
  - destruct (split_first MX_DMA order I) as (a & b & -> & N).
    assert (IFF : set_up_after_dma (a ++ MX_DMA :: b) p <-> In (setup_of p) b).
    { split.
      - intros (a' & b' & E & I').
        assert (G : forall a a' b b' : list mx, a ++ MX_DMA :: b = a' ++ setup_of p :: b' -> In MX_DMA a' -> ~ In MX_DMA a -> In (setup_of p) b).
        { clear. induction a as [|x a IH]; intros a' b b' E I N; destruct a' as [|y a']; cbn in *; try tauto.
          - injection E as <- ->. apply in_or_app. right. now left.
          - injection E as <- E. apply (IH a' b b' E); tauto. }
        exact (G a a' b b' E I' N).
      - intros H. destruct (split_first (setup_of p) b H) as (c & d & -> & _).
        exists (a ++ MX_DMA :: c), d. split; [now rewrite <- app_assoc|]. apply in_or_app. right. now left. }
    rewrite IFF, !streams_after by exact N. split; intros H.
    + assert (X : forall s, In s (streams_of (setup_of p)) ->
        existsb (fun f => existsb (stream_beq s) (streams_of f)) b = true).
      { intros s HS. apply existsb_exists. exists (setup_of p). split; [exact H|]. now apply beq_in. }
      split; rewrite X; try reflexivity; destruct p; cbn; tauto.
    + assert (X : forall s, s = tx_stream p \/ s = rx_stream p ->
        existsb (fun f => existsb (stream_beq s) (streams_of f)) b = false).
      { intros s HS. destruct (existsb _ b) eqn:E; [exfalso|reflexivity]. apply existsb_exists in E.
        destruct E as (f & F & E). apply beq_in in E. apply H. rewrite <- (setup_streams f p); [exact F|].
        destruct HS as [<-|<-]; auto. }
      split; rewrite X; auto.
  - split.
    + intros (a & b & -> & J). elim I. apply in_or_app. now left.
    + intros _. split; now apply streams_no_dma.
Qed.

Lemma tx_run_same h p tr : serves (hw_stream h (tx_stream p)) p true = true ->
  forall u, serial_tx_run h p u tr = uart_run u tr.
Proof.
  intros S. induction tr as [|e tr IH]; intros u; [reflexivity|]. cbn [serial_tx_run uart_run].
  replace (serial_tx_step h p u e) with (uart_step u e) by (destruct e; cbn [serial_tx_step]; rewrite ?S; reflexivity).
  destruct (uart_step u e); [apply IH|reflexivity].
Qed.
Lemma rx_run_same h p cap tr : serves (hw_stream h (rx_stream p)) p false = true ->
  forall r, serial_rx_run h p cap r tr = rx_run cap r tr.
Proof.
  intros S. induction tr as [|e tr IH]; intros r; [reflexivity|]. cbn [serial_rx_run rx_run].
  replace (serial_rx_step h p cap r e) with (rx_step cap r e) by (destruct e; cbn [serial_rx_step]; rewrite ?S; reflexivity).
  destruct (rx_step cap r e); [apply IH|reflexivity].
Qed.

(** Without service. *)
Definition tx_dead (u : uart) : Prop :=
  ua_wire u = [] /\ match ua_hw u with TxIdle => True | TxDma k n => k = 0%nat /\ (0 < n)%nat | TxLast => False end.

Lemma transmit_dead hw n ok : match hw with TxIdle => True | TxDma k m => k = 0%nat /\ (0 < m)%nat | TxLast => False end ->
  match fst (Transmit_DMA hw n ok) with TxIdle => True | TxDma k m => k = 0%nat /\ (0 < m)%nat | TxLast => False end.
Proof.
  intros H. destruct hw; cbn [Transmit_DMA fst]; auto.
  destruct ((n =? 0)%nat || negb ok) eqn:E; cbn [fst]; [exact Logic.I|]. split; [reflexivity|].
  destruct n; [discriminate|lia].
Qed.

Lemma tx_dead_step h p u e u' :
  serves (hw_stream h (tx_stream p)) p true = false -> tx_dead u -> serial_tx_step h p u e = Some u' -> tx_dead u'.
Proof.
  intros S [W H] E. destruct e as [d|ok| | |ok|]; cbn [serial_tx_step uart_step] in E.
  - injection E as <-. unfold send_begin. destruct (ua_call u); split; auto.
  - unfold send_end in E. destruct (ua_call u) as [[d []]|].
    + destruct (stream_send_checked _ _ _) as [pe|]; [|discriminate]. injection E as <-. split; auto.
    + destruct (wr_block _ _ _) as [bf|]; [|discriminate].
      pose proof (transmit_dead (ua_hw u) (length d) ok H) as T.
      destruct (Transmit_DMA (ua_hw u) (length d) ok) as [hw o]. injection E as <-. split; auto.
    + injection E as <-. split; auto.
  - rewrite S in E. injection E as <-. split; auto.
  - injection E as <-. unfold hw_dma_irq. destruct (ua_hw u) as [|k n|] eqn:HW; [split; [exact W|rewrite HW; exact H]| |destruct H].
    destruct H as [-> N]. replace ((0 =? n)%nat) with false by lia. cbn [andb]. split; [exact W|]. rewrite HW. auto.
  - unfold hw_tc_irq in E. destruct (ua_hw u) as [|k n|] eqn:HW; [| |destruct H]; injection E as <-; (split; [exact W|]); rewrite HW; exact H.
  - injection E as <-. split; auto.
Qed.

Lemma tx_dead_run h p tr :
  serves (hw_stream h (tx_stream p)) p true = false -> forall u u', tx_dead u -> serial_tx_run h p u tr = Some u' -> tx_dead u'.
Proof.
  intros S. induction tr as [|e tr IH]; intros u u' D R; cbn [serial_tx_run] in R; [congruence|].
  destruct (serial_tx_step h p u e) as [u1|] eqn:E; [|discriminate].
  exact (IH u1 u' (tx_dead_step h p u e u1 S D E) R).
Qed.

Definition rx_dead (r : uart_rx) : Prop := rx_pos r = 0%nat /\ rx_half r = false /\ rx_full r = false /\ rx_sb r = [].
Lemma rx_dead_run h p cap tr :
  serves (hw_stream h (rx_stream p)) p false = false -> forall r r', rx_dead r -> serial_rx_run h p cap r tr = Some r' -> rx_dead r'.
Proof.
  intros S. induction tr as [|e tr IH]; intros r r' D R; cbn [serial_rx_run] in R; [congruence|].
  destruct (serial_rx_step h p cap r e) as [r1|] eqn:E; [|discriminate].
  apply (IH r1 r'); [|exact R]. clear IH R. destruct D as (P & H & F & B).
  destruct e as [b| | | |n]; cbn [serial_rx_step rx_step] in E; rewrite ?S in E.
  - injection E as <-. repeat split; auto.
  - unfold rx_half_irq in E. rewrite H in E. injection E as <-. repeat split; auto.
  - unfold rx_full_irq, rx_half_irq in E. rewrite H in E. rewrite F in E. injection E as <-. repeat split; auto.
  - unfold rx_idle_irq in E. rewrite P in E. cbn in E. injection E as <-. repeat split; auto.
  - injection E as <-. repeat split; auto. cbn [rx_sb]. rewrite B. apply skipn_nil.
Qed.
