From Verif.Model Require Import BringUp.
From Verif.Spec Require Import BringUpSpec.
From Coq Require Import Lia.

Definition run_ops (h : hw) (l : list hw_op) : hw := fold_left hw_do l h.
Lemma bring_up_snoc order f : bring_up (order ++ [f]) = run_ops (bring_up order) (mx_ops f).
Proof. unfold bring_up, run_ops. rewrite flat_map_app, fold_left_app. cbn [flat_map]. now rewrite app_nil_r. Qed.

Definition base_on (h : hw) : Prop := hw_clock h PWR = true /\ hw_clock h SYSCFG = true.
Definition dma_on (h : hw) : bool := hw_clock h DMA1 && hw_clock h DMA2.

(** One function from any state: clocks. *)
Lemma run_clock f h p :
  hw_clock (run_ops h (mx_ops f)) p =
  hw_clock h p || existsb (fun o => match o with Clk q => periph_beq p q | _ => false end) (mx_ops f).
Proof.
  assert (G : forall l h, hw_clock (run_ops h l) p =
     hw_clock h p || existsb (fun o => match o with Clk q => periph_beq p q | _ => false end) l).
  { induction l as [|o l IH]; intros k; cbn [run_ops fold_left existsb]; [now rewrite Bool.orb_false_r|].
    fold (run_ops (hw_do k o) l). rewrite IH. destruct o as [q|q|s]; cbn [hw_do].
    - cbn [hw_clock]. destruct (periph_beq p q), (hw_clock k p); reflexivity.
    - reflexivity.
    - destruct (hw_clock k (controller s)); reflexivity. }
  apply G.
Qed.

Lemma base_kept order : base_on (bring_up order).
Proof.
  induction order as [|f order IH] using rev_ind; [split; reflexivity|].
  rewrite bring_up_snoc. destruct IH as [A B]. split; rewrite run_clock, ?A, ?B; reflexivity.
Qed.

Lemma beq_refl_p p : periph_beq p p = true.
Proof. destruct p; reflexivity. Qed.

(** The DMA clocks are on exactly after MX_DMA_Init. *)
Lemma dma_on_iff order :
  (In MX_DMA order -> hw_clock (bring_up order) DMA1 = true /\ hw_clock (bring_up order) DMA2 = true) /\
  (~ In MX_DMA order -> hw_clock (bring_up order) DMA1 = false /\ hw_clock (bring_up order) DMA2 = false).
Proof.
  induction order as [|f order [IH1 IH2]] using rev_ind; [split; [intros []|split; reflexivity]|].
  rewrite bring_up_snoc, !run_clock. split; intros H.
  - apply in_app_or in H. destruct H as [H|[H|[]]].
    + destruct (IH1 H) as [-> ->]. split; reflexivity.
    + subst f. cbn. rewrite !Bool.orb_true_r. split; reflexivity.
  - assert (N : ~ In MX_DMA order) by (intros X; apply H, in_or_app; now left).
    destruct (IH2 N) as [-> ->].
    destruct f; try (split; reflexivity). elim H. apply in_or_app. right. now left.
Qed.

(** One function: the fault flag. *)
Lemma run_fault f h :
  base_on h ->
  (streams_of f <> [] -> hw_clock h DMA1 = true /\ hw_clock h DMA2 = true) ->
  hw_fault (run_ops h (mx_ops f)) = hw_fault h.
Proof.
  intros [P S] D. destruct h as [ck st fl]. cbn [hw_clock hw_fault] in *.
  destruct f; cbn [streams_of] in D;
    try (destruct D as [D1 D2]; [discriminate|]);
    unfold run_ops; cbn [mx_ops fold_left hw_do hw_clock hw_fault hw_stream controller periph_beq];
    repeat first
      [ progress rewrite ?P, ?S
      | rewrite D1; cbn [hw_do hw_clock hw_fault hw_stream controller periph_beq]
      | rewrite D2; cbn [hw_do hw_clock hw_fault hw_stream controller periph_beq]
      | progress cbn [negb] ];
    rewrite ?Bool.orb_false_r; reflexivity.
Qed.

Lemma run_fault_mono : forall l h, hw_fault h = true -> hw_fault (run_ops h l) = true.
Proof.
  induction l as [|o l IH]; intros h H; [exact H|]. cbn [run_ops fold_left]. apply IH.
  destruct o as [q|q|s]; cbn [hw_do]; try (cbn [hw_fault]; now rewrite ?H).
  destruct (hw_clock h (controller s)); auto.
Qed.

Lemma run_fault_bad f h :
  hw_clock h DMA1 = false -> hw_clock h DMA2 = false -> streams_of f <> [] ->
  hw_fault (run_ops h (mx_ops f)) = true.
Proof.
  intros D1 D2 N. destruct h as [ck st fl]. cbn [hw_clock] in *.
  destruct f; cbn [streams_of] in N; try (now elim N);
    unfold run_ops; cbn [mx_ops fold_left hw_do hw_clock hw_fault hw_stream controller periph_beq];
    rewrite ?D1, ?D2; cbn [hw_do hw_clock hw_fault hw_stream controller periph_beq];
    rewrite ?D1, ?D2; cbn [hw_fault orb]; reflexivity.
Qed.

Lemma fault_mono_app a b : hw_fault (bring_up a) = true -> hw_fault (bring_up (a ++ b)) = true.
Proof.
  intros H. unfold bring_up. rewrite flat_map_app, fold_left_app. now apply run_fault_mono.
Qed.

Lemma mx_in_dec (x : mx) l : {In x l} + {~ In x l}.
Proof. apply in_dec. exact mx_eq_dec. Qed.

Lemma no_fault_iff order : hw_fault (bring_up order) = false <-> dma_first order.
Proof.
  split.
  - intros H a f b E N. destruct (mx_in_dec MX_DMA a) as [I|I]; [exact I|exfalso].
    destruct (proj2 (dma_on_iff a) I) as [D1 D2].
    assert (hw_fault (bring_up order) = true); [|congruence].
    rewrite E. replace (a ++ f :: b) with ((a ++ [f]) ++ b) by (now rewrite <- app_assoc).
    apply fault_mono_app. rewrite bring_up_snoc. now apply run_fault_bad.
  - induction order as [|f order IH] using rev_ind; intros D; [reflexivity|].
    rewrite bring_up_snoc, run_fault.
    + apply IH. intros a g b E N. apply (D a g (b ++ [f])); [|exact N].
      rewrite E, <- app_assoc. reflexivity.
    + apply base_kept.
    + intros N. apply dma_on_iff. apply (D order f []); auto.
Qed.

(** Stream registers. *)
Lemma run_streams_off f h s :
  hw_clock h DMA1 = false -> hw_clock h DMA2 = false ->
  hw_stream (run_ops h (mx_ops f)) s = hw_stream h s.
Proof.
  intros D1 D2. destruct h as [ck st fl]. cbn [hw_clock] in *.
  destruct f; unfold run_ops; cbn [mx_ops fold_left hw_do hw_clock hw_fault hw_stream controller periph_beq];
    rewrite ?D1, ?D2; cbn [hw_do hw_clock hw_fault hw_stream controller periph_beq];
    rewrite ?D1, ?D2; reflexivity.
Qed.

Lemma run_streams_on f h s :
  hw_clock h DMA1 = true -> hw_clock h DMA2 = true ->
  hw_stream (run_ops h (mx_ops f)) s =
  if existsb (stream_beq s) (streams_of f) then dma_intended s else hw_stream h s.
Proof.
  intros D1 D2. destruct h as [ck st fl]. cbn [hw_clock] in *.
  destruct f; unfold run_ops; cbn [mx_ops fold_left hw_do hw_clock hw_fault hw_stream controller periph_beq];
    rewrite ?D1, ?D2; cbn [hw_do hw_clock hw_fault hw_stream controller periph_beq];
    rewrite ?D1, ?D2; cbn [hw_stream streams_of existsb]; destruct s; reflexivity.
Qed.

Lemma streams_reset order s : ~ In MX_DMA order -> hw_stream (bring_up order) s = dma_reset.
Proof.
  induction order as [|f order IH] using rev_ind; intros N; [reflexivity|].
  assert (N' : ~ In MX_DMA order) by (intros X; apply N, in_or_app; now left).
  destruct (proj2 (dma_on_iff order) N') as [D1 D2].
  rewrite bring_up_snoc, run_streams_off by assumption. auto.
Qed.

Lemma beq_in s l : existsb (stream_beq s) l = true <-> In s l.
Proof.
  rewrite existsb_exists. split.
  - intros (x & I & E). apply internal_stream_dec_bl in E. now subst.
  - intros I. exists s. split; [exact I|]. now apply internal_stream_dec_lb.
Qed.

Lemma streams_after a b s : ~ In MX_DMA a ->
  hw_stream (bring_up (a ++ MX_DMA :: b)) s =
  if existsb (fun f => existsb (stream_beq s) (streams_of f)) b then dma_intended s else dma_reset.
Proof.
  intros N. induction b as [|f b IH] using rev_ind.
  - rewrite bring_up_snoc. destruct (proj2 (dma_on_iff a) N) as [D1 D2].
    rewrite run_streams_off by assumption. now apply streams_reset.
  - replace (a ++ MX_DMA :: b ++ [f]) with ((a ++ MX_DMA :: b) ++ [f]) by (now rewrite <- app_assoc).
    destruct (proj1 (dma_on_iff (a ++ MX_DMA :: b))) as [D1 D2]; [apply in_or_app; right; now left|].
    rewrite bring_up_snoc, run_streams_on, IH, existsb_app by assumption. cbn [existsb].
    rewrite Bool.orb_false_r.
    destruct (existsb (stream_beq s) (streams_of f)); [now rewrite Bool.orb_true_r|now rewrite Bool.orb_false_r].
Qed.

(** Any sequence of operations. *)
Lemma ops_clock l p : hw_clock (run_ops hw_start l) p = true <-> In (Clk p) l \/ In p always_running.
Proof.
  induction l as [|o l IH] using rev_ind.
  - cbn. split; [|intros [[]|[<-|[<-|[<-|[]]]]]; reflexivity]. destruct p; try discriminate; auto 10.
  - unfold run_ops in *. rewrite fold_left_app. cbn [fold_left]. set (h := fold_left hw_do l hw_start) in *.
    rewrite in_app_iff. cbn [In]. destruct o as [q|q|s]; cbn [hw_do].
    + cbn [hw_clock]. destruct (periph_beq p q) eqn:E.
      * apply internal_periph_dec_bl in E. subst. tauto.
      * rewrite IH. split; [tauto|]. intros [[A|[A|[]]]|A]; auto. injection A as ->.
        now rewrite beq_refl_p in E.
    + cbn [hw_clock]. rewrite IH. split; [tauto|]. intros [[A|[A|[]]]|A]; auto. discriminate.
    + destruct (hw_clock h (controller s)); cbn [hw_clock]; rewrite IH;
        (split; [tauto|]; intros [[A|[A|[]]]|A]; auto; discriminate).
Qed.

Lemma ops_fault l : hw_fault (run_ops hw_start l) = false <-> clocked l.
Proof.
  induction l as [|o l IH] using rev_ind.
  - split; [|reflexivity]. intros _ a o b p E. destruct a; discriminate.
  - assert (C : clocked (l ++ [o]) <-> clocked l /\ forall p, In p (needs o) -> hw_clock (run_ops hw_start l) p = true).
    { split.
      - intros H. split.
        + intros a x b p E N. apply (H a x (b ++ [o]) p); [|exact N]. rewrite E, <- app_assoc. reflexivity.
        + intros p N. apply ops_clock. apply (H l o [] p); auto.
      - intros [H N] a x b p E NX. destruct b as [|y b _] using rev_ind.
        + apply app_inj_tail in E. destruct E as [-> ->]. apply ops_clock. auto.
        + rewrite app_comm_cons, app_assoc in E. apply app_inj_tail in E. destruct E as [-> ->].
          exact (H a x b p eq_refl NX). }
    rewrite C, <- IH. unfold run_ops. rewrite fold_left_app. cbn [fold_left].
    set (h := fold_left hw_do l hw_start). destruct o as [q|q|s]; cbn [hw_do needs].
    + cbn [hw_fault In]. intuition.
    + cbn [hw_fault]. rewrite Bool.orb_false_iff, Bool.negb_false_iff. cbn [In].
      split; intros [A B]; split; auto. intros p [<-|[]]; auto.
    + destruct (hw_clock h (controller s)) eqn:E; cbn [hw_fault].
      * split; [intros A; split; [exact A|]|tauto]. intros p [<-|[]]; auto.
      * split; [discriminate|]. intros [_ B]. rewrite (B (controller s)) in E; [discriminate|now left].
Qed.
