From Coq Require Import ZifyBool ZifyNat Permutation.
From Verif.Spec Require Import CanDriverSpec.

(** ** Reception *)
Definition bounded_app (A : Type) (cap : nat) (l x : list A) : list A := l ++ firstn (cap - length l) x.
Arguments bounded_app {A}.

Lemma bounded_app_nil A cap (l : list A) : bounded_app cap l [] = l.
Proof. unfold bounded_app. now rewrite firstn_nil, app_nil_r. Qed.

Lemma bounded_app_app A cap (l a b : list A) :
  bounded_app cap l (a ++ b) = bounded_app cap (bounded_app cap l a) b.
Proof.
  unfold bounded_app. rewrite firstn_app, app_length, firstn_length, <- app_assoc. do 3 f_equal. lia.
Qed.

Lemma push_bounded cap l f : queue_push cap l f = bounded_app cap l [f].
Proof.
  unfold queue_push, bounded_app. destruct (Nat.ltb_spec (length l) cap) as [H|H].
  - destruct (cap - length l)%nat eqn:E; [lia|]. now rewrite firstn_cons, firstn_nil.
  - replace (cap - length l)%nat with 0%nat by lia. simpl. now rewrite app_nil_r.
Qed.

Lemma dispatch_spec qcap : forall n entries qs f, (n <= length entries)%nat ->
  exists qs', dispatch qcap qs entries n f = Some qs' /\
    forall q, qs' q = bounded_app (qcap q) (qs q) (copies (firstn n entries) q f).
Proof.
  induction n as [|n IH]; intros entries qs f H.
  - exists qs. split; [reflexivity|]. intros q. cbn. now rewrite bounded_app_nil.
  - destruct entries as [|e t]; [simpl in H; lia|]. cbn [dispatch firstn].
    edestruct (IH t) as (qs' & D & S1); [simpl in H; lia|]. rewrite D. exists qs'. split; [reflexivity|].
    intros q. rewrite S1. unfold copies, interested. cbn [filter].
    destruct (Z.land (fr_id f) (re_mask e) =? re_id e) eqn:M.
    + rewrite andb_true_r. unfold set_at. rewrite (Z.eqb_sym q).
      destruct (Z.eqb_spec (re_queue e) q) as [E|E]; [|reflexivity].
      cbn [length repeat]. subst q. rewrite push_bounded, <- bounded_app_app. reflexivity.
    + now rewrite andb_false_r.
Qed.

Lemma rx_loop_spec qcap bus d : forall hs qs sid,
  (Z.to_nat (ci_num d) <= length (ci_queues d))%nat ->
  Forall (fun h => hw_ext h = false) hs ->
  exists qs', rx_loop qcap bus d qs sid (map (fun h => (h, true)) hs) = Some qs' /\
    forall q, qs' q = bounded_app (qcap q) (qs q)
      (flat_map (copies (firstn (Z.to_nat (ci_num d)) (ci_queues d)) q) (map (as_received bus) hs)).
Proof.
  induction hs as [|h hs IH]; intros qs sid L F.
  - exists qs. split; [reflexivity|]. intros q. cbn. now rewrite bounded_app_nil.
  - inversion F as [|? ? Hh F']; subst. cbn [map rx_loop negb]. rewrite Hh.
    destruct (dispatch_spec qcap _ _ qs (mkFrame bus (hw_id h) (hw_dlc h) (hw_data h)) L) as (q1 & D & S1).
    rewrite D. destruct (IH q1 (Some (hw_id h)) L F') as (q2 & R & S2). rewrite R. exists q2. split; [reflexivity|].
    intros q. rewrite S2, S1. cbn [flat_map]. rewrite bounded_app_app. reflexivity.
Qed.

(** Table invariant. *)
Record regs_ok (w : can_world) (regs : Z -> list recv_entry) : Prop := {
  ro_use : forall b, 0 <= b < 3 -> ci_inUse (cw_inst w b) = true;
  ro_num : forall b, 0 <= b < 3 -> ci_num (cw_inst w b) = Z.of_nat (length (regs b));
  ro_len : forall b, 0 <= b < 3 -> length (ci_queues (cw_inst w b)) = 8%nat;
  ro_eq : forall b, 0 <= b < 3 -> firstn (length (regs b)) (ci_queues (cw_inst w b)) = regs b;
  ro_max : forall b, 0 <= b < 3 -> (length (regs b) <= 8)%nat }.

Lemma regs_ok_init : regs_ok can_init (fun b => registered b []).
Proof. split; cbn; intros; try reflexivity; unfold CAN_NUM_INSTANCES; lia. Qed.

Lemma put_entry_spec e : forall l n, (n < length l)%nat ->
  exists l', put_entry l n e = Some l' /\ length l' = length l /\ firstn (S n) l' = firstn n l ++ [e].
Proof.
  induction l as [|x l IH]; intros [|n] H; simpl in H; try lia.
  - eexists. split; [reflexivity|]. split; reflexivity.
  - cbn [put_entry]. destruct (IH n) as (l' & P & L & F); [lia|]. rewrite P. eexists. split; [reflexivity|].
    cbn [length firstn]. cbn [firstn] in F. rewrite L. split; [reflexivity|]. cbn [app]. now rewrite <- F.
Qed.

Lemma registered_snoc b tr e :
  registered b (tr ++ [e]) =
  match e with
  | CanReg b' i m q => if b' =? b then (if (length (registered b tr) <? 8)%nat then registered b tr ++ [mkEntry i m q]
                                        else registered b tr)
                       else registered b tr
  | _ => registered b tr
  end.
Proof.
  unfold registered, reg_requests. rewrite flat_map_app. cbn [flat_map]. rewrite app_nil_r.
  destruct e as [b' i m q|b' l|q n]; try now rewrite app_nil_r.
  destruct (b' =? b); [|now rewrite app_nil_r].
  rewrite firstn_app. rewrite firstn_length. set (R := flat_map _ tr).
  destruct (Nat.ltb_spec (Nat.min 8 (length R)) 8).
  - f_equal. destruct (8 - length R)%nat eqn:E; [lia|]. now rewrite firstn_cons, firstn_nil.
  - replace (8 - length R)%nat with 0%nat by lia. now rewrite app_nil_r.
Qed.

Lemma registered_max b tr : (length (registered b tr) <= 8)%nat.
Proof. unfold registered. rewrite firstn_length. lia. Qed.

Lemma regs_ok_step qcap w tr e w' :
  regs_ok w (fun b => registered b tr) -> buses_ok [e] -> can_step qcap w e = Some w' ->
  regs_ok w' (fun b => registered b (tr ++ [e])).
Proof.
  intros I B S1. destruct e as [b' i m q|b' l|q n]; cbn [can_step] in S1.
  - unfold CAN_RegisterQueue, CAN_NUM_INSTANCES, CAN_MAX_RECV_QUEUES in S1.
    assert (Hb : 0 <= b') by (apply (B b' i m q); now left).
    rewrite Z.geb_leb in S1. destruct (Z.leb_spec 3 b') as [H|H].
    { injection S1 as <-. destruct I as [U N L E M]. split; intros b Hr; try rewrite registered_snoc;
        try (destruct (Z.eqb_spec b' b); [lia|]); auto. }
    assert (Hin : 0 <= b' < 3) by lia.
    rewrite (ro_num _ _ I b' Hin) in S1.
    destruct (Z.eqb_spec (Z.of_nat (length (registered b' tr))) 8) as [E8|E8].
    { injection S1 as <-.
      assert (X : forall b, registered b (tr ++ [CanReg b' i m q]) = registered b tr).
      { intros b. rewrite registered_snoc. destruct (Z.eqb_spec b' b) as [<-|]; [|reflexivity].
        destruct (Nat.ltb_spec (length (registered b' tr)) 8); [lia|reflexivity]. }
      destruct I as [U N L E M]. split; intros b Hr; rewrite ?X; auto. }
    pose proof (registered_max b' tr) as M8. rewrite Nat2Z.id in S1.
    destruct (put_entry_spec (mkEntry i m q) (ci_queues (cw_inst w b')) (length (registered b' tr))) as (l' & P & L' & F');
      [rewrite (ro_len _ _ I b' Hin); lia|].
    rewrite P in S1. injection S1 as <-.
    destruct I as [U N L E M].
    assert (X : forall b, registered b (tr ++ [CanReg b' i m q]) =
                          if b =? b' then registered b' tr ++ [mkEntry i m q] else registered b tr).
    { intros b. rewrite registered_snoc, (Z.eqb_sym b' b). destruct (Z.eqb_spec b b') as [->|]; [|reflexivity].
      destruct (Nat.ltb_spec (length (registered b' tr)) 8); [reflexivity|lia]. }
    split; intros b Hr; rewrite ?X; cbn [cw_inst]; unfold set_at.
    + destruct (Z.eqb_spec b b') as [->|]; cbn [ci_inUse]; auto.
    + destruct (Z.eqb_spec b b') as [->|]; cbn [ci_num]; auto.
      rewrite app_length. cbn [length]. unfold u8. rewrite Z.mod_small; lia.
    + destruct (Z.eqb_spec b b') as [->|]; cbn [ci_queues]; auto. rewrite L'. auto.
    + destruct (Z.eqb_spec b b') as [->|]; cbn [ci_queues]; auto.
      rewrite app_length. cbn [length]. rewrite Nat.add_1_r, F', E by assumption. reflexivity.
    + destruct (Z.eqb_spec b b') as [->|]; auto. rewrite app_length. simpl. lia.
  - assert (X : forall b, registered b (tr ++ [CanRx b' l]) = registered b tr)
      by (intros; now rewrite registered_snoc).
    unfold ISR_RxMsgPending in S1. destruct (negb _).
    + injection S1 as <-. destruct I. split; intros; rewrite ?X; auto.
    + destruct (rx_loop _ _ _ _ _ _); [|discriminate]. injection S1 as <-.
      destruct I. split; intros; rewrite ?X; cbn [cw_inst]; auto.
  - assert (X : forall b, registered b (tr ++ [CanTake q n]) = registered b tr)
      by (intros; now rewrite registered_snoc).
    injection S1 as <-. destruct I. split; intros; rewrite ?X; cbn [cw_inst]; auto.
Qed.

Lemma regs_ok_run qcap : forall tr pre w w',
  regs_ok w (fun b => registered b pre) -> buses_ok tr -> can_run qcap w tr = Some w' ->
  regs_ok w' (fun b => registered b (pre ++ tr)).
Proof.
  induction tr as [|e tr IH]; intros pre w w' I B R; cbn [can_run] in R.
  - injection R as <-. now rewrite app_nil_r.
  - destruct (can_step qcap w e) as [w1|] eqn:S1; [|discriminate].
    replace (pre ++ e :: tr) with ((pre ++ [e]) ++ tr) by (rewrite <- app_assoc; reflexivity).
    eapply IH; [eapply regs_ok_step; eauto| |exact R].
    + intros b i m q H. apply (B b i m q). destruct H as [H|[]]. now left.
    + intros b i m q H. apply (B b i m q). now right.
Qed.

(** ** Transmission *)
Lemma free_level_nonneg mb : 0 <= free_level mb.
Proof. unfold free_level. lia. Qed.

Lemma free_level_cons m mb : free_level (m :: mb) = (match m with None => 1 | Some _ => 0 end) + free_level mb.
Proof. unfold free_level. destruct m; cbn [filter length]; lia. Qed.

Lemma fill_spec it : forall mb, 0 < free_level mb ->
  exists mb', fill_mailbox mb it = Some mb' /\ Permutation (in_mailboxes mb') (it :: in_mailboxes mb) /\
    free_level mb' = free_level mb - 1 /\
    forall i x, nth_error mb i = Some (Some x) -> nth_error mb' i = Some (Some x).
Proof.
  induction mb as [|m mb IH]; intros H; [unfold free_level in H; cbn [filter length] in H; lia|]. rewrite free_level_cons in H.
  destruct m as [y|]; cbn [fill_mailbox].
  - destruct IH as (mb' & F & P & L & N); [lia|]. rewrite F. eexists. split; [reflexivity|].
    rewrite !free_level_cons. split; [|split].
    + cbn [in_mailboxes flat_map app]. fold (in_mailboxes mb'). fold (in_mailboxes mb). rewrite P. apply perm_swap.
    + lia.
    + intros [|i] x; cbn; [auto|apply N].
  - eexists. split; [reflexivity|]. rewrite !free_level_cons. split; [reflexivity|]. split; [lia|].
    intros [|i] x; cbn; [discriminate|auto].
Qed.

Lemma fill_free it mb mb' : fill_mailbox mb it = Some mb' -> 0 < free_level mb.
Proof.
  revert mb'. induction mb as [|m mb IH]; intros mb' H; [discriminate|]. rewrite free_level_cons.
  destruct m; cbn in H; [|pose proof (free_level_nonneg mb); lia].
  destruct (fill_mailbox mb it); [|discriminate]. specialize (IH _ eq_refl). lia.
Qed.

Lemma drain_spec : forall q mb hand mb' q' hand',
  tx_drain mb q hand = (mb', q', hand') ->
  (exists moved, q = moved ++ q' /\ hand' = hand ++ moved /\
     Permutation (in_mailboxes mb') (in_mailboxes mb ++ moved)) /\
  (q' = [] \/ free_level mb' = 0).
Proof.
  induction q as [|it q IH]; intros mb hand mb' q' hand' H; cbn [tx_drain] in H.
  - injection H as <- <- <-. split; [|now left]. exists []. rewrite !app_nil_r. auto.
  - destruct (Z.ltb_spec 0 (free_level mb)) as [L|L].
    + destruct (fill_spec it mb L) as (mb1 & F & P & _). rewrite F in H.
      destruct (IH _ _ _ _ _ H) as [(mv & -> & -> & P') D]. split; [|exact D].
      exists (it :: mv). split; [reflexivity|]. split; [now rewrite <- app_assoc|].
      rewrite P', P. cbn. apply Permutation_cons_app. reflexivity.
    + injection H as <- <- <-. split.
      * exists []. rewrite !app_nil_r. auto.
      * right. pose proof (free_level_nonneg mb). lia.
Qed.

Lemma arbiter_some : forall mb i best j, arbiter mb i best = Some j ->
  (exists k, best = Some (j, k)) \/ exists n it, j = (i + n)%nat /\ nth_error mb n = Some (Some it).
Proof.
  induction mb as [|m mb IH]; intros i best j H; cbn [arbiter] in H.
  - destruct best as [[j' k]|]; [|discriminate]. injection H as <-. left. eauto.
  - destruct m as [it|].
    + apply IH in H. destruct H as [[k H]|(n & x & -> & N)].
      * destruct best as [[j' k']|].
        -- destruct (ti_id it <? k').
           ++ injection H as <- <-. right. exists 0%nat, it. split; [lia|reflexivity].
           ++ left. eauto.
        -- injection H as <- <-. right. exists 0%nat, it. split; [lia|reflexivity].
      * right. exists (S n), x. split; [lia|exact N].
    + apply IH in H. destruct H as [H|(n & x & -> & N)]; [now left|].
      right. exists (S n), x. split; [lia|exact N].
Qed.

Lemma clear_spec : forall mb i it, nth_error mb i = Some (Some it) ->
  Permutation (in_mailboxes mb) (it :: in_mailboxes (clear_mb mb i)).
Proof.
  induction mb as [|m mb IH]; intros [|i] it H; try discriminate.
  - injection H as ->. reflexivity.
  - cbn in *. rewrite (IH _ _ H). destruct m; cbn; [apply perm_swap|reflexivity].
Qed.

Definition cur_ok (c : can_tx) : Prop :=
  forall i, tx_cur c = Some i -> exists it, nth_error (tx_mb c) i = Some (Some it).

(** Frames for which no transmission ended badly are accounted for. *)
Definition acct (c : can_tx) (lost : list tx_item) : Prop :=
  Permutation (tx_acc c) (tx_bus c ++ in_mailboxes (tx_mb c) ++ tx_q c ++ lost).

Lemma send_cases c i d n ok c' st : CAN_SendMessage c i d n ok = Some (c', st) ->
  let it := mkItem i (firstn (Z.to_nat n) d) in
  (c' = c /\ st <> CAN_STATUS_OK) \/
  (st = CAN_STATUS_OK /\ 0 < free_level (tx_mb c) /\ exists mb, fill_mailbox (tx_mb c) it = Some mb /\
     c' = mkTx mb (tx_q c) (tx_bus c) (tx_cur c) (tx_ie c) (tx_hand c ++ [it]) (tx_acc c ++ [it])) \/
  (st = CAN_STATUS_OK /\ free_level (tx_mb c) = 0 /\
     c' = mkTx (tx_mb c) (tx_q c ++ [it]) (tx_bus c) (tx_cur c) (tx_ie c) (tx_hand c) (tx_acc c ++ [it])).
Proof.
  unfold CAN_SendMessage. intros H. cbv zeta in *. set (it := mkItem i (firstn (Z.to_nat n) d)) in *. destruct (_ || _); [discriminate|].
  destruct (Z.ltb_spec 0 (free_level (tx_mb c))) as [L|L].
  - destruct (_ <? 8); [discriminate|]. destruct (negb ok).
    + injection H as <- <-. left. split; [reflexivity|discriminate].
    + destruct (fill_mailbox (tx_mb c) it) as [mb|] eqn:F.
      * injection H as <- <-. right. left. eauto.
      * injection H as <- <-. left. split; [reflexivity|discriminate].
  - destruct (_ <? n); [discriminate|]. destruct (_ <? CAN_MAX_PENDING_MSGS).
    + injection H as <- <-. right. right. pose proof (free_level_nonneg (tx_mb c)).
      split; [reflexivity|]. split; [lia|reflexivity].
    + injection H as <- <-. left. split; [reflexivity|discriminate].
Qed.

Lemma isr_spec c : exists moved,
  tx_q c = moved ++ tx_q (ISR_TxComplete c) /\
  tx_hand (ISR_TxComplete c) = tx_hand c ++ moved /\
  Permutation (in_mailboxes (tx_mb (ISR_TxComplete c))) (in_mailboxes (tx_mb c) ++ moved) /\
  (tx_q (ISR_TxComplete c) = [] \/ free_level (tx_mb (ISR_TxComplete c)) = 0) /\
  tx_bus (ISR_TxComplete c) = tx_bus c /\ tx_acc (ISR_TxComplete c) = tx_acc c /\
  tx_cur (ISR_TxComplete c) = tx_cur c /\ tx_ie (ISR_TxComplete c) = tx_ie c.
Proof.
  unfold ISR_TxComplete. destruct (tx_drain _ _ _) as [[mb q] hand] eqn:D.
  destruct (drain_spec _ _ _ _ _ _ D) as [(mv & Q & Hd & P) E]. exists mv. cbn. auto 10.
Qed.

Lemma acct_step c lost e c' : cur_ok c -> acct c lost -> tx_step c e = Some c' ->
  cur_ok c' /\ exists lost', acct c' lost' /\ (e <> TxDone false -> lost' = lost).
Proof.
  intros K A S1. destruct e as [i d n ok| |sent]; cbn [tx_step] in S1.
  - destruct (CAN_SendMessage c i d n ok) as [[c1 st]|] eqn:E; [|discriminate]. injection S1 as <-.
    apply send_cases in E. cbv zeta in E.
    destruct E as [[-> _]|[(_ & L & mb & F & ->)|(_ & L & ->)]].
    + split; [exact K|]. exists lost. auto.
    + destruct (fill_spec (mkItem i (firstn (Z.to_nat n) d)) _ L) as (mb' & F' & P & _ & N).
      rewrite F in F'. injection F' as <-. split.
      * intros j Hj. cbn in *. destruct (K j Hj) as [x X]. eauto.
      * exists lost. split; [|auto]. unfold acct in *. cbn [tx_acc tx_bus tx_mb tx_q]. rewrite P, A.
        rewrite <- Permutation_cons_append. cbn [app]. apply Permutation_cons_app. reflexivity.
    + split; [exact K|]. exists lost. split; [|auto]. unfold acct in *. cbn [tx_acc tx_bus tx_mb tx_q]. rewrite A.
      rewrite <- Permutation_cons_append. rewrite !app_assoc. rewrite <- (app_assoc _ [_] lost). cbn [app].
      apply Permutation_cons_app. reflexivity.
  - injection S1 as <-. unfold hw_start. destruct (tx_cur c) eqn:C.
    + split; [exact K|]. eauto.
    + split; [|exists lost; auto]. intros j Hj. cbn in *.
      apply arbiter_some in Hj. destruct Hj as [[k Hj]|(m & x & -> & N)]; [discriminate|]. eauto.
  - injection S1 as <-. unfold hw_done. destruct (tx_cur c) as [j|] eqn:C; [|split; [exact K|eauto]].
    destruct (K j C) as [it N]. rewrite N.
    pose proof (clear_spec _ _ _ N) as P.
    set (c1 := mkTx _ _ _ _ _ _ _).
    assert (A1 : acct c1 (lost ++ (if sent then [] else [it]))).
    { unfold acct, c1 in *. cbn [tx_acc tx_bus tx_mb tx_q]. rewrite A, P. destruct sent.
      - rewrite app_nil_r, <- app_assoc. cbn [app]. reflexivity.
      - rewrite app_nil_r. cbn [app]. rewrite !app_assoc, <- (Permutation_cons_append _ it).
        rewrite <- !app_assoc. symmetry. apply Permutation_cons_app. rewrite !app_assoc. reflexivity. }
    assert (W : exists lost', acct c1 lost' /\ (TxDone sent <> TxDone false -> lost' = lost)).
    { eexists. split; [exact A1|]. destruct sent; [intros _; apply app_nil_r|intros H; now elim H]. }
    destruct (tx_ie c).
    + destruct (isr_spec c1) as (mv & Q & _ & P1 & _ & B1 & Ac & Cu & _). split.
      * intros i Hi. rewrite Cu in Hi. discriminate.
      * destruct W as (l' & A2 & W2). exists l'. split; [|exact W2].
        unfold acct in *. rewrite Ac, B1, P1, A2, Q. rewrite <- !app_assoc. reflexivity.
    + split; [intros i Hi; discriminate|exact W].
Qed.

Lemma acct_run : forall tr c lost c', cur_ok c -> acct c lost -> tx_run c tr = Some c' ->
  cur_ok c' /\ exists lost', acct c' lost' /\ (no_loss tr -> lost' = lost).
Proof.
  induction tr as [|e tr IH]; intros c lost c' K A R; cbn [tx_run] in R.
  - injection R as <-. split; [exact K|]. eauto.
  - destruct (tx_step c e) as [c1|] eqn:S1; [|discriminate].
    destruct (acct_step _ _ _ _ K A S1) as (K1 & l1 & A1 & L1).
    destruct (IH _ _ _ K1 A1 R) as (K2 & l2 & A2 & L2). split; [exact K2|]. exists l2. split; [exact A2|].
    intros N. rewrite L2, L1; [reflexivity| |].
    + intros ->. apply N. now left.
    + intros H. apply N. now right.
Qed.

(** Without the interrupt nothing leaves the queue. *)
Lemma stuck_run : forall tr c c', tx_ie c = false -> tx_run c tr = Some c' ->
  tx_ie c' = false /\ exists s, tx_q c' = tx_q c ++ s.
Proof.
  induction tr as [|e tr IH]; intros c c' I R; cbn [tx_run] in R.
  - injection R as <-. split; [exact I|]. exists []. now rewrite app_nil_r.
  - destruct (tx_step c e) as [c1|] eqn:S1; [|discriminate].
    assert (H : tx_ie c1 = false /\ exists s, tx_q c1 = tx_q c ++ s).
    { destruct e as [i d n ok| |sent]; cbn [tx_step] in S1.
      - destruct (CAN_SendMessage c i d n ok) as [[c2 st]|] eqn:E; [|discriminate]. injection S1 as <-.
        apply send_cases in E. cbv zeta in E.
        destruct E as [[-> _]|[(_ & L & mb & F & ->)|(_ & L & ->)]]; cbn; (split; [exact I|]).
        + exists []. now rewrite app_nil_r.
        + exists []. now rewrite app_nil_r.
        + eauto.
      - injection S1 as <-. unfold hw_start. destruct (tx_cur c); cbn; (split; [exact I|]); exists []; now rewrite app_nil_r.
      - injection S1 as <-. unfold hw_done. destruct (tx_cur c); rewrite ?I; cbn; (split; [auto|]); exists []; now rewrite app_nil_r. }
    destruct H as [I1 [s Q]]. destruct (IH _ _ I1 R) as [I2 [s2 Q2]]. split; [exact I2|].
    exists (s ++ s2). now rewrite Q2, Q, app_assoc.
Qed.

(** With the interrupt, hand-over to the mailboxes is first in, first out. *)
Definition fifo_inv (c : can_tx) : Prop :=
  tx_ie c = true /\ tx_acc c = tx_hand c ++ tx_q c /\ (tx_q c = [] \/ free_level (tx_mb c) = 0).

Lemma fifo_run : forall tr c c', fifo_inv c -> tx_run c tr = Some c' -> fifo_inv c'.
Proof.
  induction tr as [|e tr IH]; intros c c' I R; cbn [tx_run] in R; [now injection R as <-|].
  destruct (tx_step c e) as [c1|] eqn:S1; [|discriminate]. apply (IH c1); [|exact R].
  destruct I as (I & A & Q). destruct e as [i d n ok| |sent]; cbn [tx_step] in S1.
  - destruct (CAN_SendMessage c i d n ok) as [[c2 st]|] eqn:E; [|discriminate]. injection S1 as <-.
    apply send_cases in E. cbv zeta in E.
    destruct E as [[-> _]|[(_ & L & mb & F & ->)|(_ & L & ->)]].
    + split; auto.
    + destruct Q as [Q|Q]; [|lia]. split; [exact I|]. cbn. rewrite A, Q, !app_nil_r. auto.
    + split; [exact I|]. cbn. rewrite A, app_assoc. auto.
  - injection S1 as <-. unfold hw_start. destruct (tx_cur c); split; auto.
  - injection S1 as <-. unfold hw_done. destruct (tx_cur c); [|split; auto]. rewrite I.
    match goal with |- fifo_inv (ISR_TxComplete ?x) => destruct (isr_spec x) as (mv & Q1 & H1 & _ & E1 & _ & A1 & _ & I1) end.
    cbn [tx_q tx_hand tx_acc tx_ie] in *. split; [exact I1|]. split; [|exact E1].
    rewrite A1, H1. transitivity (tx_hand c ++ tx_q c); [exact A|]. rewrite <- app_assoc. apply f_equal. exact Q1.
Qed.

Lemma cur_step c e c' : cur_ok c -> tx_step c e = Some c' -> cur_ok c'.
Proof.
  intros K S1. destruct e as [i d n ok| |sent]; cbn [tx_step] in S1.
  - destruct (CAN_SendMessage c i d n ok) as [[c1 st]|] eqn:E; [|discriminate]. injection S1 as <-.
    apply send_cases in E. cbv zeta in E.
    destruct E as [[-> _]|[(_ & L & mb & F & ->)|(_ & L & ->)]]; [exact K| |exact K].
    destruct (fill_spec (mkItem i (firstn (Z.to_nat n) d)) _ L) as (mb' & F' & P & _ & N).
    rewrite F in F'. injection F' as <-. intros j Hj. cbn in *. destruct (K j Hj) as [x X]. eauto.
  - injection S1 as <-. unfold hw_start. destruct (tx_cur c) eqn:C; [exact K|]. intros j Hj. cbn in *.
    apply arbiter_some in Hj. destruct Hj as [[k Hj]|(m & x & -> & N)]; [discriminate|]. eauto.
  - injection S1 as <-. unfold hw_done. destruct (tx_cur c) as [j|] eqn:C; [|exact K].
    destruct (tx_ie c); [|intros i Hi; discriminate].
    match goal with |- cur_ok (ISR_TxComplete ?x) => destruct (isr_spec x) as (mv & _ & _ & _ & _ & _ & _ & Cu & _) end.
    intros i Hi. rewrite Cu in Hi. discriminate.
Qed.

Definition single_inv (c : can_tx) : Prop :=
  tx_q c = [] /\ tx_acc c = tx_bus c ++ in_mailboxes (tx_mb c) /\ (length (in_mailboxes (tx_mb c)) <= 1)%nat /\
  length (tx_mb c) = 3%nat.

Lemma fill_length it : forall mb mb', fill_mailbox mb it = Some mb' -> length mb' = length mb.
Proof.
  induction mb as [|[x|] mb IH]; intros mb' H; cbn in H; try discriminate.
  - destruct (fill_mailbox mb it); [|discriminate]. injection H as <-. cbn. now rewrite (IH _ eq_refl).
  - now injection H as <-.
Qed.

Lemma clear_length : forall mb i, length (clear_mb mb i) = length mb.
Proof. induction mb as [|m mb IH]; intros [|i]; cbn; auto. Qed.

Lemma empty_free : forall mb, in_mailboxes mb = [] -> free_level mb = Z.of_nat (length mb).
Proof.
  induction mb as [|[x|] mb IH]; intros H; [reflexivity|discriminate|].
  rewrite free_level_cons, IH by exact H. cbn [length]. lia.
Qed.

Lemma single_run : forall tr c c', cur_ok c -> single_inv c -> sends_when_idle c tr -> no_loss tr ->
  tx_run c tr = Some c' -> single_inv c'.
Proof.
  induction tr as [|e tr IH]; intros c c' K I W N R; cbn [tx_run] in R; [now injection R as <-|].
  cbn [sends_when_idle] in W.
  destruct (tx_step c e) as [c1|] eqn:S1; [|discriminate]. destruct W as [W1 W2].
  assert (K1 : cur_ok c1) by (eapply cur_step; eauto).
  apply (IH c1 c'); auto; [|intros H; apply N; now right].
  destruct I as (Q & A & L & L3). destruct e as [i d n ok| |sent]; cbn [tx_step] in S1.
  - destruct (CAN_SendMessage c i d n ok) as [[c2 st]|] eqn:E; [|discriminate]. injection S1 as <-.
    apply send_cases in E. cbv zeta in E. pose proof (empty_free _ W1) as Fr.
    destruct E as [[-> _]|[(_ & Lv & mb & F & ->)|(_ & Lv & ->)]]; [split; auto| |lia].
    destruct (fill_spec (mkItem i (firstn (Z.to_nat n) d)) _ Lv) as (mb' & F' & P & _).
    rewrite F in F'. injection F' as <-. rewrite W1 in P. symmetry in P.
    apply Permutation_length_1_inv in P.
    unfold single_inv. cbn [tx_q tx_acc tx_bus tx_mb]. rewrite P, (fill_length _ _ _ F), A, W1, app_nil_r.
    cbn. auto.
  - injection S1 as <-. unfold hw_start. destruct (tx_cur c); split; auto.
  - destruct sent; [|exfalso; apply N; now left].
    injection S1 as <-. unfold hw_done. destruct (tx_cur c) as [j|] eqn:C; [|split; auto].
    destruct (K j C) as [it Nj]. rewrite Nj. pose proof (clear_spec _ _ _ Nj) as P.
    assert (E1 : in_mailboxes (tx_mb c) = [it] /\ in_mailboxes (clear_mb (tx_mb c) j) = []).
    { pose proof (Permutation_length P) as PL. cbn in PL.
      destruct (in_mailboxes (clear_mb (tx_mb c) j)) eqn:E2; [|cbn in *; lia].
      split; [|reflexivity]. symmetry in P. now apply Permutation_length_1_inv in P. }
    destruct E1 as [E1 E2].
    assert (G : single_inv (mkTx (clear_mb (tx_mb c) j) (tx_q c) (tx_bus c ++ [it]) None (tx_ie c) (tx_hand c) (tx_acc c))).
    { unfold single_inv. cbn [tx_q tx_acc tx_bus tx_mb]. rewrite E2, A, E1, clear_length, app_nil_r. cbn. auto. }
    destruct (tx_ie c); [|exact G]. unfold ISR_TxComplete. cbn [tx_q tx_mb tx_hand]. rewrite Q.
    cbn [tx_drain]. unfold single_inv in *. cbn [tx_q tx_acc tx_bus tx_mb] in *. tauto.
Qed.
