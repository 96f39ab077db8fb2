From Verif.Model Require Import Ecu.
From Verif.Spec Require Import VsmSpec InverterSpec EcuSpec.
From Verif.Proof Require Import VsmProof EcuProof.
From Verif.Proof Require CanDriverProof EcuPedal.
From Verif.Spec Require TorqueSpec.
From Verif.Spec Require Import EcuBusSpec CanDriverSpec.
From Coq Require Import ZifyBool ZifyNat Permutation.

Notation item t := (mkItem (tx_id t) (firstn (Z.to_nat 8) (tx_data t))).

(** ** The driver *)
Lemma give1_spec d t : length (tx_data t) = 8%nat ->
  let '(d', ok) := give1 d t in
  tx_step d (TxSend (tx_id t) (tx_data t) 8 true) = Some d' /\
  tx_acc d' = tx_acc d ++ (if ok then [item t] else []).
Proof.
  intros L. unfold give1. destruct (CAN_SendMessage d (tx_id t) (tx_data t) 8 true) as [[d' st]|] eqn:E.
  - cbn [tx_step]. rewrite E. split; [reflexivity|].
    apply CanDriverProof.send_cases in E. cbv zeta in E.
    destruct E as [[-> N]|[(-> & _ & mb & _ & ->)|(-> & _ & ->)]]; [|reflexivity..].
    replace (st =? CAN_STATUS_OK) with false by (symmetry; apply Z.eqb_neq; exact N). now rewrite app_nil_r.
  - exfalso. revert E. unfold CAN_SendMessage. change ((8 <? 0) || (8 <? 8)) with false. cbv iota.
    rewrite L. change (Z.of_nat 8 <? 8) with false. cbn [negb].
    destruct (0 <? _); [destruct (fill_mailbox _ _); discriminate|]. destruct (_ <? _); discriminate.
Qed.

Fixpoint taken (ts : list tx) (oks : list bool) : list tx :=
  match ts, oks with
  | t :: ts, ok :: oks => (if ok then [t] else []) ++ taken ts oks
  | _, _ => []
  end.

Lemma tx_run_app c a b : tx_run c (a ++ b) = match tx_run c a with Some c' => tx_run c' b | None => None end.
Proof. revert c. induction a as [|e a IH]; intros c; [reflexivity|]. cbn. destruct (tx_step c e); auto. Qed.

Lemma give_spec : forall ts d, Forall (fun t => length (tx_data t) = 8%nat) ts ->
  let '(d', oks) := give d ts in
  length oks = length ts /\ (exists tr, tx_run d tr = Some d') /\
  tx_acc d' = tx_acc d ++ map (fun t => item t) (taken ts oks).
Proof.
  induction ts as [|t ts IH]; intros d F.
  - cbn. split; [reflexivity|]. split; [now exists []|now rewrite app_nil_r].
  - inversion F as [|? ? F1 F2]; subst. cbn [give]. pose proof (give1_spec d t F1) as G.
    destruct (give1 d t) as [d1 ok]. destruct G as (G1 & G2). specialize (IH d1 F2).
    destruct (give d1 ts) as [d2 oks]. destruct IH as (I1 & (tr & I2) & I3).
    split; [cbn; lia|]. split.
    + exists (TxSend (tx_id t) (tx_data t) 8 true :: tr). cbn [tx_run]. now rewrite G1.
    + rewrite I3, G2, <- app_assoc. f_equal. cbn [taken]. destruct ok; reflexivity.
Qed.

(** ** What an event of the ECU hands over *)
Definition cmd_frame (t : tx) : Prop := length (tx_data t) = 8%nat /\ tx_id t = 0x0C0.

Lemma skipn_same (A : Type) (l r : list A) : skipn (length l) (l ++ r) = r.
Proof. rewrite skipn_app, skipn_all, Nat.sub_diag. reflexivity. Qed.

(** The frames of an event, for the statuses [oks]. *)
Lemma frames_of c tick e ev :
  exists l, e_sent (ecu_step c tick e ev) = e_sent e ++ l /\
    Forall cmd_frame l /\ (length l <= 2)%nat /\
    (l = [] -> ecu_step c tick e (all_taken ev) = ecu_step c tick e ev) /\
    forall oks, length oks = length l ->
      exists l', e_sent (ecu_step c tick e (answered ev oks)) = e_sent e ++ l' /\
        map on_wire l' = map on_wire l /\ map tx_ok l' = oks /\
        (Forall (fun b => b = true) oks -> l <> [] -> answered ev oks = all_taken ev).
Proof.
  assert (Q : forall ev', (forall oks, answered ev' oks = ev') -> all_taken ev' = ev' ->
     e_sent (ecu_step c tick e ev') = e_sent e ->
     exists l, e_sent (ecu_step c tick e ev') = e_sent e ++ l /\
       Forall cmd_frame l /\ (length l <= 2)%nat /\
       (l = [] -> ecu_step c tick e (all_taken ev') = ecu_step c tick e ev') /\
       forall oks, length oks = length l ->
         exists l', e_sent (ecu_step c tick e (answered ev' oks)) = e_sent e ++ l' /\
           map on_wire l' = map on_wire l /\ map tx_ok l' = oks /\
           (Forall (fun b => b = true) oks -> l <> [] -> answered ev' oks = all_taken ev')).
  { intros ev' A1 A2 H. exists []. rewrite app_nil_r. split; [exact H|]. split; [constructor|].
    split; [cbn; lia|]. split; [now rewrite A2|]. intros [|? ?] L; [|discriminate]. exists [].
    rewrite A1, app_nil_r, H. repeat split. intros _ N. now elim N. }
  destruct ev as [i|tl il ok1 ok2|live| | | |il ok|on].
  - apply Q; try reflexivity. cbn [ecu_step]. destruct (e_pend e); [reflexivity|].
    destruct (vsm_step c tick (e_vsm e) i). reflexivity.
  - cbn [all_taken]. destruct (e_pend e) as [[[|cmd rest] m']|] eqn:P.
    1,3: exists []; rewrite app_nil_r; cbn [ecu_step]; rewrite P; (split; [reflexivity|]);
      (split; [constructor|]); (split; [cbn; lia|]); (split; [reflexivity|]);
      intros [|? ?] L; [|discriminate]; exists []; rewrite app_nil_r; cbn [answered ecu_step]; rewrite P;
      repeat split; intros _ N; now elim N.
    destruct cmd as [on| |d|en].
    1,3,4: exists []; rewrite app_nil_r; cbn [ecu_step]; rewrite P; (split; [reflexivity|]);
      (split; [constructor|]); (split; [cbn; lia|]); (split; [reflexivity|]);
      intros [|? ?] L; [|discriminate]; exists []; rewrite app_nil_r; cbn [answered ecu_step]; rewrite P;
      repeat split; intros _ N; now elim N.
    assert (S1 : forall a b, e_sent (ecu_step c tick e (EvCmd tl il a b)) =
       e_sent e ++ ir_tx (SendInverterEnabled il a b (e_inv e) true)).
    { intros a b. cbn [ecu_step]. rewrite P. reflexivity. }
    exists (ir_tx (SendInverterEnabled il ok1 ok2 (e_inv e) true)). split; [apply S1|].
    cbn [ecu_step]. rewrite P. cbn [ecu_call].
    unfold SendInverterEnabled. destruct il; cbn [negb].
    2:{ cbn [ir_tx]. split; [constructor|]. split; [cbn; lia|]. split; [reflexivity|].
        intros [|? ?] L; [|discriminate]. exists []. cbn [answered]. rewrite S1. cbn. rewrite app_nil_r.
        repeat split. intros _ N. now elim N. }
    destruct (ic_discharge (e_inv e) && true) eqn:D.
    { cbn [ir_tx]. split; [constructor|]. split; [cbn; lia|]. split; [reflexivity|].
      intros [|? ?] L; [|discriminate]. exists []. cbn [answered]. rewrite S1. unfold SendInverterEnabled.
      cbn [negb]. rewrite D. cbn. rewrite app_nil_r.
      repeat split. intros _ N. now elim N. }
    cbn [ir_tx]. destruct (negb (ic_enabled (e_inv e)) && true) eqn:Fi; cbn [app].
    + split; [repeat constructor|]. split; [cbn; lia|]. split; [discriminate|].
      intros [|a [|b [|? ?]]] L; try discriminate. cbn [answered]. rewrite S1. unfold SendInverterEnabled.
      cbn [negb]. rewrite D, Fi. cbn [ir_tx app]. eexists. split; [reflexivity|]. split; [reflexivity|].
      split; [reflexivity|]. intros A _. inversion A as [|? ? A1 A2]; subst. inversion A2; subst. reflexivity.
    + split; [repeat constructor|]. split; [cbn; lia|]. split; [discriminate|].
      intros [|a [|b ?]] L; try discriminate. cbn [answered]. rewrite S1. unfold SendInverterEnabled.
      cbn [negb]. rewrite D, Fi. cbn [ir_tx app]. eexists. split; [reflexivity|]. split; [reflexivity|].
      split; [reflexivity|]. intros A _. inversion A as [|? ? A1 A2]; subst. reflexivity.
  - apply Q; try reflexivity. cbn [ecu_step]. now destruct (e_tpc e).
  - apply Q; try reflexivity. cbn [ecu_step]. now destruct (e_tpc e).
  - apply Q; try reflexivity. cbn [ecu_step]. now destruct (e_tpc e).
  - apply Q; try reflexivity. cbn [ecu_step]. now destruct (e_tpc e).
  - cbn [all_taken]. destruct (e_tpc e) as [|?|?|?|q d] eqn:P.
    1-4: exists []; rewrite app_nil_r; cbn [ecu_step]; rewrite P; (split; [reflexivity|]);
      (split; [constructor|]); (split; [cbn; lia|]); (split; [reflexivity|]);
      intros [|? ?] L; [|discriminate]; exists []; rewrite app_nil_r; cbn [answered ecu_step]; rewrite P;
      repeat split; intros _ N; now elim N.
    cbn [ecu_step]. rewrite P. unfold SendTorqueCommand.
    destruct (flt q f_zero || fgt q INVERTER_MAX_TORQUE) eqn:G1;
      [|destruct (negb il) eqn:G2; [|destruct (negb (ic_enabled (e_inv e))) eqn:G3]].
    1-3: exists []; cbn [ir_tx e_sent]; rewrite app_nil_r; (split; [reflexivity|]);
      (split; [constructor|]); (split; [cbn; lia|]); (split; [reflexivity|]);
      intros [|? ?] L; [|discriminate]; exists []; rewrite app_nil_r; cbn [answered ecu_step]; rewrite P;
      unfold SendTorqueCommand; rewrite ?G1, ?G2, ?G3; cbn [ir_tx e_sent]; rewrite ?app_nil_r;
      repeat split; intros _ N; now elim N.
    unfold SendCANCommand. destruct (torqueToMsg q) as [m|] eqn:T.
    + eexists [_]. cbn [ir_tx e_sent]. split; [reflexivity|]. split; [repeat constructor|]. split; [cbn; lia|].
      split; [discriminate|]. intros [|a [|? ?]] L; try discriminate. cbn [answered ecu_step]. rewrite P.
      unfold SendTorqueCommand. rewrite G1, G2, G3. unfold SendCANCommand. rewrite T. cbn [ir_tx e_sent].
      eexists. split; [reflexivity|]. split; [reflexivity|]. split; [reflexivity|].
      intros A _. inversion A; subst. reflexivity.
    + exists []. cbn [e_sent]. rewrite app_nil_r. split; [reflexivity|]. split; [constructor|]. split; [cbn; lia|].
      split; [reflexivity|]. intros [|? ?] L; [|discriminate]. exists []. rewrite app_nil_r. cbn [answered ecu_step].
      rewrite P. unfold SendTorqueCommand. rewrite G1, G2, G3. unfold SendCANCommand. rewrite T.
      repeat split. intros _ N. now elim N.
  - apply Q; reflexivity.
Qed.

Lemma cmd_len l : Forall cmd_frame l -> Forall (fun t => length (tx_data t) = 8%nat) l.
Proof. apply Forall_impl. now intros t [H _]. Qed.

Lemma attempts_eq c tick e ev l : e_sent (ecu_step c tick e ev) = e_sent e ++ l -> attempts c tick e ev = l.
Proof. intros H. unfold attempts. rewrite H. apply skipn_same. Qed.

(** ** The board *)
Lemma board_run_app c tick m0 a b :
  board_run c tick m0 (a ++ b) = fold_left (board_step c tick) b (board_run c tick m0 a).
Proof. unfold board_run. apply fold_left_app. Qed.
Lemma board_run_snoc c tick m0 bs ev :
  board_run c tick m0 (bs ++ [ev]) = board_step c tick (board_run c tick m0 bs) ev.
Proof. unfold board_run. now rewrite fold_left_app. Qed.

Lemma taken_wire : forall l l' oks, map on_wire l' = map on_wire l -> map tx_ok l' = oks ->
  map on_wire (filter tx_ok l') = map on_wire (taken l oks).
Proof.
  induction l as [|t l IH]; intros [|t' l'] oks W O; try discriminate; cbn in *; [reflexivity|].
  injection W as W1 W2 W3. subst oks. cbn [taken]. specialize (IH l' (map tx_ok l') W3 eq_refl).
  destruct (tx_ok t'); cbn [map app]; [|exact IH]. rewrite IH. f_equal. unfold on_wire. congruence.
Qed.
Lemma taken_len : forall (P : tx -> Prop) l oks, Forall P l -> Forall P (taken l oks).
Proof.
  intros P. induction l as [|t l IH]; intros [|b oks] F; cbn [taken]; try constructor.
  inversion F; subst. apply Forall_app. split; [destruct b; auto|auto].
Qed.
Definition pair_of (it : tx_item) : Z * list Z := (ti_id it, ti_data it).
Lemma items_wire : forall l, Forall (fun t => length (tx_data t) = 8%nat) l ->
  map pair_of (map (fun t => item t) l) = map on_wire l.
Proof.
  induction 1 as [|t l H F IH]; [reflexivity|]. cbn [map]. rewrite IH. f_equal. unfold pair_of, on_wire. cbn [ti_id ti_data].
  f_equal. apply firstn_all2. rewrite H. apply Nat.le_refl.
Qed.

Record board_inv c tick m0 (bs : list board_event) (b : board) : Prop := {
  bi_tx : exists tr, tx_run (tx_config shipped_ie) tr = Some (bd_tx b);
  bi_acc : map pair_of (tx_acc (bd_tx b)) = accepted_commands (bd_ecu b);
  bi_ecu : exists es, bd_ecu b = ecu_run c tick m0 es /\
           forall P : ecu_event -> Prop, (forall ev oks, P ev -> P (answered ev oks)) -> cpu_events P bs -> Forall P es }.

Lemma board_inv_run c tick m0 : forall bs, board_inv c tick m0 bs (board_run c tick m0 bs).
Proof.
  induction bs as [|ev bs IH] using rev_ind.
  - constructor; [now exists []|reflexivity|]. exists []. split; [reflexivity|constructor].
  - rewrite board_run_snoc. set (b := board_run c tick m0 bs) in *. destruct IH as [(tr & R) A (es & E & PL)].
    assert (KE : forall ev', (forall P : ecu_event -> Prop, cpu_events P (bs ++ [ev']) -> cpu_events P bs)).
    { intros ev' P H. apply Forall_app in H. tauto. }
    destruct ev as [x| |sent|]; cbn [board_step].
    + destruct (bd_stopped b).
      { constructor; [eauto|exact A|]. exists es. split; [exact E|]. intros P HP H. apply PL; auto. eapply KE; exact H. }
      destruct (frames_of c tick (bd_ecu b) x) as (l & S1 & F8 & _ & _ & AN). apply cmd_len in F8. rewrite (attempts_eq _ _ _ _ _ S1).
      pose proof (give_spec l (bd_tx b) F8) as G. destruct (give (bd_tx b) l) as [d oks].
      destruct G as (L & (tr' & R') & AC). destruct (AN oks L) as (l' & S2 & W & O & _).
      constructor; cbn [bd_tx bd_ecu].
      * exists (tr ++ tr'). rewrite tx_run_app, R. exact R'.
      * rewrite AC, map_app, A, (items_wire _ (taken_len _ _ _ F8)). unfold accepted_commands.
        rewrite S2, filter_app, map_app. f_equal. symmetry. now apply taken_wire.
      * exists (es ++ [answered x oks]). rewrite ecu_run_snoc, <- E. split; [reflexivity|].
        intros P HP H. apply Forall_app in H as [H1 H2]. apply Forall_app. split; [now apply PL|].
        constructor; [|constructor]. apply HP. now inversion H2.
    + constructor; cbn [bd_tx bd_ecu].
      * exists (tr ++ [TxStart]). rewrite tx_run_app, R. reflexivity.
      * rewrite <- A. unfold hw_start. now destruct (tx_cur (bd_tx b)).
      * exists es. split; [exact E|]. intros P HP H. apply PL; auto. eapply KE; exact H.
    + constructor; cbn [bd_tx bd_ecu].
      * exists (tr ++ [TxDone sent]). rewrite tx_run_app, R. reflexivity.
      * rewrite <- A. unfold hw_done. destruct (tx_cur (bd_tx b)); [|reflexivity].
        destruct (tx_ie (bd_tx b)); [|reflexivity].
        match goal with |- context[ISR_TxComplete ?x] => destruct (CanDriverProof.isr_spec x) as (mv & _ & _ & _ & _ & _ & I & _) end.
        rewrite I. reflexivity.
      * exists es. split; [exact E|]. intros P HP H. apply PL; auto. eapply KE; exact H.
    + constructor; cbn [bd_tx bd_ecu]; [eauto|exact A|]. exists es. split; [exact E|].
      intros P HP H. apply PL; auto. eapply KE; exact H.
Qed.

Lemma bus_accounted c tick m0 bs : let b := board_run c tick m0 bs in
  exists lost, Permutation (accepted_commands (bd_ecu b))
    (bus_of b ++ map pair_of (in_mailboxes (tx_mb (bd_tx b)) ++ tx_q (bd_tx b) ++ lost)).
Proof.
  intros b. destruct (board_inv_run c tick m0 bs) as [(tr & R) A _]. fold b in R, A.
  destruct (CanDriverProof.acct_run tr (tx_config shipped_ie) [] _ ltac:(discriminate 1) (perm_nil _) R) as (_ & lost & AC & _).
  exists lost. rewrite <- A. unfold CanDriverProof.acct in AC. rewrite AC. rewrite map_app. reflexivity.
Qed.

(** ** A bus that keeps up *)
Definition idle_can (d : can_tx) : Prop :=
  tx_mb d = [None; None; None] /\ tx_q d = [] /\ tx_cur d = None /\ tx_ie d = false.

Lemma give_idle l d : idle_can d -> Forall cmd_frame l -> (length l <= 2)%nat ->
  exists d', give d l = (d', repeat true (length l)) /\
    let d4 := hw_done (hw_start (hw_done (hw_start d') true)) true in
    idle_can d4 /\ tx_bus d4 = tx_bus d ++ map (fun t => item t) l.
Proof.
  destruct d as [mb q bus cur ie hand acc]. intros (M & Q & C & I) F L. cbn in M, Q, C, I. subst mb q cur ie.
  assert (G : forall (m : list (option tx_item)) h a t, cmd_frame t -> 0 < free_level m ->
    give1 (CanDriver.mkTx m [] bus None false h a) t =
    match fill_mailbox m (item t) with
    | Some m' => (CanDriver.mkTx m' [] bus None false (h ++ [item t]) (a ++ [item t]), true)
    | None => (CanDriver.mkTx m [] bus None false h a, false)
    end).
  { intros m h a t [L8 _] FL. unfold give1, CAN_SendMessage. change ((8 <? 0) || (8 <? 8)) with false. cbv iota.
    cbn [tx_mb tx_q tx_bus tx_cur tx_ie tx_hand tx_acc].
    replace (0 <? free_level m) with true by lia. rewrite L8. change (Z.of_nat 8 <? 8) with false. cbn [negb].
    destruct (fill_mailbox m _); reflexivity. }
  destruct l as [|t1 [|t2 [|? ?]]]; [..|cbn in L; lia].
  - eexists. split; [reflexivity|]. cbn. split; [repeat split|now rewrite app_nil_r].
  - inversion F; subst. cbn [give]. rewrite G by (auto; reflexivity). cbn [fill_mailbox].
    eexists. split; [reflexivity|]. cbn. split; [repeat split|]. reflexivity.
  - inversion F as [|? ? F1 F2]; subst. inversion F2 as [|? ? F3 _]; subst. cbn [give].
    rewrite G by (auto; reflexivity). cbn [fill_mailbox].
    rewrite G by (auto; reflexivity). cbn [fill_mailbox].
    eexists. split; [reflexivity|]. cbv zeta.
    cbn [hw_start tx_cur tx_mb arbiter ti_id tx_q tx_bus tx_ie tx_hand tx_acc].
    replace (tx_id t2 <? tx_id t1) with false by (destruct F1 as [_ ->], F3 as [_ ->]; reflexivity).
    cbn [hw_start hw_done nth_error clear_mb tx_cur tx_mb arbiter ti_id tx_q tx_bus tx_ie tx_hand tx_acc].
    split; [repeat split|]. cbn [map]. now rewrite <- app_assoc.
Qed.

Lemma keeps_up_run c tick m0 : forall es, let b := board_run c tick m0 (keeps_up es) in
  bd_ecu b = ecu_run c tick m0 (map all_taken es) /\ bd_stopped b = false /\ idle_can (bd_tx b) /\
  bus_of b = map on_wire (e_sent (ecu_run c tick m0 (map all_taken es))).
Proof.
  induction es as [|ev es IH] using rev_ind; cbv zeta.
  - repeat split.
  - cbv zeta in IH. unfold keeps_up. rewrite flat_map_app. fold (keeps_up es). cbn [flat_map app].
    unfold board_run. rewrite fold_left_app. fold (board_run c tick m0 (keeps_up es)).
    set (b := board_run c tick m0 (keeps_up es)) in *. destruct IH as (E & ST & ID & B).
    rewrite map_app. cbn [map]. rewrite ecu_run_snoc, <- E in *. clear E.
    destruct (frames_of c tick (bd_ecu b) ev) as (l & S1 & F8 & L2 & NIL & AN).
    destruct (give_idle l _ ID F8 L2) as (d & G & I4 & B4).
    assert (ST1 : board_step c tick b (BEcu ev) =
              mkBoard (ecu_step c tick (bd_ecu b) (answered ev (repeat true (length l)))) d false).
    { cbn [board_step]. rewrite ST, (attempts_eq _ _ _ _ _ S1), G. reflexivity. }
    cbn [fold_left]. rewrite ST1. cbn [board_step bd_ecu bd_tx bd_stopped].
    destruct (AN (repeat true (length l)) (repeat_length _ _)) as (l' & S2 & W & O & AT).
    assert (EQ : ecu_step c tick (bd_ecu b) (answered ev (repeat true (length l))) =
                 ecu_step c tick (bd_ecu b) (all_taken ev)).
    { destruct l as [|t l].
      - rewrite NIL by reflexivity. cbn [length repeat]. now destruct ev.
      - f_equal. apply AT; [|discriminate]. apply Forall_forall. intros x H. now apply repeat_spec in H. }
    rewrite <- EQ. split; [reflexivity|]. split; [reflexivity|]. split; [exact I4|].
    unfold bus_of, wire in *. cbn [bd_tx]. rewrite B4, map_app, B, S2, map_app. f_equal.
    rewrite W. apply items_wire, cmd_len, F8.
Qed.

(** ** A stopped processor *)
Lemma stopped_run c tick : forall bs b, bd_stopped b = true ->
  let b' := fold_left (board_step c tick) bs b in
  bd_ecu b' = bd_ecu b /\ bd_stopped b' = true.
Proof.
  induction bs as [|ev bs IH]; intros b S; [auto|]. cbn [fold_left].
  assert (H : bd_ecu (board_step c tick b ev) = bd_ecu b /\ bd_stopped (board_step c tick b ev) = true).
  { destruct ev; cbn [board_step]; rewrite ?S; auto. }
  destruct H as [H1 H2]. destruct (IH _ H2) as [I1 I2]. cbv zeta. rewrite I1, H1. auto.
Qed.

Lemma stopped_frames c tick : forall bs b, bd_stopped b = true -> tx_ie (bd_tx b) = false ->
  CanDriverProof.cur_ok (bd_tx b) ->
  let b' := fold_left (board_step c tick) bs b in
  exists l lost, tx_bus (bd_tx b') = tx_bus (bd_tx b) ++ l /\
    Permutation (in_mailboxes (tx_mb (bd_tx b))) (l ++ lost ++ in_mailboxes (tx_mb (bd_tx b'))).
Proof.
  induction bs as [|ev bs IH]; intros b S IE K.
  - exists [], []. rewrite app_nil_r. split; [reflexivity|]. reflexivity.
  - cbn [fold_left].
    assert (H : exists l lost, tx_bus (bd_tx (board_step c tick b ev)) = tx_bus (bd_tx b) ++ l /\
       Permutation (in_mailboxes (tx_mb (bd_tx b))) (l ++ lost ++ in_mailboxes (tx_mb (bd_tx (board_step c tick b ev)))) /\
       bd_stopped (board_step c tick b ev) = true /\ tx_ie (bd_tx (board_step c tick b ev)) = false /\
       CanDriverProof.cur_ok (bd_tx (board_step c tick b ev))).
    { destruct ev as [x| |sent|]; cbn [board_step].
      - rewrite S. exists [], []. rewrite app_nil_r. auto.
      - exists [], []. rewrite app_nil_r. cbn [bd_tx bd_stopped]. unfold hw_start.
        destruct (tx_cur (bd_tx b)) eqn:C; [auto|]. cbn. repeat split; auto.
        intros j Hj. cbn in *. apply CanDriverProof.arbiter_some in Hj.
        destruct Hj as [[k Hj]|(m & y & -> & N)]; [discriminate|]. eauto.
      - cbn [bd_tx bd_stopped]. unfold hw_done. destruct (tx_cur (bd_tx b)) as [j|] eqn:C.
        + destruct (K j C) as [it N]. rewrite N, IE. cbn [tx_bus tx_mb tx_ie tx_cur].
          pose proof (CanDriverProof.clear_spec _ _ _ N) as P.
          exists (if sent then [it] else []), (if sent then [] else [it]).
          split; [reflexivity|]. split; [rewrite P; destruct sent; reflexivity|].
          repeat split; auto. intros i Hi. discriminate.
        + exists [], []. rewrite app_nil_r. auto.
      - exists [], []. rewrite app_nil_r. auto. }
    destruct H as (l & lost & B & P & S' & IE' & K'). destruct (IH _ S' IE' K') as (l2 & lost2 & B2 & P2).
    exists (l ++ l2), (lost ++ lost2). cbv zeta. rewrite B2, B, <- app_assoc. split; [reflexivity|].
    rewrite P, P2. rewrite <- !app_assoc. apply Permutation_app_head. rewrite !app_assoc.
    do 2 apply Permutation_app_tail. apply Permutation_app_comm.
Qed.

Lemma stop_keeps c tick m0 bs0 bs st pin tq :
  in_mailboxes (tx_mb (bd_tx (board_run c tick m0 bs0))) = [] ->
  (vm_state (e_vsm (bd_ecu (board_run c tick m0 bs0))), e_pin (bd_ecu (board_run c tick m0 bs0)),
   told_torque (board_run c tick m0 bs0)) = (st, pin, tq) ->
  let b' := board_run c tick m0 (bs0 ++ BStop :: bs) in
  vm_state (e_vsm (bd_ecu b')) = st /\ e_pin (bd_ecu b') = pin /\ told_torque b' = tq.
Proof.
  intros M H. cbv zeta. rewrite board_run_app. cbn [fold_left board_step].
  destruct (board_inv_run c tick m0 bs0) as [(tr & R) _ _].
  destruct (CanDriverProof.acct_run tr (tx_config shipped_ie) [] _ ltac:(discriminate 1) (perm_nil _) R) as (K & _).
  destruct (CanDriverProof.stuck_run tr (tx_config shipped_ie) _ eq_refl R) as (IE & _). clear R.
  revert M H K IE. generalize (board_run c tick m0 bs0). intros b M H K IE. injection H as <- <- <-.
  set (b1 := mkBoard (bd_ecu b) (bd_tx b) true).
  destruct (stopped_run c tick bs b1 eq_refl) as (E & _). rewrite E. split; [reflexivity|]. split; [reflexivity|].
  destruct (stopped_frames c tick bs b1 eq_refl IE K) as (l & lost & B & P). cbn [b1 bd_tx] in B, P.
  rewrite M in P. apply Permutation_nil, app_eq_nil in P as [-> _]. rewrite app_nil_r in B.
  unfold told_torque, bus_of, wire. now rewrite B.
Qed.

Lemma mailboxes_three c tick m0 bs : (length (in_mailboxes (tx_mb (bd_tx (board_run c tick m0 bs)))) <= 3)%nat.
Proof.
  destruct (board_inv_run c tick m0 bs) as [(tr & R) _ _]. revert R. generalize (bd_tx (board_run c tick m0 bs)).
  assert (G : forall tr d d', length (tx_mb d) = 3%nat -> tx_run d tr = Some d' -> length (tx_mb d') = 3%nat).
  { clear. induction tr as [|e tr IH]; intros d d' L R; cbn [tx_run] in R; [injection R as <-; exact L|].
    destruct (tx_step d e) as [d1|] eqn:S; [|discriminate]. apply (IH d1); auto. clear IH R.
    assert (FL : forall mb it mb', fill_mailbox mb it = Some mb' -> length mb' = length mb).
    { induction mb as [|[y|] mb IH]; intros it mb' H; cbn in H; try discriminate.
      - destruct (fill_mailbox mb it) eqn:F; [|discriminate]. injection H as <-. cbn. f_equal. eauto.
      - injection H as <-. reflexivity. }
    destruct e as [i dd n ok| |sent]; cbn [tx_step] in S.
    - destruct (CAN_SendMessage d i dd n ok) as [[d2 st]|] eqn:E; [|discriminate]. injection S as <-.
      apply CanDriverProof.send_cases in E. cbv zeta in E.
      destruct E as [[-> _]|[(_ & _ & mb & F & ->)|(_ & _ & ->)]]; cbn [tx_mb]; auto. rewrite (FL _ _ _ F). exact L.
    - injection S as <-. unfold hw_start. destruct (tx_cur d); exact L.
    - injection S as <-. unfold hw_done. destruct (tx_cur d) as [j|]; [|exact L].
      assert (CL : forall mb k, length (clear_mb mb k) = length mb).
      { induction mb as [|m mb IH]; intros [|k]; cbn; auto. }
      destruct (tx_ie d); [|cbn [tx_mb]; rewrite CL; exact L].
      unfold ISR_TxComplete. cbn [tx_mb tx_q tx_hand].
      assert (TD : forall q mb h, length (fst (fst (tx_drain mb q h))) = length mb).
      { induction q as [|it q IH]; intros mb h; cbn [tx_drain]; [reflexivity|]. destruct (0 <? free_level mb); [|reflexivity].
        destruct (fill_mailbox mb it) eqn:F; [|reflexivity]. rewrite IH. eauto. }
      pose proof (TD (tx_q d) (clear_mb (tx_mb d) j) (tx_hand d)) as T.
      destruct (tx_drain (clear_mb (tx_mb d) j) (tx_q d) (tx_hand d)) as [[mb q] h]. cbn in T |- *. rewrite T, CL. exact L. }
  intros d R. specialize (G tr (tx_config shipped_ie) d eq_refl R). destruct (tx_mb d) as [|a [|b [|c0 [|? ?]]]]; try discriminate.
  destruct a, b, c0; cbn; lia.
Qed.

(** ** Frames of the ECU *)
Lemma sent_eight c tick m0 : forall es, Forall (fun t => length (tx_data t) = 8%nat) (e_sent (ecu_run c tick m0 es)).
Proof.
  induction es as [|ev es IH] using rev_ind; [constructor|]. rewrite ecu_run_snoc.
  destruct (frames_of c tick (ecu_run c tick m0 es) ev) as (l & S & F & _). rewrite S. apply Forall_app. split; [exact IH|].
  now apply cmd_len.
Qed.

Lemma zero_sent c tick m0 es live : vsm_init c tick = Some m0 -> Forall waits es ->
  let e := ecu_run c tick m0 es in
  ~ driving e -> e_tpc e = TIdle -> ic_enabled (e_inv e) = true ->
  exists t, e_sent (ecu_run c tick m0 (es ++ activation live true true)) = e_sent e ++ [t] /\
    frame_torque (tx_data t) = 0.
Proof.
  intros HI W e ND ID EN.
  destruct (run_base c tick m0 es HI) as (BA & TE & _). pose proof BA as [_ _ _ _ (F1 & F2 & F3)].
  specialize (TE W). cbv zeta in TE. fold e in F1, F2, F3, TE.
  assert (TF : th_enabled (e_thr e) = false).
  { rewrite TE. destruct (enabled_at e) eqn:EA; auto. exfalso. apply ND. now apply enabled_driving. }
  unfold ecu_run. rewrite fold_left_app. fold (ecu_run c tick m0 es). fold e.
  rewrite EcuPedal.activation_run by auto. rewrite TF. cbn [ecu_step set_tpc e_tpc e_inv].
  unfold SendTorqueCommand. rewrite EN.
  change (flt f_zero f_zero || fgt f_zero INVERTER_MAX_TORQUE) with false. cbn [negb].
  unfold SendCANCommand. change (torqueToMsg f_zero) with (Some 0). cbn [ir_tx e_sent].
  eexists. split; [reflexivity|]. reflexivity.
Qed.

Lemma hung_throttle c tick m0 es es1 : vsm_init c tick = Some m0 ->
  forallb (fun ev => negb (is_throttle ev)) es1 = true ->
  exists l, e_sent (ecu_run c tick m0 (es ++ es1)) = e_sent (ecu_run c tick m0 es) ++ l /\
    Forall (fun t => asks_torque t = false) l.
Proof.
  intros HI. induction es1 as [|ev es1 IH] using rev_ind; intros NT.
  - exists []. rewrite !app_nil_r. split; [reflexivity|constructor].
  - rewrite forallb_app in NT. apply andb_prop in NT as [N1 N2]. destruct (IH N1) as (l & S & F).
    rewrite app_assoc, ecu_run_snoc. set (e := ecu_run c tick m0 (es ++ es1)) in *.
    destruct ev as [i|tl il ok1 ok2|live| | | |il ok|on]; try discriminate N2; cbn [ecu_step].
    + exists l. split; [|exact F]. rewrite <- S. destruct (e_pend e); [reflexivity|].
      destruct (vsm_step c tick (e_vsm e) i). reflexivity.
    + destruct (e_pend e) as [[[|cmd rest] m']|]; [exists l; auto| |exists l; auto].
      destruct cmd; cbn [ecu_call e_sent]; [exists l; auto| |exists l; auto|exists l; auto].
      eexists. rewrite S, <- app_assoc. split; [reflexivity|]. apply Forall_app. split; [exact F|].
      unfold SendInverterEnabled. destruct (negb il); [constructor|].
      destruct (ic_discharge (e_inv e) && true); [constructor|].
      cbn [ir_tx]. destruct (_ && true); repeat constructor.
    + exists l. auto.
Qed.

Lemma throttle_unseen c tick m0 : forall es,
  let e := ecu_run c tick m0 es in
  let e' := ecu_run c tick m0 (filter (fun ev => negb (is_throttle ev)) es) in
  e_vsm e = e_vsm e' /\ e_pend e = e_pend e' /\ e_pin e = e_pin e'.
Proof.
  induction es as [|ev es IH] using rev_ind; [auto|]. cbv zeta in *.
  rewrite filter_app, ecu_run_snoc. cbn [filter].
  set (e := ecu_run c tick m0 es) in *. set (e' := ecu_run c tick m0 (filter _ es)) in *.
  destruct IH as (V & P & PI).
  destruct ev as [i|tl il ok1 ok2|live| | | |il ok|on]; cbn [is_throttle negb]; rewrite ?app_nil_r, ?ecu_run_snoc; fold e'; cbn [ecu_step].
  - rewrite P, V. destruct (e_pend e') eqn:Q; [rewrite Q; auto|]. destruct (vsm_step c tick (e_vsm e') i). cbn. auto.
  - rewrite P. destruct (e_pend e') as [[[|cmd rest] m']|] eqn:Q; [|destruct cmd; cbn; auto|rewrite Q; auto].
    cbn. auto.
  - destruct (e_tpc e); cbn; auto.
  - destruct (e_tpc e); cbn; auto.
  - destruct (e_tpc e); cbn; auto.
  - destruct (e_tpc e); cbn; auto.
  - destruct (e_tpc e) as [|?|?|?|q d]; cbn; auto. destruct (SendTorqueCommand il ok (e_inv e) q d); cbn; auto.
  - cbn. auto.
Qed.

Lemma hung_manager c tick m0 es : vsm_init c tick = Some m0 -> Forall waits es ->
  let e := ecu_run c tick m0 es in
  vm_state (e_vsm e) = StActiveForward -> e_pend e = None -> e_tpc e = TIdle -> ic_enabled (e_inv e) = true ->
  forall ds, Forall (fun d => f_ok (accel_in d) = true) ds ->
  let e' := ecu_run c tick m0 (es ++ flat_map (fun d => activation (Some d) true true) ds) in
  e_vsm e' = e_vsm e /\ e_pin e' = e_pin e /\
  exists ts, e_sent e' = e_sent e ++ ts /\
    Forall2 (fun d t => exists y, frame_enable (tx_data t) = true /\
       TorqueSpec.pedal_torque (accel_in d) y /\ TorqueSpec.stands_for (frame_torque (tx_data t)) y) ds ts.
Proof.
  intros HI W e ST PE ID EN. cbv zeta.
  assert (G : forall ds, Forall (fun d => f_ok (accel_in d) = true) ds ->
    let e' := ecu_run c tick m0 (es ++ flat_map (fun d => activation (Some d) true true) ds) in
    e_vsm e' = e_vsm e /\ e_pin e' = e_pin e /\ e_pend e' = None /\ e_tpc e' = TIdle /\ e_inv e' = e_inv e /\
    exists ts, e_sent e' = e_sent e ++ ts /\
    Forall2 (fun d t => exists y, frame_enable (tx_data t) = true /\
       TorqueSpec.pedal_torque (accel_in d) y /\ TorqueSpec.stands_for (frame_torque (tx_data t)) y) ds ts).
  { induction ds as [|d ds IH] using rev_ind; intros F; cbv zeta.
    - cbn [flat_map]. rewrite app_nil_r. fold e. repeat split; auto. exists []. rewrite app_nil_r. auto.
    - apply Forall_app in F as [F1 F2]. specialize (IH F1). cbv zeta in IH.
      rewrite flat_map_app, app_assoc. set (es2 := es ++ flat_map _ ds) in *.
      destruct IH as (V & PI & PE2 & ID2 & IV & ts & S & R). cbn [flat_map]. rewrite app_nil_r.
      assert (W2 : Forall waits es2).
      { apply Forall_app. split; [exact W|]. clear. induction ds as [|x ds IH]; [constructor|]. cbn [flat_map].
        apply Forall_app. split; [repeat constructor|exact IH]. }
      destruct (EcuPedal.pedal_reaches c tick m0 es2 d true HI W2) as (t & y & S1 & FE & FD & Y1 & Y2); auto.
      { now rewrite V. } { now rewrite IV. } { now inversion F2. }
      assert (O : let e2 := ecu_run c tick m0 (es2 ++ activation (Some d) true true) in
        e_vsm e2 = e_vsm (ecu_run c tick m0 es2) /\ e_pin e2 = e_pin (ecu_run c tick m0 es2) /\ e_pend e2 = e_pend (ecu_run c tick m0 es2) /\
        e_tpc e2 = TIdle /\ e_inv e2 = e_inv (ecu_run c tick m0 es2)).
      { cbv zeta. destruct (run_base c tick m0 es2 HI) as ([_ _ _ _ (B1 & B2 & B3)] & _).
        unfold ecu_run at 1 3 5 7 8. rewrite fold_left_app. fold (ecu_run c tick m0 es2).
        rewrite EcuPedal.activation_run by auto. cbn [ecu_step set_tpc e_tpc e_inv].
        match goal with |- context[SendTorqueCommand ?a ?b ?q ?x ?y] => destruct (SendTorqueCommand a b q x y) as [r|] eqn:SR end;
          cbn; repeat split; auto.
        revert SR. unfold SendTorqueCommand. destruct (_ || _); [intros SR; injection SR as <-; reflexivity|]. cbn [negb].
        destruct (negb _); [intros SR; injection SR as <-; reflexivity|].
        destruct (SendCANCommand _ _ _ _ _); [|discriminate]. intros SR; injection SR as <-; reflexivity. }
      cbv zeta in O. destruct O as (O1 & O2 & O3 & O4 & O5).
      rewrite O1, O2, O3, O4, O5. repeat split; auto. exists (ts ++ [t]). rewrite S1, S, <- app_assoc. split; [reflexivity|].
      apply Forall2_app; [exact R|]. constructor; [|constructor]. eauto. }
  intros ds F. destruct (G ds F) as (A & B & _ & _ & _ & C). auto.
Qed.

Lemma hung_manager_low c tick m0 es : vsm_init c tick = Some m0 -> Forall waits es ->
  (vm_state (e_vsm (ecu_run c tick m0 es)), e_pend (ecu_run c tick m0 es), e_tpc (ecu_run c tick m0 es),
   ic_enabled (e_inv (ecu_run c tick m0 es)), e_pin (ecu_run c tick m0 es)) = (StActiveForward, None, TIdle, true, false) ->
  forall ds, Forall (fun d => f_ok (accel_in d) = true) ds ->
  let e' := ecu_run c tick m0 (es ++ flat_map (fun d => activation (Some d) true true) ds) in
  vm_state (e_vsm e') = StActiveForward /\ e_pin e' = false /\
  exists ts, e_sent e' = e_sent (ecu_run c tick m0 es) ++ ts /\
    Forall2 (fun d t => exists y, frame_enable (tx_data t) = true /\
       TorqueSpec.pedal_torque (accel_in d) y /\ TorqueSpec.stands_for (frame_torque (tx_data t)) y) ds ts.
Proof.
  intros HI W H ds F. injection H as H1 H2 H3 H4 H5. cbv zeta.
  destruct (hung_manager c tick m0 es HI W H1 H2 H3 H4 ds F) as (V & PI & T). rewrite V, PI. auto.
Qed.
