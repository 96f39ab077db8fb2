From Verif.Model Require Import BusOff.
From Verif.Spec Require Import BusOffSpec.
From Coq Require Import Lia ZifyBool ZifyNat.

Lemma run_app abom tr tr' s :
  node_run abom s (tr ++ tr') =
  match node_run abom s tr with Some s' => node_run abom s' tr' | None => None end.
Proof.
  revert s. induction tr as [|e tr IH]; intros s; [reflexivity|]. cbn [app node_run].
  destruct (node_step abom s e); [apply IH|reflexivity].
Qed.

(** The transmit counter against the failures seen. *)
Definition tec_ok (k : Z) (s : node) : Prop :=
  0 <= fc_tec (nd_fc s) <= 8 * k /\ (fc_off (nd_fc s) = true -> 256 <= 8 * k).

Lemma tec_step abom s e s' k :
  tec_ok k s -> 0 <= k -> node_step abom s e = Some s' ->
  tec_ok (k + match e with NFailed Disturbed | NFailed NoAck => 1 | _ => 0 end) s'.
Proof.
  intros [T O] K H. unfold tec_ok. destruct e as [i d n| | | |f|h|b|]; cbn [node_step] in H.
  - destruct (CAN_SendMessage _ _ _ _ _) as [[c st]|]; [injection H as <-|discriminate]. cbn [nd_fc]. split; [lia|intros X; specialize (O X); lia].
  - injection H as <-. split; [lia|intros X; specialize (O X); lia].
  - injection H as <-. replace (nd_fc (if fc_off (nd_fc s) then s else _)) with (nd_fc s)
      by (destruct (fc_off (nd_fc s)); reflexivity).
    split; [lia|intros X; specialize (O X); lia].
  - injection H as <-. destruct (tx_cur (nd_tx s)); [destruct (fc_off (nd_fc s)) eqn:F|];
      cbn [nd_fc count_tx_ok fc_tec fc_off]; rewrite ?F; split; try lia; intros X; try (specialize (O X)); lia.
  - injection H as <-. assert (KK : k <= k + match f with LostArbitration => 0 | _ => 1 end) by (destruct f; lia).
    replace (match f with NoAck | Disturbed => 1 | LostArbitration => 0 end) with
      (match f with LostArbitration => 0 | _ => 1 end) by (destruct f; reflexivity).
    destruct (tx_cur (nd_tx s)); [destruct (fc_off (nd_fc s)) eqn:F|].
    + rewrite F. split; [lia|intros X; specialize (O eq_refl); lia].
    + cbn [nd_fc]. destruct f; cbn [count_tx_error].
      * destruct (passive (nd_fc s)); cbn [fc_tec fc_off]; [split; [lia|congruence]|split; [lia|intros X; lia]].
      * cbn [fc_tec fc_off]. split; [lia|intros X; lia].
      * split; [lia|congruence].
    + split; [lia|intros X; specialize (O X); lia].
  - injection H as <-. destruct (fc_off (nd_fc s)) eqn:F; cbn [nd_fc count_rx_ok fc_tec fc_off]; rewrite ?F; split; try lia; intros X; try discriminate; specialize (O X); lia.
  - injection H as <-. destruct (fc_off (nd_fc s)) eqn:F; cbn [nd_fc count_rx_error fc_tec fc_off]; rewrite ?F; split; try lia; intros X; try discriminate; specialize (O X); lia.
  - injection H as <-. cbn [nd_fc]. unfold recover. destruct (fc_off (nd_fc s) && abom) eqn:F.
    + apply andb_prop in F. destruct F as [F _]. destruct (127 <=? fc_idle (nd_fc s)); cbn [fc_tec fc_off fc_reset]; split; try lia; try discriminate.
    + split; [lia|intros X; specialize (O X); lia].
Qed.

Lemma tec_run abom tr : forall s s' k,
  tec_ok k s -> 0 <= k -> node_run abom s tr = Some s' -> tec_ok (k + counted_failures tr) s'.
Proof.
  induction tr as [|e tr IH]; intros s s' k T K R; cbn [node_run] in R.
  - injection R as <-. unfold counted_failures. cbn [filter length]. now rewrite Z.add_0_r.
  - destruct (node_step abom s e) as [s1|] eqn:E; [|discriminate].
    pose proof (tec_step abom s e s1 k T K E) as T1.
    set (j := match e with NFailed Disturbed | NFailed NoAck => 1 | _ => 0 end) in *.
    assert (J : 0 <= j) by (unfold j; destruct e as [| | | |[]| | |]; lia).
    replace (k + counted_failures (e :: tr)) with ((k + j) + counted_failures tr).
    + apply (IH s1 s'); [exact T1|lia|exact R].
    + unfold counted_failures, j. cbn [filter]. destruct e as [| | | |[]| | |]; cbn [length]; lia.
Qed.

(** Without disturbances the counter stays below 136. *)
Definition alone (s : node) : Prop := 0 <= fc_tec (nd_fc s) <= 135 /\ fc_off (nd_fc s) = false.

Lemma alone_step abom s e s' :
  alone s -> e <> NFailed Disturbed -> node_step abom s e = Some s' -> alone s'.
Proof.
  intros [T O] N H. destruct e as [i d n| | | |f|h|b|]; cbn [node_step] in H; rewrite ?O in H.
  - destruct (CAN_SendMessage _ _ _ _ _) as [[c st]|]; [injection H as <-|discriminate]. now split.
  - injection H as <-. now split.
  - injection H as <-. now split.
  - injection H as <-. destruct (tx_cur (nd_tx s)); split; cbn [nd_fc count_tx_ok fc_tec fc_off]; auto; lia.
  - injection H as <-. destruct (tx_cur (nd_tx s)); [|now split]. destruct f; [|congruence|now split].
    unfold alone. cbn [nd_fc count_tx_error]. destruct (passive (nd_fc s)) eqn:P; [now split|].
    unfold passive in P. cbn [fc_tec fc_off]. lia.
  - injection H as <-. now split.
  - injection H as <-. now split.
  - injection H as <-. unfold alone. cbn [nd_fc]. unfold recover. rewrite O. now split.
Qed.

(** Off the bus, without automatic recovery. *)
Definition same_outside (s s' : node) : Prop :=
  fc_off (nd_fc s') = true /\ tx_bus (nd_tx s') = tx_bus (nd_tx s) /\ nd_rx s' = nd_rx s /\ tx_cur (nd_tx s') = tx_cur (nd_tx s).

Lemma send_bus c i d n ok c' st : CAN_SendMessage c i d n ok = Some (c', st) ->
  tx_bus c' = tx_bus c /\ tx_cur c' = tx_cur c.
Proof.
  unfold CAN_SendMessage. intros H.
  repeat match goal with
  | H : context[if ?b then _ else _] |- _ => destruct b
  | H : context[match fill_mailbox ?a ?b with _ => _ end] |- _ => destruct (fill_mailbox a b)
  end; try discriminate; injection H as <- _; split; reflexivity.
Qed.

Lemma off_step s e s' :
  fc_off (nd_fc s) = true -> node_step false s e = Some s' -> same_outside s s'.
Proof.
  intros O H. destruct e as [i d n| | | |f|h|b|]; cbn [node_step] in H; rewrite ?O in H.
  - destruct (CAN_SendMessage _ _ _ _ _) as [[c st]|] eqn:E; [injection H as <-|discriminate].
    apply send_bus in E. destruct E. repeat split; auto.
  - injection H as <-. repeat split; auto.
  - injection H as <-. repeat split; auto.
  - injection H as <-. destruct (tx_cur (nd_tx s)) eqn:E; repeat split; auto.
  - injection H as <-. destruct (tx_cur (nd_tx s)) eqn:E; repeat split; auto.
  - injection H as <-. repeat split; auto.
  - injection H as <-. repeat split; auto.
  - injection H as <-. unfold same_outside, recover. cbn [nd_fc nd_tx nd_rx]. rewrite Bool.andb_false_r. auto.
Qed.

Lemma off_run tr : forall s s',
  fc_off (nd_fc s) = true -> node_run false s tr = Some s' -> same_outside s s'.
Proof.
  induction tr as [|e tr IH]; intros s s' O R; cbn [node_run] in R.
  - injection R as <-. repeat split; auto.
  - destruct (node_step false s e) as [s1|] eqn:E; [|discriminate].
    destruct (off_step s e s1 O E) as (O1 & B1 & X1 & C1).
    destruct (IH s1 s' O1 R) as (O2 & B2 & X2 & C2). unfold same_outside. rewrite O2, B2, X2, C2. auto.
Qed.

(** With automatic recovery. *)

Lemma off_step_abom s e s' :
  fc_off (nd_fc s) = true -> node_step true s e = Some s' ->
  tx_bus (nd_tx s') = tx_bus (nd_tx s) /\
  (fc_off (nd_fc s') = false /\ nd_fc s' = fc_reset \/
   fc_off (nd_fc s') = true /\ fc_idle (nd_fc s) + recessives [e] <= fc_idle (nd_fc s') /\
   fc_idle (nd_fc s') < Z.max 128 (fc_idle (nd_fc s) + 1)).
Proof.
  intros O H. destruct e as [i d n| | | |f|h|b|]; cbn [node_step] in H; rewrite ?O in H; unfold recessives; cbn [filter length].
  - destruct (CAN_SendMessage _ _ _ _ _) as [[c st]|] eqn:E; [injection H as <-|discriminate].
    apply send_bus in E. destruct E. cbn [nd_tx nd_fc]. split; [auto|right]. lia.
  - injection H as <-. split; [auto|right]. lia.
  - injection H as <-. split; [auto|right]. lia.
  - injection H as <-. destruct (tx_cur (nd_tx s)) eqn:E; (split; [auto|right]; lia).
  - injection H as <-. destruct (tx_cur (nd_tx s)) eqn:E; (split; [auto|right]; lia).
  - injection H as <-. split; [auto|right]. lia.
  - injection H as <-. split; [auto|right]. lia.
  - injection H as <-. cbn [nd_fc nd_tx]. unfold recover. rewrite O. cbn [andb]. split; [auto|].
    destruct (127 <=? fc_idle (nd_fc s)) eqn:L; [left; split; reflexivity|right].
    cbn [fc_off fc_idle]. lia.
Qed.

Lemma recovers tr : forall s s',
  fc_off (nd_fc s) = true -> 0 <= fc_idle (nd_fc s) < 128 -> node_run true s tr = Some s' ->
  128 <= fc_idle (nd_fc s) + recessives tr ->
  exists a b s1, tr = a ++ b /\ node_run true s a = Some s1 /\ nd_fc s1 = fc_reset /\
    tx_bus (nd_tx s1) = tx_bus (nd_tx s).
Proof.
  induction tr as [|e tr IH]; intros s s' O I R N.
  - unfold recessives in N. cbn in N. lia.
  - cbn [node_run] in R. destruct (node_step true s e) as [s1|] eqn:E; [|discriminate].
    destruct (off_step_abom s e s1 O E) as (B & [[F G]|(F & L & U)]).
    + exists [e], tr, s1. split; [reflexivity|]. cbn [node_run]. rewrite E. auto.
    + assert (RC : recessives (e :: tr) = recessives [e] + recessives tr).
      { unfold recessives. cbn [filter]. destruct e; cbn [length]; lia. }
      assert (P : 0 <= recessives [e]) by (unfold recessives; lia).
      destruct (IH s1 s' F ltac:(lia) R ltac:(lia)) as (a & b & s2 & -> & R2 & F2 & B2).
      exists (e :: a), b, s2. split; [reflexivity|]. cbn [node_run]. rewrite E. rewrite B2, B. auto.
Qed.

(** The idle count of reachable states. *)
Lemma idle_step abom s e s' :
  0 <= fc_idle (nd_fc s) < 128 -> node_step abom s e = Some s' -> 0 <= fc_idle (nd_fc s') < 128.
Proof.
  intros I H. destruct e as [i d n| | | |f|h|b|]; cbn [node_step] in H.
  - destruct (CAN_SendMessage _ _ _ _ _) as [[c st]|] eqn:E; [injection H as <-|discriminate]. exact I.
  - injection H as <-. exact I.
  - injection H as <-. destruct (fc_off (nd_fc s)); exact I.
  - injection H as <-. destruct (tx_cur (nd_tx s)); [destruct (fc_off (nd_fc s))|]; exact I.
  - injection H as <-. destruct (tx_cur (nd_tx s)); [destruct (fc_off (nd_fc s))|]; try exact I.
    cbn [nd_fc]. destruct f; cbn [count_tx_error]; [destruct (passive (nd_fc s))| |]; cbn [fc_idle]; try exact I; lia.
  - injection H as <-. destruct (fc_off (nd_fc s)); exact I.
  - injection H as <-. destruct (fc_off (nd_fc s)); exact I.
  - injection H as <-. cbn [nd_fc]. unfold recover. destruct (_ && _); [|exact I].
    destruct (127 <=? fc_idle (nd_fc s)) eqn:L; cbn [fc_idle fc_reset]; lia.
Qed.

Lemma idle_run abom tr : forall s s',
  0 <= fc_idle (nd_fc s) < 128 -> node_run abom s tr = Some s' -> 0 <= fc_idle (nd_fc s') < 128.
Proof.
  induction tr as [|e tr IH]; intros s s' I R; cbn [node_run] in R.
  - injection R as <-. exact I.
  - destruct (node_step abom s e) as [s1|] eqn:E; [|discriminate].
    eapply IH; [|exact R]. eapply idle_step; eauto.
Qed.

Lemma fill_free mb it : 0 < free_level mb -> exists mb', fill_mailbox mb it = Some mb'.
Proof.
  induction mb as [|[x|] mb IH]; intros F; cbn [fill_mailbox].
  - unfold free_level in F. cbn in F. lia.
  - unfold free_level in *. cbn [filter] in F. destruct (IH F) as (mb' & ->). eauto.
  - eauto.
Qed.

Lemma send_exact s i d :
  length d = 8%nat ->
  send_status s i d =
  Some (if (0 <? free_level (tx_mb (nd_tx s))) || (Z.of_nat (length (tx_q (nd_tx s))) <? CAN_MAX_PENDING_MSGS)
        then CAN_STATUS_OK else CAN_STATUS_ERROR_TX).
Proof.
  intros L. unfold send_status, CAN_SendMessage. rewrite L. cbn [Z.ltb orb negb]. change (Z.of_nat 8 <? 8) with false.
  change ((8 <? 0) || (8 <? 8)) with false. cbv iota.
  destruct (0 <? free_level (tx_mb (nd_tx s))) eqn:F; cbn [orb].
  - destruct (fill_free (tx_mb (nd_tx s)) (mkItem i (firstn (Z.to_nat 8) d))) as (mb' & ->); [lia|]. reflexivity.
  - destruct (_ <? CAN_MAX_PENDING_MSGS); reflexivity.
Qed.

(** A spoiled message. *)
Definition idle_tx (s : node) : Prop :=
  tx_mb (nd_tx s) = [None; None; None] /\ tx_q (nd_tx s) = [] /\ tx_cur (nd_tx s) = None /\ tx_ie (nd_tx s) = false.

Lemma spoil_one abom s i d k :
  idle_tx s -> nd_fc s = mkFc (8 * k) 0 false 0 -> length d = 8%nat ->
  exists s', node_run abom s [NSend i d 8; NStart; NFailed Disturbed] = Some s' /\
    idle_tx s' /\ nd_fc s' = mkFc (8 * (k + 1)) 0 (255 <? 8 * (k + 1)) 0 /\ tx_bus (nd_tx s') = tx_bus (nd_tx s).
Proof.
  destruct s as [[mb q bus cur ie hand acc] f rx]. intros (M & Q & C & I) F L.
  cbn [nd_tx nd_fc tx_mb tx_q tx_cur tx_ie] in *. subst mb q cur ie f.
  cbn [node_run node_step nd_tx nd_fc nd_rx fc_off]. unfold CAN_SendMessage.
  change ((8 <? 0) || (8 <? 8)) with false. cbv iota. rewrite L.
  change (Z.of_nat 8 <? 8) with false. cbn [tx_mb tx_q tx_bus tx_cur tx_ie tx_hand tx_acc].
  change (0 <? free_level [None; None; None]) with true. cbn [fill_mailbox negb].
  cbn [nd_tx nd_fc nd_rx fc_off hw_start tx_cur tx_mb tx_q tx_bus tx_ie tx_hand tx_acc arbiter ti_id hw_done nth_error clear_mb].
  eexists. split; [reflexivity|]. cbn [nd_tx nd_fc]. split; [repeat split|].
  cbn [tx_bus count_tx_error fc_tec fc_rec fc_off]. split; [|now rewrite app_nil_r].
  replace (8 * (k + 1)) with (8 * k + 8) by lia. reflexivity.
Qed.

Lemma spoil_all abom msgs : forall s k,
  idle_tx s -> nd_fc s = mkFc (8 * k) 0 false 0 -> 0 <= k -> Forall (fun m => length (snd m) = 8%nat) msgs ->
  k + Z.of_nat (length msgs) = 32 -> msgs <> [] ->
  exists s', node_run abom s (spoiled msgs) = Some s' /\ fc_off (nd_fc s') = true /\
    idle_tx s' /\ tx_bus (nd_tx s') = tx_bus (nd_tx s).
Proof.
  induction msgs as [|[i d] msgs IH]; intros s k T F K A N NE; [congruence|]. inversion A as [|? ? A1 A2]; subst.
  cbn [spoiled flat_map fst snd]. fold (spoiled msgs). rewrite run_app.
  destruct (spoil_one abom s i d k T F A1) as (s1 & -> & T1 & F1 & B1).
  destruct msgs as [|m msgs].
  - cbn [length] in N. exists s1. cbn [spoiled flat_map node_run]. split; [reflexivity|].
    rewrite F1. cbn [fc_off]. split; [lia|]. auto.
  - rewrite <- B1. cbn [length] in N. replace (255 <? 8 * (k + 1)) with false in F1 by lia.
    apply (IH s1 (k + 1)); auto; cbn [length]; try lia. discriminate.
Qed.

(** ** Traffic with good and spoiled messages *)
Lemma traffic_one s i d (ok : bool) k :
  idle_tx s -> nd_fc s = mkFc k 0 false 0 -> length d = 8%nat ->
  exists s', node_run false s [NSend i d 8; NStart; if ok then NSent else NFailed Disturbed] = Some s' /\
    idle_tx s' /\ nd_fc s' = (if ok then mkFc (Z.max 0 (k - 1)) 0 false 0 else mkFc (k + 8) 0 (255 <? k + 8) 0).
Proof.
  destruct s as [[mb q bus cur ie hand acc] f rx]. intros (M & Q & C & I) F L.
  cbn [nd_tx nd_fc tx_mb tx_q tx_cur tx_ie] in *. subst mb q cur ie f.
  cbn [node_run node_step nd_tx nd_fc nd_rx fc_off]. unfold CAN_SendMessage.
  change ((8 <? 0) || (8 <? 8)) with false. cbv iota. rewrite L.
  change (Z.of_nat 8 <? 8) with false. cbn [tx_mb tx_q tx_bus tx_cur tx_ie tx_hand tx_acc].
  change (0 <? free_level [None; None; None]) with true. cbn [fill_mailbox negb].
  cbn [nd_tx nd_fc nd_rx fc_off hw_start tx_cur tx_mb tx_q tx_bus tx_ie tx_hand tx_acc arbiter ti_id hw_done nth_error clear_mb].
  destruct ok; cbn [node_step nd_tx nd_fc nd_rx fc_off hw_start tx_cur tx_mb tx_q tx_bus tx_ie tx_hand tx_acc arbiter ti_id hw_done nth_error clear_mb];
    (eexists; split; [reflexivity|]; cbn [nd_tx nd_fc]; split; [repeat split|]); reflexivity.
Qed.

Definition load (msgs : list (Z * list Z * bool)) : Z := 8 * were_spoiled msgs - got_through msgs.
Lemma load_cons m msgs : load (m :: msgs) = (if snd m then -1 else 8) + load msgs.
Proof. unfold load, were_spoiled, got_through. cbn [filter]. destruct (snd m); cbn [negb length]; lia. Qed.

Lemma send8 c i d : length d = 8%nat -> exists r, CAN_SendMessage c i d 8 true = Some r.
Proof.
  intros L. pose proof (send_exact (mkNode c fc_reset []) i d L) as H. unfold send_status in H. cbn [nd_tx] in H.
  destruct (CAN_SendMessage c i d 8 true) as [r|]; [eauto|discriminate].
Qed.

Lemma traffic_total msgs : Forall (fun m => length (snd (fst m)) = 8%nat) msgs ->
  forall s, exists s', node_run false s (traffic msgs) = Some s'.
Proof.
  induction 1 as [|m msgs L F IH]; intros s; [now exists s|]. cbn [traffic flat_map]. fold (traffic msgs).
  rewrite run_app. cbn [node_run node_step]. destruct (send8 (nd_tx s) (fst (fst m)) (snd (fst m)) L) as ([c st] & ->).
  destruct (snd m); cbn [node_step]; apply IH.
Qed.

(** [k]: the counter at the start. *)
Lemma traffic_off : forall msgs s k, idle_tx s -> nd_fc s = mkFc k 0 false 0 -> 0 <= k <= 255 ->
  Forall (fun m => length (snd (fst m)) = 8%nat) msgs ->
  exists s', node_run false s (traffic msgs) = Some s' /\
    (fc_off (nd_fc s') = true <->
     (exists a b, msgs = a ++ b /\ 255 < k + load a) \/ exists a b c, msgs = a ++ b ++ c /\ 255 < load b).
Proof.
  induction msgs as [|m msgs IH]; intros s k T F K A.
  - exists s. split; [reflexivity|]. rewrite F. cbn [fc_off]. split; [discriminate|].
    intros [(a & b & E & H)|(a & b & c & E & H)].
    + symmetry in E. apply app_eq_nil in E as [-> _]. unfold load, were_spoiled, got_through in H. cbn in H. lia.
    + symmetry in E. apply app_eq_nil in E as [_ E]. apply app_eq_nil in E as [-> _].
      unfold load, were_spoiled, got_through in H. cbn in H. lia.
  - inversion A as [|? ? A1 A2]; subst. cbn [traffic flat_map]. fold (traffic msgs). rewrite run_app.
    destruct (traffic_one s (fst (fst m)) (snd (fst m)) (snd m) k T F A1) as (s1 & -> & T1 & F1).
    destruct (snd m) eqn:Ok.
    + destruct (IH s1 (Z.max 0 (k - 1)) T1 F1 ltac:(lia) A2) as (s' & R & E). exists s'. split; [exact R|]. rewrite E. clear E.
      split; (intros [(a & b & Em & H)|(a & b & c & Em & H)]).
      * destruct (Z_le_gt_dec k 1).
        -- right. exists [m], a, b. subst. split; [reflexivity|]. lia.
        -- left. exists (m :: a), b. subst. split; [reflexivity|]. rewrite load_cons, Ok. lia.
      * right. exists (m :: a), b, c. subst. auto.
      * destruct a as [|m' a]; [unfold load, were_spoiled, got_through in H; cbn in H; lia|].
        injection Em as <- ->. rewrite load_cons, Ok in H. left. exists a, b. split; [reflexivity|lia].
      * destruct a as [|m' a].
        -- destruct b as [|m' b]; [unfold load, were_spoiled, got_through in H; cbn in H; lia|].
           injection Em as <- ->. rewrite load_cons, Ok in H. left. exists b, c. split; [reflexivity|lia].
        -- injection Em as <- ->. right. exists a, b, c. auto.
    + destruct (Z.ltb_spec 255 (k + 8)) as [G|G].
      * destruct (traffic_total msgs A2 s1) as (s' & R). exists s'. split; [exact R|].
        assert (O1 : fc_off (nd_fc s1) = true) by (rewrite F1; reflexivity).
        destruct (off_run _ _ _ O1 R) as (O2 & _). split; [intros _|intros _; exact O2].
        left. exists [m], msgs. split; [reflexivity|]. rewrite load_cons, Ok. unfold load, were_spoiled, got_through. cbn. lia.
      * destruct (IH s1 (k + 8) T1 F1 ltac:(lia) A2) as (s' & R & E). exists s'. split; [exact R|]. rewrite E. clear E.
        split; (intros [(a & b & Em & H)|(a & b & c & Em & H)]).
        -- left. exists (m :: a), b. subst. split; [reflexivity|]. rewrite load_cons, Ok. lia.
        -- right. exists (m :: a), b, c. subst. auto.
        -- destruct a as [|m' a]; [unfold load, were_spoiled, got_through in H; cbn in H; lia|].
           injection Em as <- ->. rewrite load_cons, Ok in H. left. exists a, b. split; [reflexivity|lia].
        -- destruct a as [|m' a].
           ++ destruct b as [|m' b]; [unfold load, were_spoiled, got_through in H; cbn in H; lia|].
              injection Em as <- ->. rewrite load_cons, Ok in H. left. exists b, c. split; [reflexivity|lia].
           ++ injection Em as <- ->. right. exists a, b, c. auto.
Qed.

(** What went out on the bus while the node was on it. *)
Lemma traffic_bus1 s i d (ok : bool) k s' :
  idle_tx s -> nd_fc s = mkFc k 0 false 0 -> length d = 8%nat ->
  node_run false s [NSend i d 8; NStart; if ok then NSent else NFailed Disturbed] = Some s' ->
  map (fun it => (ti_id it, ti_data it)) (tx_bus (nd_tx s')) =
  map (fun it => (ti_id it, ti_data it)) (tx_bus (nd_tx s)) ++ if ok then [(i, d)] else [].
Proof.
  destruct s as [[mb q bus cur ie hand acc] f rx]. intros (M & Q & C & I) F L.
  cbn [nd_tx nd_fc tx_mb tx_q tx_cur tx_ie] in *. subst mb q cur ie f.
  cbn [node_run node_step nd_tx nd_fc nd_rx fc_off]. unfold CAN_SendMessage.
  change ((8 <? 0) || (8 <? 8)) with false. cbv iota. rewrite L.
  change (Z.of_nat 8 <? 8) with false. cbn [tx_mb tx_q tx_bus tx_cur tx_ie tx_hand tx_acc].
  change (0 <? free_level [None; None; None]) with true. cbn [fill_mailbox negb].
  cbn [nd_tx nd_fc nd_rx fc_off hw_start tx_cur tx_mb tx_q tx_bus tx_ie tx_hand tx_acc arbiter ti_id hw_done nth_error clear_mb].
  replace (firstn (Z.to_nat 8) d) with d by (symmetry; apply firstn_all2; change (Z.to_nat 8) with 8%nat; lia).
  destruct ok; cbn [node_step nd_tx nd_fc nd_rx fc_off hw_start tx_cur tx_mb tx_q tx_bus tx_ie tx_hand tx_acc arbiter ti_id ti_data hw_done nth_error clear_mb];
    intros R; injection R as <-; cbn [nd_tx tx_bus]; rewrite map_app; reflexivity.
Qed.
Lemma traffic_bus : forall msgs s k s', idle_tx s -> nd_fc s = mkFc k 0 false 0 -> 0 <= k <= 255 ->
  Forall (fun m => length (snd (fst m)) = 8%nat) msgs ->
  node_run false s (traffic msgs) = Some s' -> fc_off (nd_fc s') = false ->
  map (fun it => (ti_id it, ti_data it)) (tx_bus (nd_tx s')) =
  map (fun it => (ti_id it, ti_data it)) (tx_bus (nd_tx s)) ++ map fst (filter snd msgs).
Proof.
  induction msgs as [|m msgs IH]; intros s k s' T F K A R O.
  - injection R as <-. cbn. now rewrite app_nil_r.
  - inversion A as [|? ? A1 A2]; subst. cbn [traffic flat_map] in R. fold (traffic msgs) in R. rewrite run_app in R.
    destruct (traffic_one s (fst (fst m)) (snd (fst m)) (snd m) k T F A1) as (s1 & E1 & T1 & F1). rewrite E1 in R.
    pose proof (traffic_bus1 s (fst (fst m)) (snd (fst m)) (snd m) k s1 T F A1 E1) as B1.
    assert (F2 : exists k1, nd_fc s1 = mkFc k1 0 false 0 /\ 0 <= k1 <= 255).
    { destruct (snd m); [exists (Z.max 0 (k - 1)); split; [exact F1|lia]|]. exists (k + 8). destruct (Z.ltb_spec 255 (k + 8)) as [G|G]; [|split; [exact F1|lia]].
      exfalso. assert (O1 : fc_off (nd_fc s1) = true) by (rewrite F1; reflexivity). destruct (off_run _ _ _ O1 R) as (O2 & _). congruence. }
    destruct F2 as (k1 & F2 & K1). rewrite (IH s1 k1 s' T1 F2 K1 A2 R O), B1, <- app_assoc. f_equal. cbn [filter].
    destruct (snd m); [cbn [map app]; f_equal; now destruct m as [[? ?] ?]|reflexivity].
Qed.
