(** C82: the controller takes part in its CAN buses for as long as it runs. *)
From Verif.Model Require Import BusOff.
From Verif.Spec Require Import BusOffSpec.
From Verif.Proof Require Import BusOffProof.
From Coq Require Import Lia.

(** Up to 31 spoiled or unacknowledged transmissions, in whatever mix with
    anything else, leave the node on the bus. *)
Theorem C82_tolerates_31_failures_partial :
  forall abom ie tr s, node_run abom (node_start ie) tr = Some s -> counted_failures tr <= 31 -> ~ off_bus s.
Proof.
  intros abom ie tr s R N O.
  destruct (tec_run abom tr (node_start ie) s 0) as [_ H]; [split; [cbn; lia|discriminate]|lia|exact R|].
  specialize (H O). lia.
Qed.
Print Assumptions C82_tolerates_31_failures_partial.

(** With nobody else on the bus, or nobody acknowledging, the node stays on it for
    ever, however many transmissions fail that way. *)
Theorem C82_alone_stays_on_partial :
  forall abom ie tr s, node_run abom (node_start ie) tr = Some s ->
    disturbances tr = 0 -> ~ off_bus s.
Proof.
  intros abom ie tr s R D.
  assert (H : forall tr s0, disturbances tr = 0 -> alone s0 -> node_run abom s0 tr = Some s -> alone s).
  { clear. induction tr as [|e tr IH]; intros s0 D A R; cbn [node_run] in R; [congruence|].
    destruct (node_step abom s0 e) as [s1|] eqn:E; [|discriminate].
    assert (e <> NFailed Disturbed /\ disturbances tr = 0) as [N D'].
    { unfold disturbances in *. cbn [filter] in D. destruct e as [| | | |[]| | |]; cbn [length] in D; split; try discriminate; lia. }
    exact (IH s1 D' (alone_step abom s0 e s1 A N E) R). }
  assert (A : alone s) by (apply (H tr (node_start ie) D); [split; [cbn; lia|reflexivity]|exact R]).
  destruct A as [_ A]. unfold off_bus. congruence.
Qed.
Print Assumptions C82_alone_stays_on_partial.

Example C82_ex :
  exists s, node_run false (node_start false)
    (concat (repeat [NSend 192 (repeat 0 8) 8; NStart; NFailed NoAck] 40)) = Some s /\
    fc_tec (nd_fc s) = 128.
Proof. eexists. split; [vm_compute; reflexivity|reflexivity]. Qed.

(** But any 32 messages spoiled in a row take it off the bus. *)
Theorem C82_32_disturbances_refuted :
  forall abom msgs, length msgs = 32%nat -> Forall (fun m => length (snd m) = 8%nat) msgs ->
    exists s, node_run abom (node_start shipped_ie) (spoiled msgs) = Some s /\ off_bus s.
Proof.
  intros abom msgs L F.
  destruct (spoil_all abom msgs (node_start shipped_ie) 0) as (s & R & O & _); auto; try (now repeat split); try lia.
  - destruct msgs; discriminate.
  - now exists s.
Qed.
Print Assumptions C82_32_disturbances_refuted.

(** Exactly how many disturbances are too many when messages are sent one by one:
    some run of consecutive messages in which eight times the number of spoiled
    ones exceeds the number of good ones by more than 255. With fewer, the messages
    that were not spoiled are on the bus, in their order. *)
Theorem C82_exact_load :
  forall msgs, Forall (fun m => length (snd (fst m)) = 8%nat) msgs ->
  exists s, node_run shipped_abom (node_start shipped_ie) (traffic msgs) = Some s /\
    (off_bus s <-> exists a b c, msgs = a ++ b ++ c /\ 255 < 8 * were_spoiled b - got_through b) /\
    (~ off_bus s -> map (fun it => (ti_id it, ti_data it)) (tx_bus (nd_tx s)) = map fst (filter snd msgs)).
Proof.
  intros msgs F. destruct (traffic_off msgs (node_start shipped_ie) 0) as (s & R & E); auto; try (now repeat split); try lia.
  exists s. split; [exact R|]. split.
  - unfold off_bus. rewrite E. split.
    + intros [(a & b & -> & H)|(a & b & c & -> & H)]; [exists [], a, b|exists a, b, c]; (split; [reflexivity|unfold load in H; lia]).
    + intros (a & b & c & -> & H). right. exists a, b, c. auto.
  - intros O. rewrite (traffic_bus msgs (node_start shipped_ie) 0 s); auto; try lia; [now repeat split|].
    unfold off_bus in O. destruct (fc_off (nd_fc s)); [now destruct O|reflexivity].
Qed.
Print Assumptions C82_exact_load.

(** 31 spoiled messages, a good one and one more spoiled: still on the bus;
    without the good one: off. *)
Example C82_exact_ex :
  let bad := (192, repeat 0 8, false) in let good := (192, repeat 0 8, true) in
  (exists s, node_run shipped_abom (node_start shipped_ie) (traffic (repeat bad 31 ++ repeat good 1 ++ [bad])) = Some s /\ ~ off_bus s) /\
  (exists s, node_run shipped_abom (node_start shipped_ie) (traffic (repeat bad 31 ++ [bad])) = Some s /\ off_bus s).
Proof.
  cbv zeta. split; (eexists; split; [vm_compute; reflexivity|]); unfold off_bus; cbn; [discriminate|reflexivity].
Qed.

(** And once it is off the bus it stays off in the shipped configuration: whatever
    is sent, configured again or happens on the bus, nothing is transmitted and
    nothing received any more. *)
Theorem C82_off_for_ever_refuted :
  forall s tr s', off_bus s -> node_run shipped_abom s tr = Some s' ->
    off_bus s' /\ tx_bus (nd_tx s') = tx_bus (nd_tx s) /\ nd_rx s' = nd_rx s.
Proof. intros s tr s' O R. destruct (off_run tr s s' O R) as (A & B & C & _). auto. Qed.
Print Assumptions C82_off_for_ever_refuted.

(** The callers are not told: a message is still answered with OK as long as a
    mailbox or one of the 64 places of the queue is free. After the 32 disturbances
    above all are. *)
Theorem C82_senders_not_told_refuted :
  forall s i d, off_bus s -> length d = 8%nat ->
    (send_status s i d = Some CAN_STATUS_OK <->
     0 < free_level (tx_mb (nd_tx s)) \/ Z.of_nat (length (tx_q (nd_tx s))) < 64).
Proof.
  intros s i d _ L. rewrite (send_exact s i d L). unfold CAN_MAX_PENDING_MSGS.
  destruct (Z.ltb_spec 0 (free_level (tx_mb (nd_tx s)))); cbn [orb]; [split; auto|].
  destruct (Z.ltb_spec (Z.of_nat (length (tx_q (nd_tx s)))) 64); split; intros H1; auto; try discriminate.
  destruct H1; lia.
Qed.
Print Assumptions C82_senders_not_told_refuted.

Example C82_senders_ex :
  exists s, node_run shipped_abom (node_start shipped_ie) (spoiled (repeat (192, repeat 0 8) 32)) = Some s /\
    off_bus s /\ send_status s 192 (repeat 0 8) = Some CAN_STATUS_OK /\ tx_bus (nd_tx s) = [].
Proof. eexists. split; [vm_compute; reflexivity|]. repeat split. Qed.

(** With automatic bus-off management the node is back, with cleared counters, at
    the latest when the bus was idle 128 times for 11 bits. *)
Theorem C82_recovers_with_abom_partial :
  forall ie tr s tr' s', node_run true (node_start ie) tr = Some s -> off_bus s ->
    node_run true s tr' = Some s' -> 128 <= recessives tr' ->
    exists a b s1, tr' = a ++ b /\ node_run true s a = Some s1 /\ ~ off_bus s1 /\ fc_tec (nd_fc s1) = 0.
Proof.
  intros ie tr s tr' s' R O R' N.
  assert (I : 0 <= fc_idle (nd_fc s) < 128) by (apply (idle_run true tr (node_start ie)); [cbn; lia|exact R]).
  destruct (recovers tr' s s' O I R' ltac:(lia)) as (a & b & s1 & E & R1 & F & _).
  exists a, b, s1. rewrite F. repeat split; auto. unfold off_bus. rewrite F. discriminate.
Qed.
Print Assumptions C82_recovers_with_abom_partial.

Example C82_recovers_ex :
  exists s s', node_run true (node_start false) (spoiled (repeat (192, repeat 0 8) 32)) = Some s /\ off_bus s /\
    node_run true s (repeat NRecessive 128 ++ [NSend 192 (repeat 1 8) 8; NStart; NSent]) = Some s' /\
    tx_bus (nd_tx s') = [mkItem 192 (repeat 1 8)].
Proof. eexists _, _. split; [vm_compute; reflexivity|]. split; [reflexivity|]. split; [vm_compute; reflexivity|reflexivity]. Qed.
