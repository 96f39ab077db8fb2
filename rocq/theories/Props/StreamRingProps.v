(** C74: a stream buffer is a queue for one sender and one receiver.
    C75: the receive stream that both PC ports write to. *)
From Verif.Proof Require Import StreamRingProof.
From Verif.Model Require Import PcRequests.
From Verif.Spec Require Import PcSpec.
From Coq Require Import ZifyBool ZifyNat.

(** ** C74 *)

(** Whatever the interleaving of one sender and one receiver, the bytes reported
    as stored are the bytes returned so far followed by the bytes still held. *)
Theorem C74_nothing_lost_or_reordered size es s :
  size_ok size -> stream1_run (stream1_new size) es = Some s ->
  st_sent s = st_got s ++ held (st_ring s) /\ (length (held (st_ring s)) <= size - 1)%nat.
Proof.
  intros Z R. pose proof (run_inv size es _ _ (inv_new size Z) R) as I.
  split; [apply (i_data size s I)|apply (held_cap size s I)].
Qed.

(** Sending at least one byte never makes the controller stop and no access
    leaves the buffer. *)
Theorem C74_never_stops_partial size es :
  size_ok size -> nonempty_sends es -> exists s, stream1_run (stream1_new size) es = Some s.
Proof. intros Z N. apply (run_safe size); auto using inv_new. exact I. Qed.

(** Sending no byte into a buffer with room stops the controller, with
    interrupts disabled (the assertion of stream_buffer.c:1092). *)
Theorem C74_never_stops_refuted size s :
  size_ok size -> stream_reach size s -> st_snd s = SIdle -> (0 < room (st_ring s))%nat ->
  stream1_run s [ESend []; ESndStep; ESndStep; ESndStep] = None.
Proof.
  intros Z R W F. pose proof (reach_inv size s Z R) as [RO _ _ _ _].
  destruct s as [r w v sent got]. cbn [st_ring st_snd] in *. subst w.
  unfold room in F. rewrite length_held in F. pose proof (held_count_range r RO) as C. unfold ring_ok in RO.
  cbn [stream1_run stream1_step st_snd st_ring st_rcv st_sent st_got sender_step].
  rewrite spaces_spec by lia. change (if rb_tail r <=? rb_head r then _ else _) with (held_count r).
  destruct (_ =? 0) eqn:E; [lia|]. cbn [st_snd st_ring st_rcv st_sent st_got sender_step]. rewrite firstn_nil. reflexivity.
Qed.

(** A call to send stores at least what fitted when it was made (more if the
    receiver makes room meanwhile), and what it stores is the start of the data. *)
Theorem C74_send_stores_what_fits size s d es s' :
  size_ok size -> stream_reach size s -> st_snd s = SIdle -> no_send es ->
  stream1_run s (ESend d :: es) = Some s' -> st_snd s' = SIdle ->
  exists c, (Nat.min (length d) (room (st_ring s)) <= c)%nat /\ st_sent s' = st_sent s ++ firstn c d.
Proof.
  intros Z R W N RUN W'. pose proof (reach_inv size s Z R) as I. cbn [stream1_run stream1_step] in RUN. rewrite W in RUN.
  pose proof (step_inv size s (ESend d) I) as I1. cbn [stream1_step] in I1. rewrite W in I1.
  pose proof (sending_run size es d (st_sent s) (room (st_ring s)) _ s' I1) as J. unfold sending in J at 2. rewrite W' in J.
  apply J; auto. unfold sending. cbn [st_snd st_sent st_ring]. auto.
Qed.

(** A call to receive returns at least what was there when it was made, as far as
    it asked for it. *)
Theorem C74_receive_returns_what_is_there size s n es s' :
  size_ok size -> stream_reach size s -> st_rcv s = RIdle -> 0 <= n -> no_recv es ->
  stream1_run s (ERecv n :: es) = Some s' -> st_rcv s' = RIdle ->
  exists l, st_got s' = st_got s ++ l /\
            Z.min n (Z.of_nat (length (held (st_ring s)))) <= Z.of_nat (length l) <= n.
Proof.
  intros Z R W N0 N RUN W'. pose proof (reach_inv size s Z R) as I. cbn [stream1_run stream1_step] in RUN. rewrite W in RUN.
  pose proof (step_inv size s (ERecv n) I) as I1. cbn [stream1_step] in I1. rewrite W in I1.
  pose proof (receiving_run size es n (st_got s) (length (held (st_ring s))) _ s' N0 I1) as J. unfold receiving in J at 2. rewrite W' in J.
  apply J; auto. unfold receiving. cbn [st_rcv st_got st_ring]. rewrite length_held.
  pose proof (held_count_range _ (i_ring _ _ I)). repeat split; lia.
Qed.

(** A call ends after a bounded number of its own accesses, however often the
    other side runs in between. *)
Theorem C74_calls_end size s es s' :
  size_ok size -> stream_reach size s -> stream1_run s es = Some s' ->
  (forall d, st_snd s = STail d -> no_send es -> (length d + 4 <= snd_steps es)%nat -> st_snd s' = SIdle) /\
  (forall n, st_rcv s = RHead n -> no_recv es -> (size + 4 <= rcv_steps es)%nat -> st_rcv s' = RIdle).
Proof.
  intros Z R RUN. pose proof (reach_inv size s Z R) as I. split.
  - intros d W N L. apply (snd_finishes size es s s'); auto. now rewrite W.
  - intros n W N L. apply (rcv_finishes size es s s'); auto. now rewrite W.
Qed.

(** Calls that are not interrupted are the queue operations that the other models
    use for streams. *)
Theorem C74_send_is_queue_send size s d k :
  size_ok size -> stream_reach size s -> st_snd s = SIdle -> d <> [] -> (length d + 4 <= k)%nat ->
  exists s', stream1_run s (ESend d :: repeat ESndStep k) = Some s' /\ st_snd s' = SIdle /\
    st_rcv s' = st_rcv s /\ st_got s' = st_got s /\
    held (st_ring s') = stream_send (size - 1) (held (st_ring s)) d.
Proof.
  intros Z R W D K. pose proof (reach_inv size s Z R) as I.
  pose proof (step_inv size s (ESend d) I) as I1. cbn [stream1_step] in I1. rewrite W in I1.
  cbn [stream1_run stream1_step]. rewrite W.
  destruct (run_safe size (repeat ESndStep k) _ I1) as [s' RUN].
  { exact D. } { intros H%repeat_spec. discriminate. }
  exists s'. split; [exact RUN|].
  assert (W' : st_snd s' = SIdle).
  { apply (snd_finishes size (repeat ESndStep k) _ s' I1 (no_send_repeat k) RUN). rewrite snd_steps_repeat. cbn [st_snd snd_left]. lia. }
  destruct (rcv_steps_only k _ s' RUN) as [G V]. cbn [st_got st_rcv] in G, V.
  split; [exact W'|]. split; [exact V|]. split; [exact G|].
  pose proof (run_inv size _ _ _ I1 RUN) as I2.
  pose proof (sending_run size (repeat ESndStep k) d (st_sent s) (room (st_ring s)) _ s' I1) as J. unfold sending in J at 2. rewrite W' in J.
  destruct J as (c & C & S); [unfold sending; cbn [st_snd st_sent st_ring]; auto|apply no_send_repeat|exact RUN|].
  rewrite (i_data _ _ I2), G, (i_data _ _ I), <- app_assoc in S. apply app_inv_head in S. rewrite S. unfold stream_send. f_equal.
  pose proof (held_cap size s' I2) as CAP. rewrite S, app_length in CAP.
  unfold room in C. assert (L : Z.to_nat (rb_len (st_ring s) - 1) = (size - 1)%nat) by (unfold rb_len; rewrite (i_size _ _ I); lia).
  rewrite L in C. rewrite firstn_length in CAP.
  destruct (Nat.le_gt_cases (length d) (size - 1 - length (held (st_ring s)))) as [A|A].
  - rewrite !firstn_all2 by lia. reflexivity.
  - f_equal. lia.
Qed.

Theorem C74_receive_is_queue_receive size s n k :
  size_ok size -> stream_reach size s -> st_rcv s = RIdle -> 0 <= n -> (size + 4 <= k)%nat ->
  exists s', stream1_run s (ERecv n :: repeat ERcvStep k) = Some s' /\ st_rcv s' = RIdle /\
    st_snd s' = st_snd s /\ st_sent s' = st_sent s /\
    (exists l, st_got s' = st_got s ++ l /\ stream_recv (Z.to_nat n) (held (st_ring s)) = (l, held (st_ring s'))).
Proof.
  intros Z R W N0 K. pose proof (reach_inv size s Z R) as I.
  pose proof (step_inv size s (ERecv n) I) as I1. cbn [stream1_step] in I1. rewrite W in I1.
  cbn [stream1_run stream1_step]. rewrite W.
  assert (SAFE : forall k t, inv size t -> exists s', stream1_run t (repeat ERcvStep k) = Some s').
  { clear. induction k as [|k IH]; intros t H; cbn [repeat stream1_run]; [eauto|].
    destruct (receiver_inv size t H) as (t' & -> & H'). auto. }
  destruct (SAFE k _ I1) as [s' RUN]. exists s'. split; [exact RUN|].
  assert (W' : st_rcv s' = RIdle).
  { apply (rcv_finishes size (repeat ERcvStep k) _ s' I1 (no_recv_repeat k) RUN). rewrite rcv_steps_repeat. cbn [st_rcv rcv_left]. lia. }
  destruct (snd_steps_only k _ s' RUN) as [G V]. cbn [st_sent st_snd] in G, V.
  split; [exact W'|]. split; [exact V|]. split; [exact G|].
  pose proof (run_inv size _ _ _ I1 RUN) as I2.
  pose proof (receiving_run size (repeat ERcvStep k) n (st_got s) (length (held (st_ring s))) _ s' N0 I1) as J.
  unfold receiving in J at 2. rewrite W' in J.
  destruct J as (l & S & C).
  { unfold receiving. cbn [st_rcv st_got st_ring]. rewrite length_held. pose proof (held_count_range _ (i_ring _ _ I)). repeat split; lia. }
  { apply no_recv_repeat. } { exact RUN. }
  exists l. split; [exact S|]. pose proof (i_data _ _ I2) as D. rewrite G, S, (i_data _ _ I), <- app_assoc in D.
  apply app_inv_head in D. unfold stream_recv. rewrite D in C |- *. rewrite app_length in C.
  assert (L : (length l = Z.to_nat n \/ (length l < Z.to_nat n /\ length (held (st_ring s')) = 0))%nat) by lia.
  destruct L as [L|[L L0]].
  - rewrite <- L, firstn_app, skipn_app, firstn_all, skipn_all, Nat.sub_diag. cbn [firstn skipn]. now rewrite app_nil_r.
  - destruct (held (st_ring s')); [|discriminate]. rewrite app_nil_r, firstn_all2, skipn_all2 by lia. reflexivity.
Qed.

Theorem C74_is_empty size s :
  size_ok size -> stream_reach size s -> IsEmpty (st_ring s) = true <-> held (st_ring s) = [].
Proof.
  intros Z R. pose proof (i_ring _ _ (reach_inv size s Z R)) as RO.
  rewrite <- length_zero_iff_nil, length_held. unfold IsEmpty, held_count, ring_ok in *.
  destruct (rb_tail (st_ring s) <=? rb_head (st_ring s)) eqn:E; lia.
Qed.

(** Not vacuous: a buffer of 5 bytes, the receiver interrupting a send that
    wraps around the end. *)
Example C74_example :
  match stream1_run (stream1_new 5)
    ([ESend [1; 2; 3]] ++ repeat ESndStep 7 ++ [ERecv 2; ERcvStep; ERcvStep; ESend [4; 5; 6; 7]; ESndStep] ++
     repeat ERcvStep 4 ++ repeat ESndStep 9) with
  | Some s => st_sent s = [1; 2; 3; 4] /\ st_got s = [1; 2] /\ held (st_ring s) = [3; 4]
  | None => False
  end.
Proof. vm_compute. auto. Qed.
Example C74_size : size_ok (Z.to_nat 2048).
Proof. unfold size_ok. lia. Qed.

(** ** C75 *)

(** If no interrupt of one port runs while the other port is inside a send, the
    receiver gets the bytes of both ports, each in their order. *)
Theorem C75_both_ports_delivered_partial size es s :
  size_ok size -> stream2_run (stream2_new size) es = Some s -> schedule no_overlap (stream2_new size) es = true ->
  merge (s2_sent_a s) (s2_sent_b s) (s2_got s ++ held (s2_ring s)).
Proof.
  intros Z R N. destruct (same_run es _ _ s (same_new size) N R) as (t & T & [M1 M2 M3 M4 M5]).
  pose proof (run_inv size _ _ _ (inv_new size Z) T) as I. rewrite (i_data _ _ I) in M5. congruence.
Qed.

(** The interrupts as configured allow it: the DMA interrupt of one port comes
    while the other port stores an idle-line chunk. Both sends report everything
    as stored, but of the 7 bytes only 4 reach the receiver, in a mixture that
    neither port sent. *)
Theorem C75_both_ports_delivered_refuted :
  exists es s, schedule irq_allowed (stream2_new (Z.to_nat 2048)) es = true /\
    stream2_run (stream2_new (Z.to_nat 2048)) es = Some s /\
    s2_a s = SIdle /\ s2_b s = SIdle /\ s2_rcv s = RIdle /\
    s2_sent_a s = [1; 2; 3; 4] /\ s2_sent_b s = [7; 8; 9] /\
    IsEmpty (s2_ring s) = true /\ s2_got s = [7; 8; 3; 4] /\
    ~ merge (s2_sent_a s) (s2_sent_b s) (s2_got s).
Proof.
  set (es := [ESendA [1; 2; 3; 4]] ++ repeat EStepA 5 ++ [ESendB [7; 8; 9]] ++ repeat EStepB 7 ++
             repeat EStepA 3 ++ [ERecv2 8] ++ repeat EStepRcv 8).
  exists es.
  exists (mkStream2 (mkRing ([7; 8; 3; 4] ++ repeat 0x55 (Z.to_nat 2044)) 4 4) SIdle SIdle RIdle [1; 2; 3; 4] [7; 8; 9] [7; 8; 3; 4]).
  split; [vm_compute; reflexivity|]. split; [vm_compute; reflexivity|].
  repeat (split; [reflexivity|]).
  cbn [s2_sent_a s2_sent_b s2_got]. intros M.
  repeat match goal with H : merge _ _ _ |- _ => inversion H; clear H; subst end.
Qed.

(** Not vacuous: two sends that do not overlap. *)
Example C75_example :
  let es := [ESendA [1; 2]] ++ repeat EStepA 6 ++ [ESendB [7; 8; 9]] ++ repeat EStepB 7 ++ [ERecv2 4] ++ repeat EStepRcv 8 in
  schedule no_overlap (stream2_new 8) es = true /\
  match stream2_run (stream2_new 8) es with
  | Some s => s2_sent_a s = [1; 2] /\ s2_sent_b s = [7; 8; 9] /\ s2_got s = [1; 2; 7; 8] /\ held (s2_ring s) = [9]
  | None => False
  end.
Proof. vm_compute. auto. Qed.

(** Also without overlap: a command frame that arrives on one port in two pieces,
    with a frame from the other port between them, is not executed, although all
    its bytes are stored. *)
Theorem C75_command_executed_refuted :
  exists a b q got,
    valid_frame 19 a = true /\ valid_frame 19 b = true /\ command a = [SetECUError true] /\
    pc_run (mkReq [] (mkDec 19 0 0 1024 (repeat 0 (Z.to_nat 1024))) true)
      ([Arrive (firstn 10 a); Arrive b; Arrive (skipn 10 a)] ++ repeat (Turn []) 5) = Some (q, got, command b) /\
    got = firstn 10 a ++ b ++ skipn 10 a /\ q_stream q = [] /\ ~ In (SetECUError true) (command b).
Proof.
  exists (encode 1 0x101 [0; 0; 0; 0; 0; 0; 0; 1]), (encode 1 0x102 [0; 0; 1; 0; 1; 0; 0; 0]).
  eexists _, _. split; [vm_compute; reflexivity|]. split; [vm_compute; reflexivity|]. split; [vm_compute; reflexivity|].
  split; [vm_compute; reflexivity|]. split; [vm_compute; reflexivity|]. split; [vm_compute; reflexivity|].
  vm_compute. intuition discriminate.
Qed.

Print Assumptions C74_nothing_lost_or_reordered.
Print Assumptions C74_never_stops_partial.
Print Assumptions C74_never_stops_refuted.
Print Assumptions C74_send_stores_what_fits.
Print Assumptions C74_receive_returns_what_is_there.
Print Assumptions C74_calls_end.
Print Assumptions C74_send_is_queue_send.
Print Assumptions C74_receive_is_queue_receive.
Print Assumptions C74_is_empty.
Print Assumptions C75_both_ports_delivered_partial.
Print Assumptions C75_both_ports_delivered_refuted.
Print Assumptions C75_command_executed_refuted.
