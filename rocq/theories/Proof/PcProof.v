(** Proofs about the PC request loop. *)
From Coq Require Import ZifyBool ZifyNat.
From Verif.Base Require Import Mem Stream.
From Verif.Model Require Import MsgFrame PcRequests.
From Verif.Spec Require Import PcSpec.
From Verif.Proof Require Import MemFacts FrameProof.
Ltac Zify.zify_post_hook ::= Z.div_mod_to_equations.

Lemma rd_app_l : forall (w more : list Z) i, 0 <= i < Z.of_nat (length w) ->
  rd (w ++ more) i = Some (nth (Z.to_nat i) w 0).
Proof.
  intros w more i H. rewrite (rd_nth _ _ _ 0) by (rewrite app_length; lia).
  f_equal. apply app_nth1. lia.
Qed.

Lemma handle_is_command : forall c w more, length w = 19%nat ->
  handleMessage c (w ++ more) 19 = Some (if c : bool then command w else []).
Proof.
  intros c w more L. unfold handleMessage. destruct c; [|reflexivity]. cbn [negb].
  change (19 =? COMMON_MSGLEN) with true. cbn [negb].
  do 19 (destruct w as [|? w]; [discriminate L|]). destruct w; [|discriminate L]. clear L.
  rewrite !rd_app_l by (simpl length; lia).
  cbn [nth Z.to_nat]. unfold command, frame_addr, frame_func, frame_payload, on.
  cbn [length nth Nat.sub skipn firstn].
  unfold DESTADDR_VCU, FUNC_DEBUG_TERMINAL, FUNC_TESTCMD_SDC, FUNC_TESTCMD_PDM.
  cbn [nth].
  change (Z.to_nat 1) with 1%nat. change (Z.to_nat 2) with 2%nat.
  change (Z.to_nat 3) with 3%nat. change (Z.to_nat 4) with 4%nat. cbn [nth].
  destruct (be16 z0 z1 =? 1) eqn:EA; cbn [negb]; [|reflexivity].
  change (u16 (19 - 11)) with 8.
  cbn [app skipn].
  set (more' := z12 :: z13 :: z14 :: z15 :: z16 :: z17 :: more).
  change (z4 :: z5 :: z6 :: z7 :: z8 :: z9 :: z10 :: z11 :: more')
    with ([z4; z5; z6; z7; z8; z9; z10; z11] ++ more').
  destruct (Z.eqb_spec (be16 z2 z3) 9) as [E9|E9].
  - rewrite E9. change (9 =? 257) with false. change (9 =? 258) with false. cbn iota.
    pose proof (rd_block_mid _ [] [z4; z5; z6; z7; z8; z9; z10; z11] more' 0 8 eq_refl eq_refl) as R.
    cbn [app] in R |- *. rewrite R. reflexivity.
  - destruct (be16 z2 z3 =? 257).
    + unfold handleMsgTestSdc. change (8 =? COMMON_DATALEN) with true. cbn [negb].
      rewrite rd_app_l by (simpl length; lia). reflexivity.
    + destruct (be16 z2 z3 =? 258); [|reflexivity].
      unfold handleMsgTestPdm. change (8 =? COMMON_DATALEN) with true. cbn [negb pdm_calls].
      rewrite !rd_app_l by (simpl length; lia). reflexivity.
Qed.

Lemma rd_block_skipn : forall (l w : list Z) off n, rd_block l off n = Some w ->
  exists more, skipn (Z.to_nat off) l = w ++ more /\ Z.of_nat (length w) = n.
Proof.
  intros l w off n H. unfold rd_block in H.
  destruct ((0 <=? off) && (0 <=? n) && (off + n <=? Z.of_nat (length l))) eqn:E; [|discriminate].
  injection H as <-. exists (skipn (Z.to_nat n) (skipn (Z.to_nat off) l)).
  split; [now rewrite firstn_skipn|]. rewrite firstn_length, skipn_length. lia.
Qed.

(** The decode buffer between two turns: never more than 27 bytes in use. *)
Definition roomy (m : mfdec) (rest : list Z) : Prop :=
  (d_start m <= 1 /\ (length rest <= 18)%nat) \/ ((length rest <= 7)%nat /\ d_end m <= 27).

Definition calls_of (c : bool) (fs : list (list Z)) : list pc_call :=
  if c then concat (map command fs) else [].

Lemma turn_spec : forall locks q rest, inv 19 (q_dec q) rest -> roomy (q_dec q) rest ->
  Forall is_byte (q_stream q) ->
  exists q' calls rest' fs, request_iteration locks q = Some (q', calls) /\
    q_stream q' = skipn 8 (q_stream q) /\ q_control q' = q_control q /\
    inv 19 (q_dec q') rest' /\ roomy (q_dec q') rest' /\
    calls = calls_of (q_control q) fs /\
    Z.of_nat (length (firstn 8 (q_stream q))) <= d_avail (q_dec q) /\
    (Forall (eq true) locks -> forall X,
       scan 19 0 (rest ++ firstn 8 (q_stream q) ++ X) = fs ++ scan 19 0 (rest' ++ X)).
Proof.
  intros locks [s m c] rest I R B. cbn [q_stream q_dec q_control] in *.
  unfold request_iteration. cbn [q_stream q_dec q_control].
  pose proof (inv_avail _ _ _ I) as (A1 & A2 & A3 & A4).
  assert (AV : Z.of_nat (length (firstn 8 s)) <= d_avail m).
  { pose proof (firstn_le_length 8 s). unfold roomy in R. lia. }
  destruct s as [|b s'].
  - exists (mkReq [] m c), [], rest, []. split; [reflexivity|]. split; [reflexivity|]. split; [reflexivity|].
    split; [exact I|]. split; [exact R|]. split; [now destruct c|]. split; [exact AV|].
    intros _ X. reflexivity.
  - set (s := b :: s') in *. cbv iota. unfold stream_recv, BATCH_RECV_SIZE.
    destruct (push_spec 19 m rest (firstn 8 s) I) as (ok & m1 & E & OK & I1 & S1 & _).
    { apply Forall_forall. intros z Hz. rewrite Forall_forall in B. apply B.
      rewrite <- (firstn_skipn 8 s). apply in_or_app. now left. }
    assert (ok = true) by (apply OK; lia). subst ok. rewrite E.
    pose proof (inv_avail _ _ _ I1) as (Q1 & Q2 & Q3 & Q4).
    pose proof (firstn_le_length 8 s) as L8. rewrite app_length in Q2.
    destruct (recv_spec 19 m1 (rest ++ firstn 8 s) locks I1)
      as (junk & wo & rest' & locks' & r & m2 & E2 & SP & I2 & D & F).
    rewrite E2. apply (f_equal (@length Z)) in SP. rewrite !app_length in SP.
    destruct wo as [w|].
    + destruct D as (LW & HO & NR & DE & DS & _). destruct r as [off|]; [|easy].
      unfold handed_out in HO.
      destruct (rd_block (d_data m2) off (d_msgLen m2)) as [w'|] eqn:RB; [|discriminate].
      injection HO as ->. destruct (rd_block_skipn _ _ _ _ RB) as (more & SK & LN).
      rewrite SK. rewrite <- LN, LW. change (Z.of_nat 19) with 19.
      rewrite handle_is_command by exact LW.
      exists (mkReq (skipn 8 s) m2 c), (if c then command w else []), rest', [w].
      split; [reflexivity|]. split; [reflexivity|]. split; [reflexivity|]. split; [exact I2|].
      split. { cbn [q_dec]. unfold roomy in R |- *. lia. }
      split. { unfold calls_of. destruct c; [|reflexivity]. simpl. now rewrite app_nil_r. }
      split; [exact AV|].
      intros LK X. destruct (F LK) as [_ F2]. rewrite app_assoc, F2. reflexivity.
    + destruct D as (-> & D1 & D2).
      exists (mkReq (skipn 8 s) m2 c), [], rest', [].
      split; [reflexivity|]. split; [reflexivity|]. split; [reflexivity|]. split; [exact I2|].
      split. { cbn [q_dec]. left. lia. }
      split; [now destruct c|]. split; [exact AV|].
      intros LK X. destruct (F LK) as [_ F2]. rewrite app_assoc, F2. reflexivity.
Qed.

Lemma Forall_firstn : forall A (P : A -> Prop) n l, Forall P l -> Forall P (firstn n l).
Proof.
  intros A P n l H. apply Forall_forall. intros z Hz. rewrite Forall_forall in H. apply H.
  rewrite <- (firstn_skipn n l). apply in_or_app. now left.
Qed.
Lemma Forall_skipn : forall A (P : A -> Prop) n l, Forall P l -> Forall P (skipn n l).
Proof.
  intros A P n l H. apply Forall_forall. intros z Hz. rewrite Forall_forall in H. apply H.
  rewrite <- (firstn_skipn n l). apply in_or_app. now right.
Qed.

(** A whole history. [eaten] are the bytes the loop has taken. While the enable
    flag does not change the calls are those of the frames found. *)

Lemma history_spec : forall evs q rest, inv 19 (q_dec q) rest -> roomy (q_dec q) rest ->
  Forall is_byte (q_stream q) -> events_ok evs ->
  exists q' got calls rest' eaten fs, pc_run q evs = Some (q', got, calls) /\
    inv 19 (q_dec q') rest' /\ roomy (q_dec q') rest' /\ Forall is_byte (q_stream q') /\
    q_stream q ++ got = eaten ++ q_stream q' /\
    (q_control q = true -> q_control q' = true) /\
    (q_control q = true \/ no_enable evs -> calls = calls_of (q_control q) fs /\ q_control q' = q_control q) /\
    (crc_available evs -> forall X, scan 19 0 (rest ++ eaten ++ X) = fs ++ scan 19 0 (rest' ++ X)).
Proof.
  induction evs as [|e evs IH]; intros q rest I R B OK.
  - exists q, [], [], rest, [], []. split; [reflexivity|]. split; [exact I|]. split; [exact R|].
    split; [exact B|]. split; [now rewrite app_nil_r|]. split; [auto|].
    split; [intros _; split; [now destruct (q_control q)|reflexivity]|]. reflexivity.
  - inversion OK as [|? ? Oe OK']; subst. destruct e as [b|locks|]; cbn [pc_run pc_step].
    + set (st := stream_stored RECV_STREAM_CAP (q_stream q) b).
      change (stream_send RECV_STREAM_CAP (q_stream q) b) with (q_stream q ++ st).
      destruct (IH (mkReq (q_stream q ++ st) (q_dec q) (q_control q)) rest I R)
        as (q' & got & calls & rest' & eaten & fs & E & I' & R' & B' & S' & M' & C' & F').
      { cbn [q_stream]. apply Forall_app. split; [exact B|]. now apply Forall_firstn. }
      { exact OK'. }
      rewrite E. exists q', (st ++ got), calls, rest', eaten, fs.
      split; [reflexivity|]. split; [exact I'|]. split; [exact R'|]. split; [exact B'|].
      split; [rewrite app_assoc; exact S'|]. split; [exact M'|]. split.
      { intros [H|H]; apply C'; [now left|right; now inversion H]. }
      intros CA. inversion CA. now apply F'.
    + destruct (turn_spec locks q rest I R B) as (q1 & c1 & r1 & f1 & E1 & S1 & QC & I1 & R1 & HC & _ & F1).
      rewrite E1.
      destruct (IH q1 r1 I1 R1)
        as (q' & got & calls & rest' & eaten & fs & E & I' & R' & B' & S' & M' & C' & F').
      { rewrite S1. now apply Forall_skipn. }
      { exact OK'. }
      rewrite E. exists q', got, (c1 ++ calls), rest', (firstn 8 (q_stream q) ++ eaten), (f1 ++ fs).
      split; [reflexivity|]. split; [exact I'|]. split; [exact R'|]. split; [exact B'|].
      split. { rewrite <- app_assoc, <- S', S1, app_assoc, firstn_skipn. reflexivity. }
      split; [intros H; apply M'; congruence|]. split.
      { intros H. destruct C' as [C1 C2].
        { destruct H as [H|H]; [left; congruence|right; now inversion H]. }
        split; [|congruence]. rewrite HC, C1, QC. unfold calls_of. destruct (q_control q); [|reflexivity].
        now rewrite map_app, concat_app. }
      intros CA X. inversion CA as [|? ? L1 L2]; subst. rewrite <- !app_assoc.
      rewrite (F1 L1), (F' L2). reflexivity.
    + destruct (IH (mkReq (q_stream q) (q_dec q) true) rest I R B OK')
        as (q' & got & calls & rest' & eaten & fs & E & I' & R' & B' & S' & M' & C' & F').
      rewrite E. exists q', got, calls, rest', eaten, fs.
      split; [reflexivity|]. split; [exact I'|]. split; [exact R'|]. split; [exact B'|].
      split; [exact S'|]. split; [intros _; now apply M'|]. split.
      { intros [H|H]; [|inversion H; easy]. rewrite H. apply C'. now left. }
      intros CA. inversion CA. now apply F'.
Qed.

Lemma roomy_short : forall m rest, roomy m rest -> (length rest < 19)%nat.
Proof. unfold roomy. lia. Qed.

Lemma pc_fresh_inv : forall q, pc_fresh q ->
  inv 19 (q_dec q) [] /\ roomy (q_dec q) [] /\ Forall is_byte (q_stream q).
Proof.
  intros q (HS & HF & _). split; [apply fresh_inv; [lia|exact HF]|]. rewrite HS. split; [|constructor].
  destruct HF as (m0 & _ & _ & Q). unfold MsgFrameDecode_Init in Q.
  destruct (_ >? _); [discriminate|]. injection Q as <-. left. simpl. lia.
Qed.

Lemma handle_requests_spec : forall n q rest, (length (q_stream q) <= n)%nat ->
  inv 19 (q_dec q) rest -> roomy (q_dec q) rest -> Forall is_byte (q_stream q) ->
  exists q' rest' fs, HandleRequests n q = Some (q', calls_of (q_control q) fs) /\ q_stream q' = [] /\
    inv 19 (q_dec q') rest' /\ roomy (q_dec q') rest' /\
    forall X, scan 19 0 (rest ++ q_stream q ++ X) = fs ++ scan 19 0 (rest' ++ X).
Proof.
  assert (Nil : forall n q, q_stream q = [] -> HandleRequests n q = Some (q, [])).
  { intros [|n] q H; simpl; now rewrite H. }
  induction n as [|n IH]; intros q rest L I R B.
  - assert (S : q_stream q = []) by (destruct (q_stream q); [reflexivity|simpl in L; lia]).
    exists q, rest, []. rewrite Nil by exact S. split; [now destruct (q_control q)|]. split; [exact S|].
    split; [exact I|]. split; [exact R|]. intros X. now rewrite S.
  - destruct (q_stream q) as [|b s] eqn:S.
    { exists q, rest, []. rewrite Nil by exact S. split; [now destruct (q_control q)|]. split; [exact S|].
      split; [exact I|]. split; [exact R|]. intros X. reflexivity. }
    destruct (turn_spec [] q rest I R) as (q1 & c1 & r1 & f1 & E1 & S1 & QC & I1 & R1 & HC & _ & F1).
    { now rewrite S. }
    destruct (IH q1 r1) as (q2 & r2 & f2 & E2 & S2 & I2 & R2 & F2).
    { rewrite S1, S, skipn_length. cbn [length] in *. lia. }
    { exact I1. } { exact R1. } { rewrite S1, S. now apply Forall_skipn. }
    cbn [HandleRequests]. rewrite S, E1, E2. exists q2, r2, (f1 ++ f2).
    split. { rewrite HC, QC. unfold calls_of. destruct (q_control q); [|reflexivity].
             now rewrite map_app, concat_app. }
    split; [exact S2|]. split; [exact I2|]. split; [exact R2|]. intros X.
    rewrite <- app_assoc, <- F2, <- S, <- (F1 (Forall_nil _)), S1.
    do 2 f_equal. now rewrite app_assoc, firstn_skipn.
Qed.

Lemma frames_in_concat : forall L fs, Forall (fun w => valid_frame L w = true) fs -> (0 < L)%nat ->
  frames_in L (concat fs) = fs.
Proof.
  intros L fs V HL. induction fs as [|w fs IH]; [reflexivity|]. inversion V; subst.
  cbn [concat]. unfold frames_in in *. rewrite scan_hit; auto. now rewrite IH.
Qed.
