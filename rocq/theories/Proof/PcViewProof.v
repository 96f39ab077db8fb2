(** End-to-end: from the ECU's transmissions to the PC's terminal. *)
From Coq Require Import ZifyBool ZifyNat.
From Verif.Base Require Import Mem Stream.
From Verif.Model Require Import VehicleState Crc MsgFrame PcPeriodic PcTool.
From Verif.Spec Require Import FrameSpec PcPeriodicSpec PcToolSpec.
From Verif.Proof Require Import MemFacts CrcProof FrameProof PcProof PcPeriodicProof PcToolProof.
Ltac Zify.zify_post_hook ::= Z.div_mod_to_equations.

Lemma stretches_in_order : forall L s k, (1 <= L)%nat -> in_order (stretches L k s) (skipn k s).
Proof.
  intros L. induction s as [|x s IH]; intros k HL; [destruct k; constructor|]. cbn [stretches].
  destruct k as [|k]; [|cbn [skipn]; now apply IH]. cbn [skipn].
  destruct (Nat.eqb _ L && _) eqn:E.
  - specialize (IH (L - 1)%nat HL). rewrite <- (firstn_skipn L (x :: s)) at 2.
    apply (in_order_cons []). destruct L as [|L]; [lia|]. cbn [skipn]. 
    replace (S L - 1)%nat with L in IH by lia. replace (S L - 1)%nat with L by lia. exact IH.
  - apply (in_order_gap _ [x]). now apply (IH 0%nat).
Qed.

Lemma stretches_frames : forall L s k, Forall (fun w => is_frame L w = true) (stretches L k s).
Proof.
  intros L. induction s as [|x s IH]; intros k; [constructor|]. cbn [stretches]. destruct k as [|k]; [|apply IH].
  destruct (Nat.eqb _ L && _) eqn:E; [|apply IH]. constructor; [exact E|apply IH].
Qed.

Lemma frame_good : forall L w, is_frame L w = true -> crc_good w = valid_frame L w.
Proof. intros L w H. unfold valid_frame, is_frame in *. rewrite H. reflexivity. Qed.

Lemma stretches_valid : forall L s,
  Forall (fun w => m_crc_correct (message_of w) = true <-> valid_frame L w = true) (stretches L 0 s).
Proof.
  intros L s. eapply Forall_impl; [|apply stretches_frames]. cbn. intros w H. rewrite (frame_good L w H). reflexivity.
Qed.

Lemma stretches_noise : forall L noise t, (1 <= L)%nat -> ~ In 58 noise ->
  stretches L 0 (noise ++ t) = stretches L 0 t.
Proof.
  intros L noise t HL N. rewrite <- pop_stretches by exact HL.
  replace (pop_to_colon noise) with (@nil Z); [reflexivity|].
  induction noise as [|c n IH]; [reflexivity|]. cbn [pop_to_colon]. unfold CHAR_COLON in *.
  destruct (Z.eqb_spec c 58) as [->|]; [exfalso; apply N; now left|]. apply IH. intros H. apply N. now right.
Qed.

Lemma stretches_one_kind : forall L noise frames, (1 <= L)%nat -> ~ In 58 noise ->
  Forall (fun w => is_frame L w = true) frames -> stretches L 0 (noise ++ concat frames) = frames.
Proof.
  intros L noise frames HL N F. rewrite stretches_noise by assumption. clear N.
  induction F as [|w frames W F IH]; [reflexivity|]. cbn [concat]. rewrite stretches_hit by assumption. now rewrite IH.
Qed.

Lemma frames_received : forall L frames chunks, (11 <= L)%nat ->
  Forall (fun w => is_frame L w = true) frames -> Forall (Forall is_byte) frames ->
  concat chunks = concat frames ->
  snd (recv_all L [] chunks) = map message_of frames.
Proof.
  intros L frames chunks HL F B E.
  assert (FB : Forall (Forall is_byte) chunks).
  { assert (X : Forall is_byte (concat chunks)).
    { rewrite E. clear -B. induction B as [|w fs W B IH]; [constructor|]. cbn. now apply Forall_app. }
    clear -X. induction chunks as [|c t IH]; [constructor|]. cbn in X. apply Forall_app in X. destruct X. auto. }
  rewrite recv_all_spec; [|exact HL|cbn; lia|constructor|exact FB]. cbn [app]. rewrite E. f_equal.
  apply (stretches_one_kind L []); auto. lia.
Qed.

Lemma valid_is_frame : forall L w, valid_frame L w = true -> is_frame L w = true /\ crc_good w = true.
Proof. intros L w H. unfold valid_frame in H. apply andb_prop in H. exact H. Qed.

Lemma encode_is_frame : forall a f p L, (length p + 11)%nat = L ->
  is_frame L (encode a f p) = true /\ crc_good (encode a f p) = true.
Proof. intros a f p L <-. apply valid_is_frame, encode_valid. Qed.

Lemma state_payload_bytes : forall i n v, Forall is_byte (state_payload i n v).
Proof. intros. unfold state_payload. repeat constructor; apply byte_is_byte. Qed.

(** ** State broadcasts *)
Lemma view_state_frames : forall l chunks,
  Forall (fun x => 0 <= snd (fst x) <= 4) l ->
  concat chunks = concat (map (fun x => encode 2 1 (state_payload (fst (fst x)) (snd (fst x)) (snd x))) l) ->
  view_state chunks = Some (map (fun x => state_shown (encode 2 1 (state_payload (fst (fst x)) (snd (fst x)) (snd x)))) l).
Proof.
  intros l chunks N E. set (enc := fun x => encode 2 1 (state_payload (fst (fst x)) (snd (fst x)) (snd x))) in *.
  assert (FR : Forall (fun w => is_frame 18 w = true /\ crc_good w = true) (map enc l)).
  { apply Forall_forall. intros w Hw. apply in_map_iff in Hw. destruct Hw as (x & <- & _). now apply encode_is_frame. }
  assert (FB : Forall (Forall is_byte) (map enc l)).
  { apply Forall_forall. intros w Hw. apply in_map_iff in Hw. destruct Hw as (x & <- & _).
    apply encode_bytes, state_payload_bytes. }
  assert (AD : Forall (fun w => addressed 1 w && crc_good w = true) (map enc l)).
  { apply Forall_forall. intros w Hw. rewrite Forall_forall in FR. destruct (FR w Hw) as [_ G]. rewrite G, andb_true_r.
    apply in_map_iff in Hw. destruct Hw as (x & <- & _). unfold addressed, enc.
    destruct (encode_fields 2 1 (state_payload (fst (fst x)) (snd (fst x)) (snd x))) as (A & B & _);
      [unfold is_u16; lia|unfold is_u16; lia|]. now rewrite A, B. }
  unfold view_state, MSG_LEN_STATE. rewrite (frames_received 18 (map enc l)); try assumption; try lia.
  2:{ eapply Forall_impl; [|exact FR]. cbn. tauto. }
  rewrite view_state_ws.
  - f_equal. rewrite <- (map_map enc). f_equal. clear -AD.
    induction AD as [|w ws W AD IH]; [reflexivity|]. cbn [filter]. now rewrite W, IH.
  - exact FB.
  - eapply Forall_impl; [|exact FR]. cbn. intros w [H _]. unfold is_frame in H. lia.
  - apply Forall_forall. intros w Hw _. apply in_map_iff in Hw. destruct Hw as (x & <- & Hx). unfold enc.
    rewrite <- framed_true, framed_payload. unfold state_payload. cbn [nth].
    rewrite Forall_forall in N. specialize (N x Hx). unfold byte. change (2 ^ (8 * 0)) with 1. clear -N. lia.
Qed.

Lemma field_shown : forall i n v, 1 <= i <= 11 -> (n = 1 /\ 0 <= v < 256) \/ (n = 4 /\ 0 <= v < 2 ^ 32) ->
  state_shown (encode 2 1 (state_payload i n v)) = StateUpdate (nth (Z.to_nat (i - 1)) field_names []) v.
Proof.
  intros i n v I H. unfold state_shown. rewrite pc_reads_field; [|unfold is_u16; lia|exact H].
  replace (i =? 0) with false by lia.
  rewrite (nth_error_nth' field_names []) by (cbn [field_names length]; lia). reflexivity.
Qed.

Lemma broadcast_viewed : forall d counter locks buffer b o chunks,
    state_ok d -> length buffer = 18%nat -> counter mod 100 = 0 -> Forall (eq true) locks ->
    periodicStateUpdate true counter (Some d) locks buffer = Some (b, o) ->
    concat chunks = concat (on_port UartA o) ->
    exists zs, view_state chunks = Some (map (fun x => StateUpdate (fst x) (snd x)) (combine field_names zs)) /\
      length zs = 11%nat /\
      forall k, (k < 11)%nat -> k <> 5%nat ->
        exists v, true_value d (Z.of_nat k + 1) = Some v /\ reads (nth k zs 0) v.
Proof.
  intros d counter locks buffer b o chunks OK LB C LK E EC. unfold periodicStateUpdate, COUNT_1HZ in E. rewrite C in E.
  change (0 =? 0) with true in E. cbn [negb] in E.
  destruct (send_all_frames (sent_fields d) locks buffer LB) as (b' & E' & _); [|exact LK|].
  { repeat constructor; cbn; lia. }
  rewrite E in E'. apply (f_equal (fun x => match x with Some (_, y) => y | None => o end)) in E'. cbv beta iota in E'.
  subst o. rewrite flat_map_ports in EC. apply view_state_frames in EC; [|repeat constructor; cbn; lia].
  destruct OK as (B1 & B2 & B3 & B4 & B5 & F1 & F2 & F3 & F4 & F5).
  exists (map (fun x => snd x) (sent_fields d)). split; [|split; [reflexivity|]].
  - rewrite EC. f_equal. unfold sent_fields. cbv zeta.
    assert (BZ : forall b, 0 <= b2z b < 256) by (intros []; cbn; lia). unfold is_byte in *.
    assert (S0 : 0 <= tmpSdc (vs_sdc d) < 256).
    { rewrite sdc_value. destruct (vs_sdc d) as [[] [] [] []]; cbn [s_bms s_bspd s_imd s_out b2z]; lia. }
    assert (P0 : 0 <= tmpPdm (vs_glv d) < 256).
    { rewrite pdm_value. cbv zeta.
      assert (BO : forall i, 0 <= b2z (nth i (vs_glv d) false) <= 1)
        by (intros i; destruct (nth i (vs_glv d) false); cbn [b2z]; lia).
      pose proof (BO 0%nat). pose proof (BO 1%nat). pose proof (BO 2%nat).
      pose proof (BO 3%nat). pose proof (BO 4%nat). pose proof (BO 5%nat). lia. }
    cbn [map fst snd combine field_names].
    repeat (rewrite field_shown; [|lia|first [left; split; [reflexivity|]; first [assumption | apply BZ] | right; split; [reflexivity|]; now apply f_bits_range]]).
    reflexivity.
  - intros k Hk N. unfold sent_fields. cbv zeta.
    do 11 (destruct k as [|k]; [first [lia | cbn [map snd nth]; eexists; (split; [reflexivity|]); cbn [reads];
      first [now apply bits_float | reflexivity | apply sdc_value | apply pdm_value]]|]). lia.
Qed.

Lemma shared_line : forall pieces chunks, Forall (Forall is_byte) chunks -> crlf_only_at_ends pieces ->
    concat chunks = concat pieces ->
    (forall w, spurious 18 pieces w -> addressed 1 w && crc_good w = false) ->
    Forall (fun w => is_frame 18 w && addressed 1 w && crc_good w = true -> nth 2 (frame_payload w) 0 <= 7) pieces ->
    view_state chunks = Some (map state_shown (filter (fun w => pc_accepts 18 1 w) pieces)).
Proof.
  intros pieces chunks FB C E SP LN. unfold view_state, MSG_LEN_STATE.
  rewrite recv_all_spec; [|lia|cbn; lia|constructor|exact FB]. cbn [app]. rewrite E.
  assert (FC : Forall is_byte (concat pieces)).
  { rewrite <- E. clear -FB. induction FB as [|w fs W B IH]; [constructor|]. cbn. now apply Forall_app. }
  pose proof (proj1 (pieces_picked 18 pieces (2 * (length (concat pieces) + length pieces)) ltac:(lia)) [] pieces
    eq_refl (le_n _) C) as P.
  pose proof (stretches_frames 18 (concat pieces) 0) as SF.
  set (ws := stretches 18 0 (concat pieces)) in *.
  rewrite view_state_ws.
  - rewrite (picked_filter _ _ (fun w => addressed 1 w && crc_good w) _ _ P SP). do 2 f_equal.
    clear. induction pieces as [|p ps IH]; [reflexivity|]. cbn [filter]. unfold pc_accepts at 1.
    destruct (is_frame 18 p) eqn:F; cbn [filter].
    + rewrite IH. change (Z.to_nat 18) with 18%nat. rewrite <- (frame_good 18 p F).
      unfold addressed. destruct (crc_good p), (frame_addr p =? 2), (frame_func p =? 1); reflexivity.
    + replace (valid_frame (Z.to_nat 18) p) with false; [exact IH|]. unfold valid_frame, is_frame in *.
      change (Z.to_nat 18) with 18%nat. now rewrite F.
  - apply (proj2 (stretches_props 18 (concat pieces) 0) FC).
  - apply (proj1 (stretches_props 18 (concat pieces) 0)).
  - revert P SF SP LN. generalize (spurious 18 pieces) as junk. intros junk P. clear -P.
    intros SF SP LN. remember (filter (is_frame 18) pieces) as fs eqn:EF.
    assert (IN : forall w, In w fs -> is_frame 18 w && addressed 1 w && crc_good w = true -> nth 2 (frame_payload w) 0 <= 7).
    { intros w Hw. subst fs. apply filter_In in Hw. rewrite Forall_forall in LN. apply LN. tauto. }
    clear EF LN. induction P as [|x fs ws P IH|x fs ws J P IH]; [constructor| |].
    + inversion SF; subst. constructor; [|apply IH; auto; intros w Hw; apply IN; now right].
      intros G. apply IN; [now left|]. rewrite H1. exact G.
    + inversion SF; subst. constructor; [|apply IH; auto]. intros G. rewrite (SP x J) in G. discriminate.
Qed.

(** ** Log *)
Lemma plain_app : forall a b, plain_text (a ++ b) = plain_text a ++ plain_text b.
Proof. intros. unfold plain_text. now rewrite map_app, concat_app. Qed.

Lemma accepted_log_frames : forall ws, Forall (fun w => pc_accepts 43 2 w = true) ws ->
  Forall (fun w => is_frame 43 w = true) ws /\ filter (addressed 2) ws = ws /\
  Forall (fun w => crc_good w = true) ws.
Proof.
  intros ws F. induction F as [|w ws W F IH]; [repeat split; constructor|]. unfold pc_accepts in W.
  apply andb_prop in W. destruct W as [W1 W2]. apply andb_prop in W1. destruct W1 as [W0 W1].
  apply (valid_is_frame 43) in W0. destruct IH as (I1 & I2 & I3).
  split; [constructor; tauto|]. split; [|constructor; tauto].
  cbn [filter]. unfold addressed at 1. rewrite W1, W2. cbn [andb]. now rewrite I2.
Qed.

Lemma view_log_frames : forall ws chunks, Forall (fun w => pc_accepts 43 2 w = true) ws ->
  Forall (Forall is_byte) ws -> concat chunks = concat ws ->
  exists out, view_log chunks = Some out /\ plain_text out = log_text ws /\ (forall t, ~ In (LogTextRed t) out).
Proof.
  intros ws chunks A B E. destruct (accepted_log_frames ws A) as (F & AD & G).
  unfold view_log, MSG_LEN_LOG. rewrite (frames_received 43 ws) by (auto; lia). rewrite view_log_ws, AD.
  eexists. split; [reflexivity|]. clear -G. induction G as [|w ws W G [I1 I2]]; [split; [reflexivity|intros t []]|].
  split.
  - unfold log_text, plain_text in *. cbn [map concat]. rewrite I1. unfold log_shown. now rewrite W.
  - intros t. cbn [map]. intros [H|H]; [|now apply (I2 t)]. unfold log_shown in H. rewrite W in H. discriminate.
Qed.

Lemma cstr_bytes : forall l, Forall is_byte l -> Forall is_byte (cstr l).
Proof.
  intros l F. induction F as [|c l C F IH]; [constructor|]. cbn [cstr]. destruct (c =? 0); [constructor|now constructor].
Qed.

Lemma zeros_bytes : forall n, Forall is_byte (repeat 0 n).
Proof. induction n; constructor; auto. unfold is_byte. lia. Qed.

Definition ev_bytes (ev : log_event) : Prop :=
  match ev with Write _ msg => Forall is_byte msg | Flush l => l = true end.

Lemma log_frames_bytes : forall evs buffer stream b s o st, length buffer = 43%nat -> Forall is_byte stream ->
  Forall ev_bytes evs -> log_run buffer stream evs = Some (b, s, o, st) -> Forall (Forall is_byte) (on_port UartA o).
Proof.
  induction evs as [|ev evs IH]; intros buffer stream b s o st LB FS FE E; cbn [log_run] in E.
  - injection E as <- <- <- <-. constructor.
  - inversion FE as [|? ? E1 E2]; subst. destruct ev as [lock msg|lock]; cbn [log_step] in E.
    + destruct (Log_Print lock stream msg) as [s1|] eqn:LP; [|discriminate]. apply Log_Print_some in LP.
      destruct (log_run buffer s1 evs) as [[[[b2 s2] o2] st2]|] eqn:R; [|discriminate].
      apply (f_equal (fun x => match x with Some (_, _, y, _) => y | None => o end)) in E. cbv beta iota in E.
      cbn [app] in E. subst o. eapply IH; [exact LB| |exact E2|exact R].
      subst s1. destruct lock; [|exact FS]. unfold stream_send. apply Forall_app. split; [exact FS|].
      apply Forall_firstn. unfold log_bytes. apply Forall_firstn. now apply cstr_bytes.
    + cbn in E1. subst lock. destruct stream as [|x stream].
      * destruct (log_run buffer [] evs) as [[[[b2 s2] o2] st2]|] eqn:R; [|discriminate].
        apply (f_equal (fun x => match x with Some (_, _, y, _) => y | None => o end)) in E. cbv beta iota in E.
        cbn [app] in E. subst o. eapply IH; [exact LB|exact FS|exact E2|exact R].
      * destruct (flush_frame true buffer (x :: stream) LB) as [EF LW]. rewrite EF in E.
        set (w := framed true 2 2 _) in *.
        destruct (log_run w (skipn 32 (x :: stream)) evs) as [[[[b2 s2] o2] st2]|] eqn:R; [|discriminate].
        apply (f_equal (fun x => match x with Some (_, _, y, _) => y | None => o end)) in E. cbv beta iota in E.
        subst o. rewrite on_port_app. change (on_port UartA [(UartA, w); (UartB, w)]) with [w].
        apply Forall_app. split.
        -- constructor; [|constructor]. unfold w. rewrite framed_true. apply encode_bytes.
           apply Forall_app. split; [now apply Forall_firstn|apply zeros_bytes].
        -- apply (IH w (skipn 32 (x :: stream)) b2 s2 o2 st2); auto using Forall_skipn.
Qed.

Lemma log_viewed : forall evs buffer b s o stored chunks, length buffer = 43%nat ->
    Forall (fun ev => match ev with Write _ msg => Forall is_byte msg | Flush l => l = true end) evs ->
    log_run buffer [] evs = Some (b, s, o, stored) ->
    concat chunks = concat (on_port UartA o) ->
    exists out, view_log chunks = Some out /\ stored = plain_text out ++ s /\
      (forall t, ~ In (LogTextRed t) out).
Proof.
  intros evs buffer b s o stored chunks LB FE E EC.
  destruct (log_history evs buffer [] LB) as (b' & s' & o' & st' & E' & _ & _ & _ & _ & T & _ & V);
    [constructor|cbn; lia|right; now rewrite E|]. rewrite E in E'.
  assert (Q : s' = s /\ o' = o /\ st' = stored).
  { split; [|split].
    - now apply (f_equal (fun x => match x with Some (_, y, _, _) => y | None => s' end)) in E'.
    - now apply (f_equal (fun x => match x with Some (_, _, y, _) => y | None => o' end)) in E'.
    - now apply (f_equal (fun x => match x with Some (_, _, _, y) => y | None => st' end)) in E'. }
  destruct Q as (-> & -> & ->). cbn [app] in T.
  destruct (view_log_frames (on_port UartA o) chunks) as (out & V1 & V2 & V3); [| |exact EC|].
  - apply V. intros I. rewrite Forall_forall in FE. specialize (FE _ I). discriminate.
  - exact (log_frames_bytes evs buffer [] b s o stored LB (Forall_nil _) FE E).
  - exists out. rewrite V2. auto.
Qed.

Lemma create_log_frames : forall n text, Forall (fun c => 1 <= c < 256) text -> (length text <= 32 * n)%nat ->
  exists ms, create_log_msgs n text = Some ms /\ Forall (fun w => pc_accepts 43 2 w = true) ms /\
    Forall (Forall is_byte) ms /\ log_text ms = text.
Proof.
  induction n as [|n IH]; intros text F L.
  - destruct text; [|cbn in L; lia]. exists []. repeat split; constructor.
  - destruct text as [|c text]; [exists []; repeat split; constructor|].
    set (t := c :: text) in *. cbn [create_log_msgs]. fold t.
    set (pl := firstn 32 t ++ repeat 0 (32 - length (firstn 32 t))).
    assert (LP : length pl = 32%nat) by (unfold pl; rewrite app_length, repeat_length, firstn_length; lia).
    assert (PB : Forall is_byte pl).
    { unfold pl. apply Forall_app. split; [|apply zeros_bytes]. apply Forall_firstn.
      eapply Forall_impl; [|exact F]. unfold is_byte. cbn. intros. lia. }
    change (create_log_msgs (S n) t) with
      (match encode_message ADDR_PC 2 pl with
       | Some m => match create_log_msgs n (skipn 32 t) with Some ms => Some (m :: ms) | None => None end
       | None => None end).
    rewrite encode_message_encode by exact PB.
    destruct (IH (skipn 32 t)) as (ms & -> & A & B & T); [now apply Forall_skipn|rewrite skipn_length; lia|].
    unfold ADDR_PC. eexists. split; [reflexivity|].
    destruct (encode_fields 2 2 pl) as (E1 & E2 & E3); [unfold is_u16; lia|unfold is_u16; lia|].
    split; [|split].
    + constructor; [|exact A]. unfold pc_accepts. rewrite E1, E2.
      pose proof (encode_valid 2 2 pl) as V. rewrite LP in V. change (32 + 11)%nat with (Z.to_nat 43) in V.
      now rewrite V.
    + constructor; [now apply encode_bytes|exact B].
    + unfold log_text in *. cbn [map concat]. rewrite E3, T. unfold pl. rewrite filter_app, filter_zeros, app_nil_r.
      rewrite filter_id; [apply firstn_skipn|]. apply Forall_firstn. eapply Forall_impl; [|exact F]. cbn. intros. lia.
Qed.

Lemma simulated : forall text chunks, Forall (fun c => 1 <= c < 256) text ->
    exists ms, create_log_msgs (length text) text = Some ms /\
      (concat chunks = concat ms ->
       exists out, view_log chunks = Some out /\ plain_text out = text /\ (forall t, ~ In (LogTextRed t) out)).
Proof.
  intros text chunks F. destruct (create_log_frames (length text) text F) as (ms & E & A & B & T); [lia|].
  exists ms. split; [exact E|]. intros EC. rewrite <- T. now apply view_log_frames.
Qed.
