(** Proofs about the PC tool. *)
From Coq Require Import ZifyBool ZifyNat.
From Verif.Model Require Import Crc PcTool.
From Verif.Spec Require Import FrameSpec PcPeriodicSpec PcToolSpec.
From Verif.Proof Require Import BitFacts CrcProof FrameProof PcProof.
Ltac Zify.zify_post_hook ::= Z.div_mod_to_equations.

(** ** CRC *)
Lemma py_bit_step : forall c, word c -> py_bit c = crc_step c false.
Proof.
  intros c W. unfold py_bit, crc_step. rewrite xorb_false_r.
  assert (E : (Z.land c 0x80000000 =? 0) = negb (Z.testbit c 31)).
  { change 0x80000000 with (2 ^ 31). destruct (Z.testbit c 31) eqn:T; cbn [negb].
    - apply Z.eqb_neq. intros N. apply (f_equal (fun z => Z.testbit z 31)) in N.
      rewrite Z.land_spec, T, Z.pow2_bits_true, Z.bits_0 in N by lia. discriminate.
    - apply Z.eqb_eq. apply Z.bits_inj'. intros n Hn. rewrite Z.land_spec, Z.bits_0.
      destruct (Z.eq_dec n 31) as [->|N]; [now rewrite T|]. rewrite Z.pow2_bits_false by lia. apply andb_false_r. }
  rewrite E, testbit31 by exact W. unfold word in W. rewrite Z.shiftl_mul_pow2 by lia. change (2 ^ 1) with 2.
  change (2 ^ 32) with 4294967296 in *. change (2 ^ 31) with 2147483648 in *.
  destruct (Z.leb_spec 2147483648 c); cbn [negb].
  - change 0x104c11db7 with (Z.lxor 4294967296 CRC_POLY). rewrite <- Z.lxor_assoc. f_equal.
    replace ((2 * c) mod 4294967296) with (2 * c - 4294967296) by lia.
    replace (c * 2) with ((2 * c - 4294967296) + 1 * 4294967296) by lia.
    change 4294967296 with (2 ^ 32) at 2. change (1 * 4294967296) with (1 * 2 ^ 32).
    assert (R : 0 <= 2 * c - 4294967296 < 2 ^ 32) by (change (2 ^ 32) with 4294967296; lia).
    set (x := 2 * c - 4294967296) in *.
    change 4294967296 with (2 ^ 32).
    assert (V : x + 1 * 2 ^ 32 = Z.lxor x (2 ^ 32)).
    { rewrite <- Z.add_nocarry_lxor; [lia|]. apply Z.bits_inj'. intros n Hn. rewrite Z.land_spec, Z.bits_0.
      destruct (Z.eq_dec n 32) as [->|N].
      - rewrite (testbit_small x 32 32) by lia. reflexivity.
      - rewrite Z.pow2_bits_false by lia. apply andb_false_r. }
    rewrite V, Z.lxor_assoc, Z.lxor_nilpotent, Z.lxor_0_r. reflexivity.
  - rewrite Z.lxor_0_r. rewrite Z.mod_small by lia. lia.
Qed.

Lemma py_times_feed : forall n c, word c -> py_times n c = feed c (zeros n).
Proof.
  induction n as [|n IH]; intros c W; [reflexivity|]. cbn [py_times]. rewrite py_bit_step by exact W.
  rewrite IH by apply step_word. reflexivity.
Qed.

Lemma byte_bits_val : forall b, is_byte b -> bits_val (byte_bits b) = b.
Proof.
  intros b H. unfold is_byte in H.
  assert (C : forallb (fun n => bits_val (byte_bits (Z.of_nat n)) =? Z.of_nat n) (seq 0 256) = true)
    by (vm_compute; reflexivity).
  rewrite forallb_forall in C. specialize (C (Z.to_nat b)). rewrite Z2Nat.id in C by lia.
  apply Z.eqb_eq. apply C. apply in_seq. lia.
Qed.

Lemma py_byte : forall c b, word c -> is_byte b ->
  py_times 8 (Z.lxor c (Z.shiftl b 24)) = feed c (byte_bits b).
Proof.
  intros c b W B. rewrite Z.shiftl_mul_pow2 by lia.
  assert (WB : word (b * 2 ^ 24)) by (unfold word, is_byte in *; change (2 ^ 24) with 16777216; change (2 ^ 32) with 4294967296; lia).
  rewrite py_times_feed by (apply lxor_word; auto).
  rewrite feed_zeros_lxor. rewrite (feed_split c (byte_bits b)). f_equal.
  rewrite (feed_preset (byte_bits b)) by (cbn; lia). rewrite byte_bits_val by exact B. reflexivity.
Qed.

Lemma crc_fold : forall l c, Forall is_byte l -> word c ->
  fold_left (fun crc val => py_times 8 (Z.lxor crc (Z.shiftl val 24))) l c = feed c (flat_map byte_bits l).
Proof.
  induction l as [|b l IH]; intros c F W; [reflexivity|]. inversion F; subst.
  cbn [fold_left flat_map]. rewrite py_byte, feed_app by assumption. apply IH; [assumption|now apply feed_word].
Qed.

Lemma crc_agrees : forall l, Forall is_byte l -> crc32mpeg2 l = HAL_CRC_Calculate l.
Proof.
  intros l F. unfold crc32mpeg2. rewrite crc_fold; [reflexivity|exact F|]. unfold word. lia.
Qed.

(** ** Encoder *)
Lemma land_ff : forall z, Z.land z 0xFF = z mod 256.
Proof. intros. change 0xFF with (Z.ones 8). now rewrite Z.land_ones by lia. Qed.
Lemma ff_byte : forall k z, 0 <= k -> Z.land (Z.shiftr z (8 * k)) 0xFF = byte k z.
Proof. intros. unfold byte. now rewrite land_ff, Z.shiftr_div_pow2 by lia. Qed.

Lemma py_bytes_ok : forall l, Forall is_byte l -> py_bytes l = Some l.
Proof.
  intros l F. unfold py_bytes. replace (forallb _ l) with true; [reflexivity|]. symmetry.
  apply forallb_forall. intros x Hx. rewrite Forall_forall in F. specialize (F x Hx). unfold is_byte in F. lia.
Qed.

Lemma encode_message_encode : forall a f p, Forall is_byte p -> encode_message a f p = Some (encode a f p).
Proof.
  intros a f p F. unfold encode_message, encode. cbv zeta.
  pose proof (ff_byte 1 a) as A1. pose proof (ff_byte 1 f) as F1. change (8 * 1) with 8 in *.
  rewrite A1, F1 by lia.
  assert (A0 : forall z, Z.land z 0xFF = byte 0 z) by (intros z; unfold byte; rewrite land_ff; now rewrite Z.div_1_r).
  rewrite (A0 a), (A0 f). unfold CHAR_COLON, CHAR_CR, CHAR_LF.
  assert (HF : Forall is_byte (([58; byte 1 a; byte 0 a; byte 1 f; byte 0 f] ++ p))).
  { apply Forall_app. split; [|exact F]. repeat constructor; try apply byte_is_byte; try (unfold is_byte; lia). }
  rewrite crc_agrees.
  2:{ rewrite app_assoc. apply Forall_app. split; [exact HF|]. repeat constructor; unfold is_byte; lia. }
  change ([58; byte 1 a; byte 0 a; byte 1 f; byte 0 f] ++ p ++ [0; 0; 0; 0; 13; 10])
    with ((58 :: byte 1 a :: byte 0 a :: byte 1 f :: byte 0 f :: p) ++ [0; 0; 0; 0; 13; 10]).
  set (c := HAL_CRC_Calculate _).
  pose proof (ff_byte 3 c) as C3. pose proof (ff_byte 2 c) as C2. pose proof (ff_byte 1 c) as C1.
  pose proof (ff_byte 0 c) as C0. change (8 * 3) with 24 in *. change (8 * 2) with 16 in *.
  change (8 * 1) with 8 in *. change (8 * 0) with 0 in *. rewrite C3, C2, C1, C0 by lia.
  rewrite py_bytes_ok; [reflexivity|].
  rewrite app_assoc. apply Forall_app. split; [exact HF|].
  repeat constructor; try apply byte_is_byte; unfold is_byte; lia.
Qed.

(** ** One message *)
Lemma or_bytes : forall a b c d, is_byte a -> is_byte b -> is_byte c -> is_byte d ->
  py_or_bytes [a; b; c; d] = be32 a b c d.
Proof.
  intros a b c d A B C D. unfold py_or_bytes. cbn [fold_left fst]. unfold is_byte in *.
  change (24 - 8) with 16. change (16 - 8) with 8. change (8 - 8) with 0.
  rewrite Z.lor_0_l, !Z.shiftl_mul_pow2 by lia.
  change (2 ^ 24) with 16777216. change (2 ^ 16) with 65536. change (2 ^ 8) with 256. change (2 ^ 0) with 1.
  rewrite Z.lor_comm, (Z.lor_comm (_ * 16777216)), (Z.lor_comm _ (c * 256)).
  unfold be32, le32.
  assert (L1 : Z.lor (b * 65536) (a * 16777216) = b * 65536 + a * 16777216).
  { replace (b * 65536 + a * 16777216) with (b * 2 ^ 16 + a * 2 ^ 24) by lia.
    change 65536 with (2 ^ 16). change 16777216 with (2 ^ 24). apply lor_disjoint; lia. }
  rewrite L1.
  replace (b * 65536 + a * 16777216) with ((b + 256 * a) * 2 ^ 16) by lia.
  assert (L2 : Z.lor (c * 256) ((b + 256 * a) * 2 ^ 16) = c * 256 + (b + 256 * a) * 2 ^ 16)
    by (apply lor_disjoint; lia).
  rewrite L2. replace (c * 256 + (b + 256 * a) * 2 ^ 16) with ((c + 256 * (b + 256 * a)) * 2 ^ 8) by lia.
  replace (d * 1) with d by lia. rewrite lor_disjoint by lia. lia.
Qed.

Lemma or16 : forall a b, is_byte b -> Z.lor (Z.shiftl a 8) b = be16 a b.
Proof.
  intros a b B. unfold is_byte in B. rewrite Z.shiftl_mul_pow2, Z.lor_comm by lia.
  rewrite lor_disjoint by lia. unfold be16. lia.
Qed.

Lemma nth_firstn_lt : forall (l : list Z) n i d, (i < n)%nat -> nth i (firstn n l) d = nth i l d.
Proof.
  induction l as [|x l IH]; intros [|n] i d H; try lia; [now rewrite firstn_nil|]. 
  destruct i as [|i]; [reflexivity|]. cbn. apply IH. lia.
Qed.
Lemma nth_skipn_add : forall (l : list Z) n i d, nth i (skipn n l) d = nth (n + i) l d.
Proof.
  induction l as [|x l IH]; intros [|n] i d; cbn; try reflexivity; [now destruct i|apply IH].
Qed.

Lemma four : forall (l : list Z) o, (o + 4 <= length l)%nat ->
  firstn 4 (skipn o l) = [nth o l 0; nth (o + 1) l 0; nth (o + 2) l 0; nth (o + 3) l 0].
Proof.
  intros l o H. pose proof (nth_skipn_add l o) as N. 
  assert (LS : length (skipn o l) = (length l - o)%nat) by apply skipn_length.
  destruct (skipn o l) as [|a [|b [|c [|d r]]]] eqn:E; cbn [length] in LS; try lia.
  pose proof (N 0%nat 0) as N0. pose proof (N 1%nat 0) as N1. pose proof (N 2%nat 0) as N2. pose proof (N 3%nat 0) as N3.
  cbn [nth] in *. rewrite Nat.add_0_r in N0. now rewrite <- N0, <- N1, <- N2, <- N3.
Qed.

Lemma try_decode_spec : forall L w, (11 <= L)%nat -> length w = L -> Forall is_byte w ->
  try_decode w L = if delimited w then Some (message_of w) else None.
Proof.
  intros L w HL W F. unfold try_decode. rewrite W, Nat.eqb_refl. cbn [negb]. cbv zeta.
  unfold delimited, CHAR_COLON, CHAR_CR, CHAR_LF. rewrite W.
  destruct (_ && _ && _) eqn:D; cbn [negb]; [|reflexivity]. f_equal.
  assert (FB : forall i, is_byte (nth i w 0)) by (intros; now apply nth_byte).
  assert (CV : firstn (L - 6) w ++ [0; 0; 0; 0] ++ skipn (L - 2) w = covered w).
  { unfold covered. rewrite W. do 3 f_equal. lia. }
  rewrite CV. rewrite (four w (L - 6)) by lia. rewrite or_bytes by apply FB.
  assert (FC : Forall is_byte (covered w)).
  { rewrite <- CV. apply Forall_app. split; [now apply Forall_firstn|]. apply Forall_app. split.
    - repeat constructor; unfold is_byte; lia.
    - now apply Forall_skipn. }
  rewrite crc_agrees by exact FC.
  assert (N : forall i, (i < L - 6)%nat -> nth i (covered w) 0 = nth i w 0).
  { intros i Hi. unfold covered. rewrite W, app_nth1 by (rewrite firstn_length; lia). apply nth_firstn_lt. exact Hi. }
  rewrite !N by lia. rewrite !or16 by apply FB.
  unfold message_of, crc_good, crc_field, frame_payload, frame_addr, frame_func. rewrite W.
  f_equal; [|apply Z.eqb_sym].
  replace (L - 6 - 5)%nat with (L - 11)%nat by lia.
  unfold covered. rewrite W. rewrite skipn_app, firstn_app.
  rewrite skipn_firstn_comm. rewrite firstn_length, skipn_length.
  replace (firstn (L - 11 - _) _) with (@nil Z).
  - rewrite app_nil_r, firstn_firstn. f_equal. lia.
  - replace (L - 11 - _)%nat with 0%nat by lia. reflexivity.
Qed.

Lemma try_decode_length : forall w L, length w <> L -> try_decode w L = None.
Proof.
  intros w L H. unfold try_decode. replace (Nat.eqb (length w) L) with false by lia. reflexivity.
Qed.

(** ** Stretches *)
Lemma stretches_skip : forall L s t, stretches L (length s) (s ++ t) = stretches L 0 t.
Proof. induction s as [|x s IH]; intros t; [reflexivity|]. cbn. apply IH. Qed.

Lemma stretches_hit : forall L w t, (1 <= L)%nat -> is_frame L w = true ->
  stretches L 0 (w ++ t) = w :: stretches L 0 t.
Proof.
  intros L w t HL V. unfold is_frame in V. apply andb_prop in V. destruct V as [V1 V2].
  assert (W : length w = L) by lia. destruct w as [|x w]; [cbn in W; lia|].
  cbn [app stretches]. change (x :: w ++ t) with ((x :: w) ++ t).
  assert (E : firstn L ((x :: w) ++ t) = x :: w) by (rewrite <- W, firstn_app, Nat.sub_diag, firstn_all, firstn_O; apply app_nil_r).
  rewrite E, W, Nat.eqb_refl, V2. cbn [andb]. f_equal.
  cbn [length] in W. replace (L - 1)%nat with (length w) by lia. apply stretches_skip.
Qed.

Lemma stretches_miss : forall L x t, is_frame L (firstn L (x :: t)) = false ->
  stretches L 0 (x :: t) = stretches L 0 t.
Proof. intros L x t H. unfold is_frame in H. cbn [stretches]. now rewrite H. Qed.

Lemma stretches_short : forall L s, (length s < L)%nat -> stretches L 0 s = [].
Proof.
  intros L. induction s as [|x s IH]; intros H; [reflexivity|]. cbn [length] in H.
  rewrite stretches_miss; [apply IH; lia|]. unfold is_frame. 
  replace (Nat.eqb _ L) with false; [reflexivity|]. rewrite firstn_length. cbn [length]. lia.
Qed.

Lemma firstn_skipn_app : forall (A : Type) n (l t : list A), (n <= length l)%nat -> firstn n (l ++ t) = firstn n l.
Proof. intros A n l t H. rewrite firstn_app. replace (n - length l)%nat with 0%nat by lia. apply app_nil_r. Qed.

Lemma decode_fixed_spec : forall L fuel buf, (11 <= L)%nat -> (length buf <= fuel)%nat -> Forall is_byte buf ->
  exists rest, decode_fixed fuel L buf = (rest, map message_of (stretches L 0 buf)) /\
    (length rest < L)%nat /\ Forall is_byte rest /\
    forall t, stretches L 0 (buf ++ t) = stretches L 0 buf ++ stretches L 0 (rest ++ t).
Proof.
  intros L fuel. induction fuel as [|k IH]; intros buf HL LB F.
  - destruct buf; [|cbn in LB; lia]. exists []. cbn. repeat split; auto; lia.
  - cbn [decode_fixed]. destruct (Nat.ltb_spec (length buf) L) as [S1|S1].
    + exists buf. rewrite stretches_short by exact S1. repeat split; auto.
    + assert (W : length (firstn L buf) = L) by (rewrite firstn_length; lia).
      rewrite try_decode_spec by (auto using Forall_firstn).
      destruct (delimited (firstn L buf)) eqn:D.
      * destruct (IH (skipn L buf)) as (rest & E & R1 & R2 & R3); [exact HL|rewrite skipn_length; lia|now apply Forall_skipn|].
        assert (FR : is_frame L (firstn L buf) = true) by (unfold is_frame; rewrite W, Nat.eqb_refl, D; reflexivity).
        assert (SB : forall t, stretches L 0 (buf ++ t) = firstn L buf :: stretches L 0 (skipn L buf ++ t)).
        { intros t. rewrite <- (firstn_skipn L buf) at 1. rewrite <- app_assoc. apply stretches_hit; [lia|exact FR]. }
        exists rest. rewrite E. pose proof (SB []) as S0. rewrite !app_nil_r in S0. rewrite S0. 
        repeat split; auto. intros t. rewrite SB, R3. reflexivity.
      * destruct buf as [|x buf]; [cbn in S1; lia|]. cbn [skipn]. inversion F; subst.
        destruct (IH buf) as (rest & E & R1 & R2 & R3); [exact HL|cbn in LB; lia|assumption|].
        assert (SB : forall t, stretches L 0 ((x :: buf) ++ t) = stretches L 0 (buf ++ t)).
        { intros t. cbn [app]. apply stretches_miss. unfold is_frame.
          change (x :: buf ++ t) with ((x :: buf) ++ t). rewrite firstn_skipn_app by exact S1.
          rewrite D. apply andb_false_r. }
        exists rest. rewrite E. pose proof (SB []) as S0. rewrite !app_nil_r in S0. rewrite S0.
        repeat split; auto. intros t. rewrite SB, R3. reflexivity.
Qed.

Lemma pop_stretches : forall L buf t, (1 <= L)%nat ->
  stretches L 0 (pop_to_colon buf ++ t) = stretches L 0 (buf ++ t).
Proof.
  intros L. induction buf as [|c buf IH]; intros t H; [reflexivity|]. cbn [pop_to_colon].
  destruct (Z.eqb_spec c CHAR_COLON) as [E|N]; [reflexivity|]. rewrite IH by exact H.
  cbn [app]. symmetry. apply stretches_miss. unfold is_frame, delimited. destruct L as [|L]; [lia|].
  cbn [firstn]. cbn [nth]. unfold CHAR_COLON in N. replace (c =? 58) with false by lia. 
  cbn [andb]. apply andb_false_r.
Qed.

Lemma pop_bytes : forall buf, Forall is_byte buf -> Forall is_byte (pop_to_colon buf).
Proof.
  induction buf as [|c buf IH]; intros F; [constructor|]. cbn [pop_to_colon]. inversion F; subst.
  destruct (c =? CHAR_COLON); auto.
Qed.

Lemma from_bytes_shift : forall b i, Forall is_byte b -> 
  (from_bytes_little b / 2 ^ (8 * Z.of_nat i)) mod 256 = nth i b 0.
Proof.
  induction b as [|x b IH]; intros i F; [cbn [from_bytes_little]; rewrite Z.div_0_l by (apply Z.pow_nonzero; lia); now destruct i|].
  inversion F as [|? ? X FB]; subst. unfold is_byte in X. cbn [from_bytes_little]. destruct i as [|i].
  - cbn [nth]. change (8 * Z.of_nat 0) with 0. change (2 ^ 0) with 1. rewrite Z.div_1_r.
    clear -X. lia.
  - cbn [nth]. rewrite <- (IH i FB). rewrite Nat2Z.inj_succ.
    replace (8 * Z.succ (Z.of_nat i)) with (8 + 8 * Z.of_nat i) by lia.
    rewrite Z.pow_add_r by lia. rewrite <- Z.div_div by (try apply Z.pow_nonzero; try apply Z.pow_pos_nonneg; lia).
    change (2 ^ 8) with 256. do 2 f_equal. clear -X. lia.
Qed.

Lemma unpacked_id : forall b, Forall is_byte b -> unpacked b = b.
Proof.
  intros b F. unfold unpacked. cbv zeta.
  apply nth_ext with (d := Z.land (Z.shiftr (from_bytes_little b) (Z.of_nat 0 * 8)) 0xFF) (d' := 0);
    [now rewrite map_length, seq_length|].
  intros n Hn. rewrite map_length, seq_length in Hn.
  rewrite (map_nth (fun i => Z.land (Z.shiftr (from_bytes_little b) (Z.of_nat i * 8)) 0xFF)).
  rewrite seq_nth by exact Hn. rewrite land_ff, Z.shiftr_div_pow2 by lia.
  rewrite Z.mul_comm. cbn [plus]. now apply from_bytes_shift.
Qed.

Lemma recv_all_spec : forall L chunks buf, (11 <= L)%nat -> (length buf < L)%nat ->
  Forall is_byte buf -> Forall (Forall is_byte) chunks ->
  snd (recv_all L buf chunks) = map message_of (stretches L 0 (buf ++ concat chunks)).
Proof.
  intros L. induction chunks as [|c chunks IH]; intros buf HL LB FB FC.
  - cbn. rewrite app_nil_r, stretches_short by exact LB. reflexivity.
  - inversion FC as [|? ? C1 C2]; subst. cbn [recv_all concat]. unfold recv_bytes. rewrite unpacked_id by exact C1.
    set (b' := pop_to_colon (buf ++ c)).
    assert (FB' : Forall is_byte b') by (apply pop_bytes, Forall_app; auto).
    destruct (decode_fixed_spec L (length b') b' HL (le_n _) FB') as (rest & E & R1 & R2 & R3).
    rewrite E. specialize (IH rest HL R1 R2 C2). destruct (recv_all L rest chunks) as [b2 ms2]. cbn [snd] in *.
    subst ms2. rewrite app_assoc. rewrite <- (pop_stretches L (buf ++ c)) by lia. fold b'.
    rewrite R3, map_app. reflexivity.
Qed.

(** ** Pieces on the line *)
Lemma delimited_end : forall L w, (2 <= L)%nat -> is_frame L w = true ->
  exists pre, w = pre ++ [13; 10].
Proof.
  intros L w HL V. unfold is_frame, delimited in V. apply andb_prop in V. destruct V as [V1 V2].
  apply andb_prop in V2. destruct V2 as [V2 V3]. apply andb_prop in V2. destruct V2 as [_ V2].
  assert (W : length w = L) by lia. exists (firstn (L - 2) w).
  rewrite <- (firstn_skipn (L - 2) w) at 1. f_equal.
  pose proof (nth_skipn_add w (L - 2)) as N.
  assert (LS : length (skipn (L - 2) w) = 2%nat) by (rewrite skipn_length; lia).
  destruct (skipn (L - 2) w) as [|a [|b [|c r]]] eqn:E; cbn [length] in LS; try lia.
  pose proof (N 0%nat 0) as N0. pose proof (N 1%nat 0) as N1. cbn [nth] in N0, N1.
  replace (L - 2 + 0)%nat with (length w - 2)%nat in N0 by lia.
  replace (L - 2 + 1)%nat with (length w - 1)%nat in N1 by lia.
  apply Z.eqb_eq in V2, V3. now rewrite N0, N1, V2, V3.
Qed.

Lemma frames_short : forall L l, Forall (fun p => (length p < L)%nat) l ->
  filter (is_frame L) l = [] /\ Forall (fun p => is_frame L p = false) l.
Proof.
  intros L l F. induction F as [|p l P F IH]; [split; [reflexivity|constructor]|].
  assert (N : is_frame L p = false) by (unfold is_frame; replace (Nat.eqb _ L) with false by lia; reflexivity).
  destruct IH as [I1 I2]. cbn [filter]. rewrite N. split; [exact I1|now constructor].
Qed.

Lemma concat_lengths : forall (l : list (list Z)) n, (length (concat l) <= n)%nat ->
  Forall (fun p => (length p <= n)%nat) l.
Proof.
  induction l as [|p l IH]; intros n H; [constructor|]. cbn [concat] in H. rewrite app_length in H.
  constructor; [lia|]. apply IH. lia.
Qed.

Lemma ends_tail : forall b a rest, crlf_only_at_ends ((b ++ a) :: rest) -> crlf_only_at_ends (a :: rest).
Proof.
  intros b a rest H pre post E. destruct (H (b ++ pre) post) as (ps & qs & P & C).
  - cbn [concat] in *. rewrite <- !app_assoc, E. reflexivity.
  - destruct ps as [|p ps].
    + exfalso. cbn in C. apply (f_equal (@length Z)) in C. rewrite !app_length in C. cbn in C. lia.
    + cbn [app] in P. apply (f_equal (fun l => match l with x :: t => (x, t) | [] => ([], []) end)) in P.
      apply pair_equal_spec in P. destruct P as [<- ->].
      exists (a :: ps), qs. split; [reflexivity|]. cbn [concat] in *. rewrite <- !app_assoc in C.
      now apply app_inv_head in C.
Qed.

Lemma ends_drop : forall ps rest, crlf_only_at_ends (ps ++ rest) -> ps <> [] -> crlf_only_at_ends ([] :: rest).
Proof.
  intros ps rest H N pre post E. cbn [concat app] in E.
  destruct (H (concat ps ++ pre) post) as (xs & ys & P & C).
  { now rewrite concat_app, E, <- app_assoc. }
  rewrite <- app_assoc in C.
  assert (exists zs, xs = ps ++ zs /\ concat zs = pre ++ [13; 10]) as (zs & X & Y).
  { clear -P C. revert xs ys P C. induction ps as [|p ps IH]; intros xs ys P C.
    - exists xs. split; [reflexivity|]. exact C.
    - destruct xs as [|x xs].
      + exfalso. cbn in C. apply (f_equal (@length Z)) in C. rewrite !app_length in C. cbn in C. lia.
      + cbn [app] in P. apply (f_equal (fun l => match l with x :: t => (x, t) | [] => ([], []) end)) in P.
        apply pair_equal_spec in P. destruct P as [<- P]. cbn [concat] in C. rewrite <- app_assoc in C.
        apply app_inv_head in C. destruct (IH xs ys P C) as (zs & -> & Z1). exists zs. split; [reflexivity|exact Z1]. }
  subst xs. rewrite <- app_assoc in P. apply app_inv_head in P. subst rest.
  exists ([] :: zs), ys. split; [reflexivity|]. exact Y.
Qed.

Lemma ends_nil : forall rest, crlf_only_at_ends ([] :: rest) -> crlf_only_at_ends rest.
Proof.
  intros rest H pre post E. destruct (H pre post E) as (xs & ys & P & C). destruct xs as [|x xs].
  - exfalso. cbn in C. apply (f_equal (@length Z)) in C. rewrite !app_length in C. cbn in C. lia.
  - cbn [app] in P. apply (f_equal (fun l => match l with x :: t => (x, t) | [] => ([], []) end)) in P.
    apply pair_equal_spec in P. destruct P as [<- ->]. exists xs, ys. split; [reflexivity|exact C].
Qed.

Lemma pieces_picked : forall L all n, (2 <= L)%nat ->
  (forall pre rest, all = pre ++ rest -> (2 * (length (concat rest) + length rest) <= n)%nat ->
     crlf_only_at_ends rest ->
     picked (spurious L all) (filter (is_frame L) rest) (stretches L 0 (concat rest))) /\
  (forall pre b a rest, all = pre ++ (b ++ a) :: rest -> 
     (2 * (length a + length (concat rest) + length rest) + 1 <= n)%nat ->
     is_frame L (b ++ a) = false -> crlf_only_at_ends (a :: rest) ->
     picked (spurious L all) (filter (is_frame L) rest) (stretches L 0 (a ++ concat rest))).
Proof.
  intros L all n HL. induction n as [n IH] using lt_wf_ind. split.
  - intros pre rest EA M C. destruct rest as [|q rest]; [constructor|].
    cbn [concat filter]. cbn [concat length] in M. rewrite app_length in M.
    destruct (is_frame L q) eqn:FQ.
    + rewrite stretches_hit by (auto; lia). apply picked_hit.
      assert (LQ : length q = L) by (unfold is_frame in FQ; lia).
      apply (proj1 (IH (n - 1)%nat ltac:(lia))) with (pre := pre ++ [q]).
      * rewrite EA, <- app_assoc. reflexivity.
      * lia.
      * apply ends_nil. apply (ends_drop [q] rest); [exact C|discriminate].
    + apply (proj2 (IH (n - 1)%nat ltac:(lia))) with (pre := pre) (b := []); [exact EA|lia|exact FQ|exact C].
  - intros pre b a rest EA M FB C. destruct a as [|x a].
    + cbn [app]. cbn [length] in M. apply (proj1 (IH (n - 1)%nat ltac:(lia))) with (pre := pre ++ [b ++ []]).
      * rewrite EA, <- app_assoc. reflexivity.
      * lia.
      * now apply ends_nil.
    + cbn [length] in M. destruct (is_frame L (firstn L ((x :: a) ++ concat rest))) eqn:FW.
      * set (s := (x :: a) ++ concat rest) in *. set (w := firstn L s) in *.
        assert (LW : length w = L) by (unfold is_frame in FW; lia).
        destruct (delimited_end L w HL FW) as (pw & EW).
        destruct (C pw (skipn L s)) as (ps & qs & P & Q).
        { cbn [concat]. fold s. rewrite app_assoc, <- EW. unfold w. symmetry. apply firstn_skipn. }
        rewrite <- EW in Q. destruct ps as [|p ps].
        { exfalso. cbn in Q. rewrite <- Q in LW. cbn in LW. lia. }
        cbn [app] in P. apply (f_equal (fun l => match l with x :: t => (x, t) | [] => ([], []) end)) in P.
        apply pair_equal_spec in P. destruct P as [<- ->]. cbn [concat] in Q.
        assert (S1 : s = w ++ concat qs).
        { unfold s. rewrite <- Q, concat_app. cbn [app]. now rewrite <- app_assoc. }
        assert (SH : Forall (fun p => (length p < L)%nat) ps).
        { assert (LC : (length (concat ps) <= L - 1)%nat).
          { apply (f_equal (@length Z)) in Q. rewrite app_length in Q. cbn [length] in Q. lia. }
          apply concat_lengths in LC. eapply Forall_impl; [|exact LC]. cbn. intros. lia. }
        destruct (frames_short L ps SH) as [F1 F2].
        rewrite S1, stretches_hit by (auto; lia). rewrite filter_app, F1. cbn [app].
        apply picked_junk.
        -- split; [exact LW|]. exists pre, ((b ++ x :: a) :: ps), qs, b, []. split; [exact EA|]. split.
           ++ cbn [concat]. rewrite app_nil_r, <- Q, <- app_assoc. reflexivity.
           ++ constructor; [exact FB|exact F2].
        -- rewrite concat_app, app_length in M. rewrite app_length in M.
           apply (proj1 (IH (n - 1)%nat ltac:(lia))) with (pre := pre ++ (b ++ x :: a) :: ps).
           ++ rewrite EA, <- app_assoc. reflexivity.
           ++ lia.
           ++ apply ends_nil. apply (ends_drop ((x :: a) :: ps) qs); [exact C|discriminate].
      * cbn [app] in *. rewrite stretches_miss by exact FW.
        apply (proj2 (IH (n - 1)%nat ltac:(lia))) with (pre := pre) (b := b ++ [x]).
        -- rewrite EA, <- app_assoc. reflexivity.
        -- lia.
        -- rewrite <- app_assoc. exact FB.
        -- apply (ends_tail [x] a rest). exact C.
Qed.

Lemma tidy_ends : forall pieces, Forall tidy pieces -> crlf_only_at_ends pieces.
Proof.
  intros pieces F. induction F as [|p pieces P F IH]; intros pre post E.
  - exfalso. cbn in E. destruct pre; discriminate.
  - cbn [concat] in E. destruct P as [P1 P2].
    destruct (Nat.le_gt_cases (length pre + 2) (length p)) as [IN|OUT].
    + (* inside p *)
      assert (EP : p = pre ++ [13; 10] ++ firstn (length p - (length pre + 2)) post).
      { apply (f_equal (firstn (length p))) in E. rewrite firstn_skipn_app, firstn_all in E by lia.
        rewrite E at 1. rewrite app_assoc, firstn_app. rewrite app_length. cbn [length].
        rewrite firstn_all2 by (rewrite app_length; cbn; lia). now rewrite <- app_assoc. }
      pose proof (P1 _ _ EP) as N. rewrite N in EP. 
      exists [p], pieces. split; [reflexivity|]. cbn [concat]. rewrite app_nil_r. exact EP.
    + destruct (Nat.le_gt_cases (length p) (length pre)) as [AFTER|ACROSS].
      * assert (EP : pre = p ++ skipn (length p) pre).
        { rewrite <- (firstn_skipn (length p) pre) at 1. f_equal.
          apply (f_equal (firstn (length p))) in E. rewrite !firstn_skipn_app, firstn_all in E by lia. now symmetry. }
        rewrite EP in E. rewrite <- app_assoc in E. apply app_inv_head in E.
        destruct (IH _ _ E) as (ps & qs & -> & Q). exists (p :: ps), qs. split; [reflexivity|].
        cbn [concat]. rewrite Q, app_assoc, <- EP. reflexivity.
      * (* CR is the last byte of p, LF the first of the rest *)
        exfalso. assert (EP : p = pre ++ [13]).
        { apply (f_equal (firstn (length p))) in E. rewrite firstn_skipn_app, firstn_all in E by lia.
          rewrite E. replace (length p) with (length pre + 1)%nat by lia. 
          rewrite firstn_app_2. reflexivity. }
        rewrite EP in E. rewrite <- app_assoc in E. apply app_inv_head in E. cbn [app] in E.
        injection E as E. 
        clear -F E. induction F as [|q l [Q1 Q2] F IH]; [discriminate|]. destruct q as [|c q]; [now apply IH|].
        cbn [concat app] in E. injection E as -> _. now apply (Q2 q).
Qed.

Lemma picked_filter : forall (A : Type) (junk : A -> Prop) (f : A -> bool) fs ws, picked junk fs ws ->
  (forall x, junk x -> f x = false) -> filter f ws = filter f fs.
Proof.
  intros A junk f fs ws P H. induction P as [|x fs ws P IH|x fs ws J P IH]; [reflexivity| |]; cbn [filter].
  - now rewrite IH.
  - now rewrite (H x J).
Qed.

(** ** The terminal *)
Lemma view_log_ws : forall ws,
  handle_each (handle_data ADDR_PC 2 handle_log_data) (map message_of ws)
    = Some (map log_shown (filter (addressed 2) ws)).
Proof.
  induction ws as [|w ws IH]; [reflexivity|]. cbn [map handle_each filter].
  unfold handle_data at 1, addressed at 1, ADDR_PC at 1. cbn [message_of m_addr m_type].
  destruct (frame_addr w =? 2) eqn:A; cbn [negb andb]; [|now rewrite IH].
  destruct (frame_func w =? 2) eqn:B; cbn [negb]; [|now rewrite IH].
  unfold handle_log_data at 1. rewrite IH. reflexivity.
Qed.

Lemma state_value_spec : forall p n i v, Forall is_byte p -> length p = 7%nat ->
  (i + n <= 7)%nat -> 0 <= v < 2 ^ (8 * Z.of_nat i) ->
  state_value n (Z.of_nat i) p v = Some (v + low_bytes n i p).
Proof.
  intros p n. induction n as [|n IH]; intros i v F LP HI V; cbn [state_value low_bytes].
  - f_equal. lia.
  - assert (G : py_get p (6 - Z.of_nat i) = Some (nth (6 - i) p 0)).
    { unfold py_get, get. replace (6 - Z.of_nat i <? 0) with false by lia.
      replace (Z.to_nat (6 - Z.of_nat i)) with (6 - i)%nat by lia. apply nth_error_nth'. lia. }
    rewrite G. replace (Z.of_nat i + 1) with (Z.of_nat (S i)) by lia.
    assert (B : is_byte (nth (6 - i) p 0)) by now apply nth_byte. unfold is_byte in B.
    set (x := nth (6 - i) p 0) in *.
    rewrite Z.shiftl_mul_pow2, (Z.mul_comm (Z.of_nat i)), lor_disjoint by lia.
    assert (E : 2 ^ (8 * Z.of_nat (S i)) = 256 * 2 ^ (8 * Z.of_nat i)).
    { replace (8 * Z.of_nat (S i)) with (8 + 8 * Z.of_nat i) by lia. rewrite Z.pow_add_r by lia. reflexivity. }
    rewrite IH; [f_equal; lia|exact F|exact LP|lia|]. rewrite E.
    assert (0 <= x * 2 ^ (8 * Z.of_nat i)) by (apply Z.mul_nonneg_nonneg; lia).
    assert (x * 2 ^ (8 * Z.of_nat i) <= 255 * 2 ^ (8 * Z.of_nat i)) by (apply Z.mul_le_mono_nonneg_r; lia).
    lia.
Qed.

Lemma names_agree : forall id, 0 <= id ->
  FIELD_ID_NAMES id = if id =? 0 then None else nth_error field_names (Z.to_nat (id - 1)).
Proof.
  intros id H. destruct (Z_le_gt_dec id 11) as [L|G].
  - assert (C : id = 0 \/ id = 1 \/ id = 2 \/ id = 3 \/ id = 4 \/ id = 5 \/ id = 6 \/ id = 7 \/ id = 8 \/ id = 9 \/ id = 10 \/ id = 11) by lia.
    repeat destruct C as [->|C]; try reflexivity. rewrite C. reflexivity.
  - replace (id =? 0) with false by lia.
    replace (nth_error field_names _) with (@None (list Z)).
    + unfold FIELD_ID_NAMES. destruct id as [|p|p]; try lia. 
      do 4 (destruct p as [p|p|]; try reflexivity; try lia).
    + symmetry. apply nth_error_None. cbn [field_names length]. lia.
Qed.

(** A well-formed state frame: accepted, and its length byte within the value. *)
Lemma handle_state_frame : forall w, Forall is_byte w -> length w = 18%nat -> crc_good w = true ->
  nth 2 (frame_payload w) 0 <= 7 -> handle_state_data (message_of w) = Some [state_shown w].
Proof.
  intros w F LW G N. unfold handle_state_data. cbn [message_of m_payload m_crc_correct]. rewrite G.
  assert (LP : length (frame_payload w) = 7%nat).
  { unfold frame_payload. rewrite firstn_length, skipn_length, LW. reflexivity. }
  assert (FP : Forall is_byte (frame_payload w)) by (unfold frame_payload; now apply Forall_firstn, Forall_skipn).
  unfold state_shown, pc_field. set (p := frame_payload w) in *.
  assert (GB : forall i, 0 <= i < 7 -> py_get p i = Some (nth (Z.to_nat i) p 0)).
  { intros i Hi. unfold py_get, get. replace (i <? 0) with false by lia. apply nth_error_nth'. lia. }
  rewrite !GB by lia. change (Z.to_nat 0) with 0%nat. change (Z.to_nat 1) with 1%nat. change (Z.to_nat 2) with 2%nat.
  assert (B : forall i, is_byte (nth i p 0)) by (intros; now apply nth_byte).
  pose proof (B 2%nat) as B2. unfold is_byte in B2.
  pose proof (state_value_spec p (Z.to_nat (nth 2 p 0)) 0 0 FP LP) as SV. change (Z.of_nat 0) with 0 in SV.
  rewrite SV by (change (2 ^ (8 * 0)) with 1; lia).
  rewrite or16 by apply B. unfold be16. rewrite Z.add_0_l.
  replace (256 * nth 0 p 0 + nth 1 p 0) with (nth 0 p 0 * 256 + nth 1 p 0) by lia.
  pose proof (B 0%nat) as B0. pose proof (B 1%nat) as B1. unfold is_byte in B0, B1.
  rewrite names_agree by lia. 
  destruct (if _ =? 0 then None else _); reflexivity.
Qed.

Lemma view_state_ws : forall ws, Forall (Forall is_byte) ws -> Forall (fun w => length w = 18%nat) ws ->
  Forall (fun w => addressed 1 w && crc_good w = true -> nth 2 (frame_payload w) 0 <= 7) ws ->
  handle_each (handle_data ADDR_PC 1 handle_state_data) (map message_of ws)
    = Some (map state_shown (filter (fun w => addressed 1 w && crc_good w) ws)).
Proof.
  induction ws as [|w ws IH]; intros F LW N; [reflexivity|]. cbn [map handle_each filter].
  inversion F; inversion LW; inversion N; subst. specialize (IH ltac:(assumption) ltac:(assumption) ltac:(assumption)).
  assert (E : handle_data ADDR_PC 1 handle_state_data (message_of w)
    = Some (if addressed 1 w && crc_good w then [state_shown w] else [])).
  { unfold handle_data, ADDR_PC. cbn [message_of m_addr m_type]. fold (message_of w).
    destruct (addressed 1 w) eqn:A; unfold addressed in A.
    - apply andb_prop in A. destruct A as [A1 A2]. rewrite A1, A2. cbn [negb andb].
      destruct (crc_good w) eqn:G.
      + apply handle_state_frame; auto.
      + unfold handle_state_data. cbn [message_of m_crc_correct]. rewrite G. reflexivity.
    - cbn [andb]. destruct (frame_addr w =? 2); cbn [negb andb] in *; [rewrite A|]; reflexivity. }
  rewrite E, IH. destruct (addressed 1 w && crc_good w); reflexivity.
Qed.

Lemma stretches_props : forall L s k, Forall (fun w => length w = L) (stretches L k s) /\
  (Forall is_byte s -> Forall (Forall is_byte) (stretches L k s)).
Proof.
  intros L. induction s as [|x s IH]; intros k; [split; constructor|]. cbn [stretches].
  destruct k as [|k].
  - destruct (Nat.eqb (length (firstn L (x :: s))) L && delimited (firstn L (x :: s))) eqn:E.
    + split.
      * constructor; [lia|apply IH].
      * intros F. constructor; [now apply Forall_firstn|]. apply IH. now inversion F.
    + split; [apply IH|]. intros F. apply IH. now inversion F.
  - split; [apply IH|]. intros F. apply IH. now inversion F.
Qed.

(** ** Variable length *)
Lemma try_decode_any : forall n w m, (10 <= n)%nat -> Forall is_byte w -> try_decode w n = Some m ->
  length w = n /\ delimited w = true /\ m_payload m = frame_payload w /\ m_addr m = frame_addr w /\
  m_crc_correct m = crc_good w /\ ((11 <= n)%nat -> m_type m = frame_func w).
Proof.
  intros n w m Hn F E. destruct (Nat.eq_dec (length w) n) as [W|W]; [|rewrite try_decode_length in E by exact W; discriminate].
  split; [exact W|]. destruct (Nat.le_gt_cases 11 n) as [G|G].
  - rewrite (try_decode_spec n w G W F) in E. destruct (delimited w); [|discriminate]. injection E as <-.
    repeat split; auto.
  - assert (n = 10)%nat by lia. subst n. 
    destruct w as [|b0 [|b1 [|b2 [|b3 [|b4 [|b5 [|b6 [|b7 [|b8 [|b9 [|]]]]]]]]]]]; cbn [length] in H; try lia.
    unfold try_decode in E. cbn [length Nat.eqb negb Nat.sub nth] in E.
    unfold CHAR_COLON, CHAR_CR, CHAR_LF in E. unfold delimited. cbn [length Nat.sub nth].
    destruct (_ && _ && _) eqn:D; cbn [negb] in E; [|discriminate].
    apply (f_equal (fun x => match x with Some y => y | None => m end)) in E. cbv beta iota in E. rewrite <- E.
    cbn [m_payload m_addr m_crc_correct m_type]. 
    repeat match goal with H : Forall _ (_ :: _) |- _ => inversion H; clear H; subst end.
    split; [reflexivity|]. split; [reflexivity|]. split.
    { unfold frame_addr. cbn [nth]. now apply or16. }
    split; [|lia]. unfold crc_good, crc_field, covered. cbn [length Nat.sub nth firstn skipn app Nat.add].
    rewrite or_bytes by assumption. rewrite crc_agrees; [apply Z.eqb_sym|].
    repeat match goal with |- Forall _ (_ :: _) => constructor end; try assumption; try (unfold is_byte; lia).
Qed.

Definition handed (ms : list py_msg) (s rest : list Z) : Prop :=
  exists ws, Forall2 describes ms ws /\ Forall (fun w => valid_frame (length w) w = true) ws /\
    exists used, s = used ++ rest /\ in_order ws used.

Lemma in_order_app : forall a s, in_order a s -> forall b t, in_order b t -> in_order (a ++ b) (s ++ t).
Proof.
  induction 1 as [s|gap w s ws P IH]; intros b t Q.
  - cbn. now apply in_order_gap.
  - cbn [app]. rewrite <- !app_assoc. constructor. now apply IH.
Qed.

Lemma handed_nil : forall s, handed [] s s.
Proof. intros s. exists []. split; [constructor|]. split; [constructor|]. exists []. split; [reflexivity|constructor]. Qed.

Lemma handed_app : forall a b s t u, handed a s t -> handed b t u -> handed (a ++ b) s u.
Proof.
  intros a b s t u (ws & D & V & x & E & O) (ws' & D' & V' & x' & E' & O').
  exists (ws ++ ws'). split; [now apply Forall2_app|]. split; [now apply Forall_app|].
  exists (x ++ x'). split; [now rewrite E, E', app_assoc|]. now apply in_order_app.
Qed.

Lemma skipn_twice : forall (A : Type) (l : list A) n o, skipn n (skipn o l) = skipn (o + n) l.
Proof.
  intros A l. induction l as [|x l IH]; intros n o; [now rewrite !skipn_nil|]. destruct o as [|o]; [reflexivity|].
  cbn [skipn Nat.add]. apply IH.
Qed.

Lemma handed_one : forall m n o buf, (10 <= n)%nat -> Forall is_byte buf ->
  try_decode (firstn n (skipn o buf)) n = Some m -> m_crc_correct m = true ->
  handed [m] buf (skipn (o + n) buf).
Proof.
  intros m n o buf Hn F E C. set (w := firstn n (skipn o buf)) in *.
  destruct (try_decode_any n w m Hn) as (W & D & P & A & G & T); [now apply Forall_firstn, Forall_skipn|exact E|].
  exists [w]. split.
  { constructor; [|constructor]. repeat split; auto. rewrite W. exact T. }
  split.
  { constructor; [|constructor]. unfold valid_frame. rewrite Nat.eqb_refl, D. cbn [andb].
    rewrite G in C. exact C. }
  exists (firstn o buf ++ w ++ []). split.
  - rewrite app_nil_r, <- app_assoc. unfold w. rewrite <- (firstn_skipn o buf) at 1. f_equal.
    rewrite <- (firstn_skipn n (skipn o buf)) at 1. f_equal. now rewrite skipn_twice.
  - constructor. constructor.
Qed.

Lemma variable_lens_spec : forall lens o buf, Forall (fun n => (10 <= n)%nat) lens -> Forall is_byte buf ->
  let r := variable_lens lens o buf in handed (snd r) buf (fst r) /\ Forall is_byte (fst r).
Proof.
  induction lens as [|n lens IH]; intros o buf FN F; cbn [variable_lens]; cbv zeta.
  - split; [apply handed_nil|exact F].
  - inversion FN as [|? ? N1 N2]; subst. destruct (try_decode _ n) as [m|] eqn:E; [|now apply IH].
    destruct (m_crc_correct m) eqn:C; [|now apply IH].
    assert (FS : Forall is_byte (skipn (o + n) buf)) by now apply Forall_skipn.
    specialize (IH o (skipn (o + n) buf) N2 FS). cbv zeta in IH.
    destruct (variable_lens lens o (skipn (o + n) buf)) as [b ms]. cbn [fst snd] in *.
    split; [|apply IH]. apply (handed_app [m] ms) with (t := skipn (o + n) buf); [now apply handed_one|apply IH].
Qed.

Lemma variable_offsets_spec : forall offs buf, Forall is_byte buf ->
  let r := variable_offsets offs buf in handed (snd r) buf (fst r) /\ Forall is_byte (fst r).
Proof.
  induction offs as [|o offs IH]; intros buf F; cbn [variable_offsets]; cbv zeta.
  - split; [apply handed_nil|exact F].
  - assert (FN : Forall (fun n => (10 <= n)%nat) (seq MIN_NUM_BYTES (length buf - MIN_NUM_BYTES))).
    { apply Forall_forall. intros x Hx. apply in_seq in Hx. unfold MIN_NUM_BYTES in Hx. lia. }
    pose proof (variable_lens_spec _ o buf FN F) as V. cbv zeta in V.
    destruct (variable_lens _ o buf) as [b1 ms1]. cbn [fst snd] in V. destruct V as [V1 V2].
    specialize (IH b1 V2). cbv zeta in IH. destruct (variable_offsets offs b1) as [b2 ms2]. cbn [fst snd] in *.
    split; [|apply IH]. eapply handed_app; [exact V1|apply IH].
Qed.

Lemma pop_suffix : forall buf, exists g, buf = g ++ pop_to_colon buf.
Proof.
  induction buf as [|c buf [g IH]]; [exists []; reflexivity|]. cbn [pop_to_colon].
  destruct (c =? CHAR_COLON); [exists []; reflexivity|]. exists (c :: g). cbn. now rewrite <- IH.
Qed.

Lemma recv_variable_spec : forall chunks buf, Forall is_byte buf -> Forall (Forall is_byte) chunks ->
  let r := recv_all_variable buf chunks in handed (snd r) (buf ++ concat chunks) (fst r).
Proof.
  induction chunks as [|c chunks IH]; intros buf F FC; cbn [recv_all_variable concat]; cbv zeta.
  - rewrite app_nil_r. apply handed_nil.
  - inversion FC as [|? ? C1 C2]; subst. unfold recv_bytes_variable. rewrite unpacked_id by exact C1.
    destruct (pop_suffix (buf ++ c)) as [g G]. set (b' := pop_to_colon (buf ++ c)) in *.
    assert (FB : Forall is_byte b') by (apply pop_bytes, Forall_app; auto).
    assert (D : handed (snd (decode_variable b')) b' (fst (decode_variable b')) /\ Forall is_byte (fst (decode_variable b'))).
    { unfold decode_variable. destruct (Nat.ltb _ _); [split; [apply handed_nil|exact FB]|].
      now apply variable_offsets_spec. }
    destruct D as [D1 D2]. destruct (decode_variable b') as [b1 ms1]. cbn [fst snd] in *.
    specialize (IH b1 D2 C2). cbv zeta in IH. destruct (recv_all_variable b1 chunks) as [b2 ms2]. cbn [fst snd] in *.
    rewrite app_assoc, G, <- app_assoc.
    assert (D3 : handed ms1 (g ++ b' ++ concat chunks) (b1 ++ concat chunks)).
    { destruct D1 as (ws & W1 & W2 & used & E & O). exists ws. split; [exact W1|]. split; [exact W2|].
      exists (g ++ used). split; [now rewrite E, <- !app_assoc|]. now apply in_order_gap. }
    eapply handed_app; [exact D3|exact IH].
Qed.
