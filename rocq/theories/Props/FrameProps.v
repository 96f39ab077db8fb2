(** C29-C33: the PC frame codec. *)
From Coq Require Import ZifyBool ZifyNat.
From Verif.Base Require Import Mem.
From Verif.Model Require Import MsgFrame.
From Verif.Spec Require Import FrameSpec DecoderSpec.
From Verif.Proof Require Import MemFacts CrcProof FrameProof.

(** ** C29 *)
(** The encoder, used as msgframeencode.h:4-11 prescribes, produces [encode]. *)
Theorem C29_encoder_builds_the_frame :
  forall e buffer payload,
    Z.of_nat (length payload) = e_dataLen e -> e_msgLen e = e_dataLen e + 11 -> e_msgLen e < 65536 ->
    Z.of_nat (length buffer) = e_msgLen e ->
    exists b1 b2,
      MsgFrameEncode_InitFrame e buffer = Some b1 /\
      wr_block b1 5 payload = Some b2 /\
      MsgFrameEncode_UpdateCRC true e b2 = Some (encode (e_address e) (e_function e) payload).
Proof. exact encoder_builds. Qed.
Print Assumptions C29_encoder_builds_the_frame.

(** Delivered in any chunks of at most 1024-L bytes, the decoder recovers
    exactly the frames of the stream: those of the noise before (if any), the
    encoded frame, and those of what follows. *)
Theorem C29_round_trip_any_chunking :
  forall addr func payload noise rest chunks m,
    let f := encode addr func payload in
    let L := (length payload + 11)%nat in
    (L <= 1024)%nat -> fresh (Z.of_nat L) m ->
    concat chunks = noise ++ f ++ rest ->
    Forall (Forall is_byte) chunks ->
    Forall (fun c => Z.of_nat (length c) <= 1024 - Z.of_nat L) chunks ->
    clean_before L noise f ->
    exists m', deliver m chunks = Some (m', frames_in L noise ++ f :: frames_in L rest).
Proof.
  intros addr func payload noise rest chunks m f L HL HM HC HB HS HN.
  destruct (deliver_spec L chunks m []) as (m' & out & rest' & E & I & R & S & F); auto.
  - apply fresh_inv; [lia|exact HM].
  - simpl. lia.
  - destruct HM as (m0 & _ & _ & Q). unfold MsgFrameDecode_Init in Q.
    destruct (_ >? _); [discriminate|]. injection Q as <-. simpl. lia.
  - exists m'. rewrite E. do 2 f_equal.
    specialize (F []). rewrite !app_nil_r in F. cbn [app] in F.
    rewrite (scan_short L 0 rest') in F by exact R. rewrite app_nil_r in F. rewrite <- F, HC.
    apply scan_clean; auto; try lia. apply encode_valid.
Qed.
Print Assumptions C29_round_trip_any_chunking.

Theorem C29_fields_recovered :
  forall addr func payload, is_u16 addr -> is_u16 func ->
    let f := encode addr func payload in
    frame_addr f = addr /\ frame_func f = func /\ frame_payload f = payload.
Proof. exact encode_fields. Qed.
Print Assumptions C29_fields_recovered.

Definition dec19 : mfdec := mkDec 19 0 0 1024 (repeat 0 (Z.to_nat 1024)).
Lemma dec19_fresh : fresh 19 dec19.
Proof. exists dec19. repeat split. Qed.

Definition pdm_frame : list Z := encode 1 0x102 [0; 0; 1; 0; 1; 0; 0; 0].

(** Noise (with a stray ':' ), a frame split over three chunks. *)
Example C29_run :
  exists m', deliver dec19 [[58; 1; 2] ++ firstn 4 pdm_frame; firstn 10 (skipn 4 pdm_frame);
                            skipn 14 pdm_frame ++ [58; 58]] = Some (m', [pdm_frame]).
Proof. eexists. vm_compute. reflexivity. Qed.
Example C29_clean : clean_before 19 [58; 1; 2] pdm_frame.
Proof. intros [|[|[|i]]] H _; try reflexivity. simpl in H. lia. Qed.

(** ** C30 *)
Theorem C30_only_genuine_frames :
  forall L m ops m' got out, (6 <= L <= 1024)%nat -> fresh (Z.of_nat L) m ->
    ops_ok ops -> locks_ok ops -> dec_run m ops = Some (m', got, out) ->
    Forall (fun w => valid_frame L w = true) out /\ in_order out got /\
    exists later, frames_in L got = out ++ later.
Proof.
  intros L m ops m' got out HL HM HO HK HR.
  destruct (run_spec L ops m [] (fresh_inv L m HL HM) HO) as (m1 & g & o & r & E & I & U & IO & A & F).
  rewrite HR in E. injection E as <- <- <-.
  specialize (F HK []). rewrite app_nil_r in F. cbn [app] in F.
  pose proof (scan_valid L got 0) as V. rewrite F in V. apply Forall_app in V.
  split; [apply V|]. split; [exact IO|]. eexists. exact F.
Qed.
Print Assumptions C30_only_genuine_frames.

(** Nothing is missed either: when a decode call finds no further frame, exactly
    the frames of the accepted bytes have been handed out, for every call pattern. *)
Theorem C30_all_frames_found :
  forall L m ops m' got out m2 locks locks', (6 <= L <= 1024)%nat -> fresh (Z.of_nat L) m ->
    ops_ok ops -> locks_ok ops -> Forall (eq true) locks -> dec_run m ops = Some (m', got, out) ->
    MsgFrameDecode_RecvMsg locks m' = Some (None, m2, locks') ->
    out = frames_in L got.
Proof.
  intros L m ops m' got out m2 locks locks' HL HM HO HK HLK HR HP.
  destruct (run_spec L ops m [] (fresh_inv L m HL HM) HO) as (m1 & g & o & r & E & I & U & IO & A & F).
  rewrite HR in E. injection E as <- <- <-.
  destruct (recv_spec L m' r locks I) as (junk & wo & rest1 & lo & r1 & m1' & E1 & B & I1 & D & F1).
  rewrite HP in E1. injection E1 as <- <- <-.
  destruct wo as [w|]; [destruct D as (_ & _ & D & _); easy|]. destruct D as (_ & D & _).
  destruct (F1 HLK) as [_ F2]. specialize (F HK []). specialize (F2 []).
  rewrite !app_nil_r in F, F2. cbn [app] in F. unfold frames_in.
  rewrite F, F2, (scan_short L 0 rest1) by exact D. simpl. now rewrite app_nil_r.
Qed.
Print Assumptions C30_all_frames_found.

(** Position, order and delimiters hold whatever happens to the CRC mutex. *)
Theorem C30_delimited_and_in_order :
  forall L m ops m' got out, (6 <= L <= 1024)%nat -> fresh (Z.of_nat L) m ->
    ops_ok ops -> dec_run m ops = Some (m', got, out) ->
    in_order out got /\ Forall (fun w => length w = L /\ delimited w = true) out.
Proof.
  intros L m ops m' got out HL HM HO HR.
  destruct (run_spec L ops m [] (fresh_inv L m HL HM) HO) as (m1 & g & o & r & E & I & U & IO & A & F).
  rewrite HR in E. injection E as <- <- <-. split; [exact IO|].
  eapply Forall_impl; [|exact A]. intros w [Lw (lk & AC)]. split; [exact Lw|].
  unfold accepts in AC. now apply andb_prop in AC.
Qed.
Print Assumptions C30_delimited_and_in_order.

Example C30_run :
  exists m' got, dec_run dec19 [Push (firstn 8 pdm_frame); Pull []; Push (skipn 8 pdm_frame ++ pdm_frame);
                                Pull []; Pull []; Pull []] = Some (m', got, [pdm_frame; pdm_frame]).
Proof. do 2 eexists. vm_compute. reflexivity. Qed.

(** ** C31 *)
(** No call history leads outside the buffer ([None] is what the model returns
    on such an access), and the cursors stay ordered. *)
Theorem C31_memory_safe :
  forall L m ops, (6 <= L <= 1024)%nat -> fresh (Z.of_nat L) m -> ops_ok ops ->
    exists m' got out, dec_run m ops = Some (m', got, out) /\
      0 <= d_start m' <= d_end m' /\ d_end m' <= MSGFRAME_BUFFER_LEN /\
      d_avail m' = MSGFRAME_BUFFER_LEN - d_end m' /\
      length (d_data m') = Z.to_nat MSGFRAME_BUFFER_LEN.
Proof.
  intros L m ops HL HM HO.
  destruct (run_spec L ops m [] (fresh_inv L m HL HM) HO) as (m1 & g & o & r & E & I & U & IO & A & F).
  exists m1, g, o. split; [exact E|]. pose proof (inv_avail _ _ _ I). unfold MSGFRAME_BUFFER_LEN.
  destruct I as [_ _ _ (pre & post & HD & _ & _ & _ & HT)].
  repeat split; try lia. rewrite HD, !app_length. lia.
Qed.
Print Assumptions C31_memory_safe.

(** Bytes are refused, without any effect, exactly when there is no room. *)
Theorem C31_refused_when_full :
  forall L m ops m' got out b, (6 <= L <= 1024)%nat -> fresh (Z.of_nat L) m -> ops_ok ops ->
    dec_run m ops = Some (m', got, out) -> Forall is_byte b ->
    exists ok m2, MsgFrameDecode_RecvBytes m' b = Some (ok, m2) /\
      (ok = true <-> d_end m' + Z.of_nat (length b) <= MSGFRAME_BUFFER_LEN) /\
      (ok = false -> m2 = m') /\
      (ok = true -> firstn (Z.to_nat (d_end m')) (d_data m2) = firstn (Z.to_nat (d_end m')) (d_data m')).
Proof.
  intros L m ops m' got out b HL HM HO HR HB.
  destruct (run_spec L ops m [] (fresh_inv L m HL HM) HO) as (m1 & g & o & r & E & I & U & IO & A & F).
  rewrite HR in E. injection E as <- <- <-.
  destruct (push_spec L m' r b I HB) as (ok & m2 & E & OK & I2 & S2 & Q).
  exists ok, m2. split; [exact E|]. pose proof (inv_avail _ _ _ I). unfold MSGFRAME_BUFFER_LEN in *.
  split; [split; intros; [apply OK in H0; lia|apply OK; lia]|]. split; [exact Q|].
  intros ->. unfold MsgFrameDecode_RecvBytes in E.
  destruct (Z.of_nat (length b) >? d_avail m'); [discriminate|].
  unfold wr_block in E. destruct (_ && _); [|discriminate]. injection E as <-. cbn [d_data].
  apply firstn_exact. rewrite firstn_length.
  destruct I as [_ _ _ (pre & post & HD & HS & HE & HA & HT)].
  assert (N : Z.of_nat (Z.to_nat 1024) = 1024) by reflexivity.
  rewrite HD, !app_length. lia.
Qed.
Print Assumptions C31_refused_when_full.

(** The initialisation accepts lengths for which the decoder leaves the buffer. *)
Theorem C31_short_length_refuted :
  exists m ops, fresh 3 m /\ ops_ok ops /\ dec_run m ops = None.
Proof.
  exists (mkDec 3 0 0 1024 (repeat 0 (Z.to_nat 1024))), [Push [58; 13; 10]; Pull []].
  split; [exists (mkDec 3 0 0 1024 (repeat 0 (Z.to_nat 1024))); repeat split|].
  split; [|vm_compute; reflexivity].
  constructor; [|constructor; [exact I|constructor]].
  repeat (constructor; [unfold is_byte; lia|]). constructor.
Qed.
Print Assumptions C31_short_length_refuted.

Example C31_full_buffer :
  exists m' got, dec_run dec19 [Push (repeat 7 1000); Push (repeat 7 25); Push (repeat 7 24)]
    = Some (m', got, []) /\ got = repeat 7 1000 ++ repeat 7 24 /\ d_avail m' = 0.
Proof. do 2 eexists. split; [vm_compute; reflexivity|]. split; vm_compute; reflexivity. Qed.

(** ** C32 *)
(** "Not accepted": never handed out, in any history. *)
Definition rejected (L : nat) (w : list Z) : Prop :=
  forall m ops m' got out, fresh (Z.of_nat L) m -> ops_ok ops -> locks_ok ops ->
    dec_run m ops = Some (m', got, out) -> ~ In w out.

Lemma invalid_rejected : forall L w, (6 <= L <= 1024)%nat -> valid_frame L w = false -> rejected L w.
Proof.
  intros L w HL V m ops m' got out HM HO HK HR HI.
  destruct (C30_only_genuine_frames L m ops m' got out HL HM HO HK HR) as [A _].
  rewrite Forall_forall in A. rewrite (A w HI) in V. discriminate.
Qed.

Lemma flip_xor : forall a b, flip a b = xor_bits a b.
Proof. induction a; intros [|y b]; simpl; auto; now rewrite IHa. Qed.

Lemma valid_split : forall L h f t, length f = 4%nat -> length t = 2%nat ->
  valid_frame L (h ++ f ++ t) = true ->
  L = (length h + 6)%nat /\ (h <> [] -> nth 0 h 0 = 58) /\ t = [13; 10] /\
  crc_field (h ++ f ++ t) = HAL_CRC_Calculate (h ++ [0; 0; 0; 0] ++ t).
Proof.
  intros L h f t Lf Lt V.
  destruct f as [|b3 [|b2 [|b1 [|b0 [|? ?]]]]]; try discriminate.
  destruct t as [|x [|y [|? ?]]]; try discriminate.
  pose proof (valid_length _ _ V) as LW. rewrite !app_length in LW. cbn [length] in LW.
  unfold valid_frame in V. apply andb_prop in V. destruct V as [V C]. apply andb_prop in V. destruct V as [_ D].
  destruct (encode_parts h b3 b2 b1 b0 x y) as (_ & _ & CV & DL).
  change ([b3; b2; b1; b0] ++ [x; y]) with [b3; b2; b1; b0; x; y] in *.
  split; [lia|]. apply Z.eqb_eq in C. rewrite CV in C.
  assert (T : x = 13 /\ y = 10).
  { unfold delimited in D. rewrite app_length in D. cbn [length] in D.
    replace (length h + 6 - 2)%nat with (length h + 4)%nat in D by lia.
    replace (length h + 6 - 1)%nat with (length h + 5)%nat in D by lia.
    rewrite !nth_app_r in D. cbn [nth] in D.
    apply andb_prop in D. destruct D as [D1 D2]. apply andb_prop in D1. lia. }
  split.
  { intros NE. destruct h as [|z h]; [easy|]. rewrite DL in D by (simpl; lia).
    apply andb_prop in D. destruct D as [D _]. apply andb_prop in D. destruct D as [D _]. cbn [nth] in *. lia. }
  destruct T as [-> ->]. split; [reflexivity|exact C].
Qed.

Lemma altered_invalid : forall L h f t h' e, length f = 4%nat -> length t = 2%nat ->
  valid_frame L (h ++ f ++ t) = true -> length h' = length h -> length e = (8 * length h)%nat ->
  bits_of h' = flip (bits_of h) e -> feed 0 e <> 0 ->
  valid_frame L (h' ++ f ++ t) = false.
Proof.
  intros L h f t h' e Lf Lt V Lh Le B N.
  destruct (valid_frame L (h' ++ f ++ t)) eqn:V'; [exfalso|reflexivity].
  apply valid_split in V; auto. destruct V as (_ & _ & _ & C).
  apply valid_split in V'; auto. destruct V' as (_ & _ & _ & C').
  assert (E : crc_field (h' ++ f ++ t) = crc_field (h ++ f ++ t)).
  { destruct f as [|b3 [|b2 [|b1 [|b0 [|? ?]]]]]; try discriminate.
    destruct t as [|x [|y [|? ?]]]; try discriminate.
    change ([b3; b2; b1; b0] ++ [x; y]) with [b3; b2; b1; b0; x; y].
    destruct (encode_parts h b3 b2 b1 b0 x y) as (_ & -> & _).
    destruct (encode_parts h' b3 b2 b1 b0 x y) as (_ & -> & _). reflexivity. }
  rewrite C, C' in E. revert E. apply crc_differs with e; auto.
Qed.

(** Any error burst of at most 32 bits in address, function or payload. *)
Theorem C32_burst_rejected :
  forall L h f t h' before burst after, (L <= 1024)%nat ->
    length f = 4%nat -> length t = 2%nat -> valid_frame L (h ++ f ++ t) = true ->
    length h' = length h ->
    bits_of h' = flip (bits_of h) (repeat false before ++ burst ++ repeat false after) ->
    (before + length burst + after = 8 * length h)%nat ->
    (length burst <= 32)%nat -> In true burst ->
    rejected L (h' ++ f ++ t).
Proof.
  intros L h f t h' a burst c HL Lf Lt V Lh B S Lb T.
  apply invalid_rejected.
  - apply valid_length in V. rewrite !app_length in V. lia.
  - eapply altered_invalid; eauto.
    + rewrite !app_length, !repeat_length. lia.
    + now apply (burst_nonzero a burst c).
Qed.
Print Assumptions C32_burst_rejected.

(** Any two wrong bits, for frames of up to 256 bytes. *)
Theorem C32_two_bits_rejected :
  forall L h f t h' before between after, (L <= 256)%nat ->
    length f = 4%nat -> length t = 2%nat -> valid_frame L (h ++ f ++ t) = true ->
    length h' = length h ->
    bits_of h' = flip (bits_of h)
      (repeat false before ++ [true] ++ repeat false between ++ [true] ++ repeat false after) ->
    (before + 1 + between + 1 + after = 8 * length h)%nat ->
    rejected L (h' ++ f ++ t).
Proof.
  intros L h f t h' a d c HL Lf Lt V Lh B S.
  assert (LL := valid_length _ _ V). rewrite !app_length in LL.
  apply invalid_rejected; [lia|].
  eapply altered_invalid; eauto.
  - rewrite !app_length, !repeat_length. simpl. lia.
  - apply (two_bits_nonzero a d c). lia.
Qed.
Print Assumptions C32_two_bits_rejected.

(** Any change of the CRC field alone, or of a delimiter (whatever else changes). *)
Theorem C32_crc_field_rejected :
  forall L h f t f', (L <= 1024)%nat -> length f = 4%nat -> length f' = 4%nat -> length t = 2%nat ->
    Forall is_byte f -> Forall is_byte f' ->
    valid_frame L (h ++ f ++ t) = true -> f' <> f ->
    rejected L (h ++ f' ++ t).
Proof.
  intros L h f t f' HL Lf Lf' Lt Bf Bf' V N.
  apply invalid_rejected; [apply valid_length in V; rewrite !app_length in V; lia|].
  destruct (valid_frame L (h ++ f' ++ t)) eqn:V'; [exfalso|reflexivity].
  apply valid_split in V; auto. destruct V as (_ & _ & _ & C).
  apply valid_split in V'; auto. destruct V' as (_ & _ & _ & C').
  apply N. destruct f as [|b3 [|b2 [|b1 [|b0 [|? ?]]]]]; try discriminate.
  destruct f' as [|c3 [|c2 [|c1 [|c0 [|? ?]]]]]; try discriminate.
  destruct t as [|x [|y [|? ?]]]; try discriminate.
  rewrite <- C' in C.
  change ([b3; b2; b1; b0] ++ [x; y]) with [b3; b2; b1; b0; x; y] in C.
  change ([c3; c2; c1; c0] ++ [x; y]) with [c3; c2; c1; c0; x; y] in C.
  destruct (encode_parts h b3 b2 b1 b0 x y) as (_ & E1 & _). cbv zeta in E1. rewrite E1 in C.
  destruct (encode_parts h c3 c2 c1 c0 x y) as (_ & E2 & _). cbv zeta in E2. rewrite E2 in C.
  inversion Bf as [|? ? X3 Y3]; inversion Y3 as [|? ? X2 Y2]; inversion Y2 as [|? ? X1 Y1]; inversion Y1 as [|? ? X0 _]; subst.
  inversion Bf' as [|? ? U3 W3]; inversion W3 as [|? ? U2 W2]; inversion W2 as [|? ? U1 W1]; inversion W1 as [|? ? U0 _]; subst.
  rewrite <- (byte_be32 c3 c2 c1 c0), <- (byte_be32 b3 b2 b1 b0) by assumption. now rewrite C.
Qed.
Print Assumptions C32_crc_field_rejected.

Theorem C32_delimiter_rejected :
  forall L w, (6 <= L <= 1024)%nat -> length w = L ->
    nth 0 w 0 <> 58 \/ nth (L - 2) w 0 <> 13 \/ nth (L - 1) w 0 <> 10 ->
    rejected L w.
Proof.
  intros L w HL LW D. apply invalid_rejected; [exact HL|]. unfold valid_frame, delimited. rewrite LW.
  destruct D as [D|[D|D]]; apply Z.eqb_neq in D; rewrite D; rewrite ?andb_false_r, ?andb_false_l; reflexivity.
Qed.
Print Assumptions C32_delimiter_rejected.

(** A burst across the boundary into the CRC field can go unnoticed, because the
    CRC is taken over a zeroed field followed by CR LF: here 29 bits. *)
Theorem C32_straddling_burst_refuted :
  exists w w' before burst after, valid_frame 19 w = true /\ w' <> w /\
    bits_of w' = flip (bits_of w) (repeat false before ++ burst ++ repeat false after) /\
    (length burst <= 32)%nat /\ valid_frame 19 w' = true.
Proof.
  exists pdm_frame,
    (firstn 12 pdm_frame ++ [Z.lxor (nth 12 pdm_frame 0) 7; Z.lxor (nth 13 pdm_frame 0) 0xE8;
        Z.lxor (nth 14 pdm_frame 0) 0x65; Z.lxor (nth 15 pdm_frame 0) 0x05;
        Z.lxor (nth 16 pdm_frame 0) 0xC0] ++ [13; 10]),
    101%nat,
    (map (Z.testbit 0x1FA19417) [28;27;26;25;24;23;22;21;20;19;18;17;16;15;14;13;12;11;10;9;8;7;6;5;4;3;2;1;0]
       : list bool), 22%nat.
  split; [vm_compute; reflexivity|]. split; [vm_compute; discriminate|].
  split; [vm_compute; reflexivity|]. split; [simpl; lia|]. vm_compute; reflexivity.
Qed.
Print Assumptions C32_straddling_burst_refuted.

(** ** C33 *)
(** If the mutex cannot be taken the calculated value is 0 and nobody looks at
    the status: a delimited frame is then accepted exactly if its field is 0. *)
Theorem C33_crc_failure_accepts_refuted :
  exists w m ops m' got, fresh 19 m /\ ops_ok ops /\
    valid_frame 19 w = false /\ dec_run m ops = Some (m', got, [w]).
Proof.
  exists (58 :: repeat 0 16 ++ [13; 10]), dec19,
    [Push (58 :: repeat 0 16 ++ [13; 10]); Pull [false]].
  do 2 eexists. split; [exact dec19_fresh|]. split.
  { constructor; [|constructor; [exact I|constructor]].
    repeat (constructor; [unfold is_byte; lia|]). constructor. }
  split; vm_compute; reflexivity.
Qed.
Print Assumptions C33_crc_failure_accepts_refuted.

(** What does hold under any pattern of lock failures: a frame handed out
    carries a matching CRC or a zero CRC field. *)
Theorem C33_crc_failure_partial :
  forall L m ops m' got out, (6 <= L <= 1024)%nat -> fresh (Z.of_nat L) m ->
    ops_ok ops -> dec_run m ops = Some (m', got, out) ->
    Forall (fun w => valid_frame L w = true \/ crc_field w = 0) out.
Proof.
  intros L m ops m' got out HL HM HO HR.
  destruct (run_spec L ops m [] (fresh_inv L m HL HM) HO) as (m1 & g & o & r & E & I & U & IO & A & F).
  rewrite HR in E. injection E as <- <- <-.
  eapply Forall_impl; [|exact A]. intros w [Lw (lk & AC)]. destruct lk.
  - left. now rewrite <- accepts_true.
  - right. unfold accepts, crc_ok in AC. apply andb_prop in AC. destruct AC as [_ AC]. apply Z.eqb_eq in AC. now rewrite <- AC.
Qed.
Print Assumptions C33_crc_failure_partial.

(** The encoder side: after a failed lock a frame goes out with CRC 0. *)
Theorem C33_encoder_sends_zero_crc_refuted :
  exists e b b', MsgFrameEncode_UpdateCRC false e b = Some b' /\ valid_frame 11 b' = false /\ crc_field b' = 0.
Proof.
  exists (mkEnc 11 0 1 1), (58 :: 0 :: 1 :: 0 :: 1 :: [0; 0; 0; 0; 13; 10]). eexists.
  split; [vm_compute; reflexivity|]. split; vm_compute; reflexivity.
Qed.
Print Assumptions C33_encoder_sends_zero_crc_refuted.
