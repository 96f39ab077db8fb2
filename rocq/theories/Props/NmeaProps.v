(** C51, C52, C53: the GPS sentence decoder. *)
From Coq Require Import String.
From Coq Require Import ZifyBool ZifyNat.
From Verif.Base Require Import Text.
From Verif.Model Require Import Gps.
From Verif.Spec Require Import NmeaSpec.
From Verif.Proof Require Import NmeaProof GpsProof.
Open Scope Z_scope.

(** ** A sample sentence *)

Definition sample : list Z := str "091626.042,2236.2791,N,12017.2818,E,1,10,1.00,8.8,M,18.7,M,,".
Definition sample_fix : gps_t :=
  mkGps (mkUtc 9 16 26 42) (str "2236.2791" ++ [0; 0]) (hd 0 (str "N")) (str "12017.2818" ++ [0])
        (hd 0 (str "E")) 1 10.
Definition no_fields : nfields :=
  mkFields NMEA_NULL (mkGps (mkUtc 0 0 0 0) (repeat 0 11) 0 (repeat 0 11) 0 0 0).

Example sample_text :
  sentence sample 54 48 =
  str "$GPGGA,091626.042,2236.2791,N,12017.2818,E,1,10,1.00,8.8,M,18.7,M,,*60" ++ [13; 10].
Proof. reflexivity. Qed.

Example sample_payload : gga_payload sample sample_fix.
Proof.
  exists (str "091626.042"), (str "2236.2791"), (str "N"), (str "12017.2818"), (str "E"), (str "1"), (str "10"),
    (str "1.00"), (str "8.8"), (str "M"), (str "18.7"), (str "M"), [[]; []], 10.
  repeat match goal with |- _ /\ _ => split end;
    try reflexivity; try (cbn; lia); try (left; reflexivity); try discriminate;
    try (unfold is_dig; cbn; lia).
  - apply (time_millis 0 9 1 6 2 6 0 4 2). repeat (apply Forall_cons; [unfold is_dig; lia|]). apply Forall_nil.
  - exists [1; 0]. split; [repeat (apply Forall_cons; [unfold is_dig; lia|]); apply Forall_nil|]. split; reflexivity.
  - repeat (apply Forall_cons; [discriminate|]). apply Forall_nil.
Qed.

Example sample_checksum : good_checksum sample 54 48.
Proof. exists 6, 0. unfold hex_digit. split; [lia|]. split; [lia|]. reflexivity. Qed.

Example sample_no_star : ~ In 42 sample.
Proof. intros I. cbn in I. repeat (destruct I as [I|I]; [discriminate|]). exact I. Qed.
Example sample_no_dollar : ~ In 36 sample.
Proof. intros I. cbn in I. repeat (destruct I as [I|I]; [discriminate|]). exact I. Qed.

Lemma short_short : forall m, (length m < 128)%nat -> short_fields m.
Proof. intros m L a f b E _. rewrite E, !app_length in L. lia. Qed.

Example sample_short : short_fields sample.
Proof. apply short_short. cbn. lia. Qed.

Example sample_valid : valid_sentence (sentence sample 54 48) sample_fix.
Proof.
  exists sample, 54, 48.
  split; [reflexivity|]. split; [exact sample_no_star|]. split; [exact sample_checksum|exact sample_payload].
Qed.

(** ** C51: what is reported is the content of one sentence with a matching checksum *)

(** Whatever is in the buffer and in the output record before the call. *)
Theorem C51_decoded_fix_is_a_sentence : forall n o n' o',
  (length (n_data n) <= Z.to_nat 1024)%nat ->
  NmeaDecode_Decode n o = Some (true, n', o') ->
  f_type o' = NMEA_GPGGA /\ exists m, valid_sentence m (f_gga o') /\ infix m (n_data n).
Proof.
  intros n o n' o' LD D.
  destruct (Decode_sound _ _ _ _ LD D) as (s & p & h1 & h0 & post & (V & NS & GC & GP & FT & _) & _).
  split; [exact FT|]. exists (sentence p h1 h0). split; [exists p, h1, h0; auto|].
  destruct V as [_ V]. exists (firstn (Z.to_nat s) (n_data n)), post. rewrite <- V, firstn_skipn. reflexivity.
Qed.
Print Assumptions C51_decoded_fix_is_a_sentence.

(** The same for every history of chunks: the vehicle state always holds the
    content of one valid sentence, the one decoded last. *)
Theorem C51_published_fixes_are_sentences : forall fuel d h d',
  (length (n_data (gp_dec d)) <= Z.to_nat 1024)%nat ->
  gps_run fuel d h = Some (Some d') ->
  exists gs, gp_published d' = gp_published d ++ gs /\ gp_state d' = last gs (gp_state d) /\
    Forall (fun g => exists m, valid_sentence m g) gs.
Proof. intros fuel d h d' LD H. exact (gps_run_sound h fuel d d' LD H). Qed.
Print Assumptions C51_published_fixes_are_sentences.

(** Partial: the sentence consists of bytes received and not yet consumed only if
    the byte after them in the buffer, left over from earlier, is not a star. *)
Theorem C51_sentence_was_received_partial : forall n o n' o',
  nmea_wf n -> rd (n_data n) (n_end n) <> Some 42 ->
  NmeaDecode_Decode n o = Some (true, n', o') ->
  exists m, valid_sentence m (f_gga o') /\ infix m (received n).
Proof.
  intros n o n' o' W NS D. pose proof W as (LD & SB & EA & AV).
  destruct (Decode_sound n o n' o' ltac:(lia) D) as (s & p & h1 & h0 & post & F & _ & SL).
  pose proof F as (V & NS' & GC & GP & FT & _).
  exists (sentence p h1 h0). split; [exists p, h1, h0; auto|].
  eapply found_received; [exact F|exact W|apply SL; lia|exact NS].
Qed.
Print Assumptions C51_sentence_was_received_partial.

(** Otherwise the star, the checksum and the line end of an earlier sentence are
    taken for those of the bytes now received. Here a sentence with payload [p]
    is received and published, which leaves the decoder empty; then only
    "$GPGGA," and [p'] arrive, and [p'] is reported. *)
Theorem C51_checksum_of_earlier_sentence_refuted : forall fuel g o1 o2 p gf p' gf' h1 h0,
  ~ In 42 p -> good_checksum p h1 h0 -> gga_payload p gf -> short_fields p ->
  ~ In 42 p' -> good_checksum p' h1 h0 -> gga_payload p' gf' -> short_fields p' -> length p' = length p ->
  (length (sentence p h1 h0) <= Z.to_nat 1024)%nat -> gps_arrays (f_gga o1) -> gps_arrays (f_gga o2) -> (2 <= fuel)%nat ->
  exists d1 n2 n3 g', GPS_TaskMethod fuel (fresh_gps g) o1 (sentence p h1 h0) = Some (Some d1) /\
    nmea_empty (gp_dec d1) /\
    NmeaDecode_AccumulateBytes (gp_dec d1) (str "$GPGGA," ++ p') = Some (true, n2) /\
    received n2 = str "$GPGGA," ++ p' /\
    NmeaDecode_Decode n2 o2 = Some (true, n3, mkFields NMEA_GPGGA g') /\ gga_payload p' g'.
Proof. exact stale_checksum. Qed.
Print Assumptions C51_checksum_of_earlier_sentence_refuted.

(** Two positions with equal checksums. *)
Definition sample2 : list Z := str "091626.042,2263.2791,N,12017.2818,E,1,10,1.00,8.8,M,18.7,M,,".
Definition sample2_fix : gps_t :=
  mkGps (mkUtc 9 16 26 42) (str "2263.2791" ++ [0; 0]) (hd 0 (str "N")) (str "12017.2818" ++ [0])
        (hd 0 (str "E")) 1 10.
Example sample2_payload : gga_payload sample2 sample2_fix.
Proof.
  exists (str "091626.042"), (str "2263.2791"), (str "N"), (str "12017.2818"), (str "E"), (str "1"), (str "10"),
    (str "1.00"), (str "8.8"), (str "M"), (str "18.7"), (str "M"), [[]; []], 10.
  repeat match goal with |- _ /\ _ => split end;
    try reflexivity; try (cbn; lia); try (left; reflexivity); try discriminate;
    try (unfold is_dig; cbn; lia).
  - apply (time_millis 0 9 1 6 2 6 0 4 2). repeat (apply Forall_cons; [unfold is_dig; lia|]). apply Forall_nil.
  - exists [1; 0]. split; [repeat (apply Forall_cons; [unfold is_dig; lia|]); apply Forall_nil|]. split; reflexivity.
  - repeat (apply Forall_cons; [discriminate|]). apply Forall_nil.
Qed.
Example sample2_checksum : good_checksum sample2 54 48.
Proof. exists 6, 0. unfold hex_digit. split; [lia|]. split; [lia|]. reflexivity. Qed.
Example sample2_no_star : ~ In 42 sample2.
Proof. intros I. cbn in I. repeat (destruct I as [I|I]; [discriminate|]). exact I. Qed.

Example C51_refuted_nonvacuous :
  exists d1 n2 n3 g',
    GPS_TaskMethod 2 (fresh_gps zero_gps) no_fields (sentence sample 54 48) = Some (Some d1) /\
    nmea_empty (gp_dec d1) /\
    NmeaDecode_AccumulateBytes (gp_dec d1) (str "$GPGGA," ++ sample2) = Some (true, n2) /\
    received n2 = str "$GPGGA," ++ sample2 /\
    NmeaDecode_Decode n2 no_fields = Some (true, n3, mkFields NMEA_GPGGA g') /\ gga_payload sample2 g'.
Proof.
  apply (C51_checksum_of_earlier_sentence_refuted 2 zero_gps no_fields no_fields sample sample_fix sample2 sample2_fix 54 48);
    try apply sample_no_star; try apply sample_checksum; try apply sample_payload; try apply sample_short;
    try apply sample2_no_star; try apply sample2_checksum; try apply sample2_payload;
    try (split; reflexivity); try reflexivity; try lia.
  - apply short_short. cbn. lia.
  - rewrite sentence_length. cbn. lia.
Qed.

(** ** C52: a stream of valid sentences *)

(** Partial: sentences that arrive one per run of the task, or cut in two with a
    first piece of at most 13 bytes, are all decoded, in order, and the decoder is
    empty after each. *)
Theorem C52_one_sentence_per_delivery_partial : forall fuel ds g,
  (2 <= fuel)%nat -> Forall dl_ok ds ->
  exists d' gs, gps_run fuel (fresh_gps g) (flat_map dl_chunks ds) = Some (Some d') /\
    nmea_empty (gp_dec d') /\ gp_published d' = gs /\ gp_state d' = last gs g /\
    Forall2 (fun x g => valid_sentence (dl_text x) g) ds gs.
Proof.
  intros fuel ds g FU OK.
  destruct (deliveries fuel ds (fresh_gps g) FU) as (d' & gs & R & E & P & S & F); auto.
  { unfold nmea_empty. cbn [fresh_gps gp_dec fresh n_data n_start n_end n_avail]. rewrite repeat_length. auto. }
  exists d', gs. auto.
Qed.
Print Assumptions C52_one_sentence_per_delivery_partial.

Example C52_delivery_nonvacuous :
  Forall dl_ok [mkDel [] (sentence sample 54 48) no_fields no_fields;
                mkDel (str "$GPGGA,0916") (skipn 11 (sentence sample 54 48)) no_fields no_fields].
Proof.
  repeat apply Forall_cons; [| |apply Forall_nil];
    (unfold dl_ok, dl_text; cbn [dl_first dl_second dl_o2];
     match goal with |- context [?a ++ ?b] => change (a ++ b) with (sentence sample 54 48) end;
     split; [exists sample_fix; exact sample_valid|];
     split; [apply short_short; rewrite sentence_length; cbn; lia|];
     split; [rewrite sentence_length; cbn; lia|];
     split; [cbn; lia|split; reflexivity]).
Qed.

(** Partial: unless the buffer is nearly full or a field has 128 bytes or more,
    decoding stays inside its arrays, and when no message is found at most 14
    bytes of the buffer remain in use: a suffix of what was received. *)
Theorem C52_bounds_partial : forall n o,
  nmea_wf n -> n_end n <= 1019 -> short_fields (received n) -> gps_arrays (f_gga o) ->
  exists more n' o', NmeaDecode_Decode n o = Some (more, n', o') /\ gps_arrays (f_gga o') /\
    (more = false -> nmea_wf n' /\ n_end n' <= 14 /\ exists a, received n = a ++ received n').
Proof. exact Decode_safe. Qed.
Print Assumptions C52_bounds_partial.

Example C52_bounds_nonvacuous :
  let n := mkNmea 0 72 952 (sentence sample 54 48 ++ repeat 0 (Z.to_nat 952)) in
  nmea_wf n /\ n_end n <= 1019 /\ short_fields (received n) /\ gps_arrays (f_gga no_fields).
Proof.
  cbv zeta. split; [unfold nmea_wf; cbn [n_data n_start n_end n_avail]; rewrite app_length, repeat_length, sentence_length; cbn [length sample]; split; [reflexivity|lia]|].
  split; [cbn; lia|]. split; [|split; reflexivity].
  apply short_short. unfold received. cbn [n_start n_end n_data]. rewrite firstn_length. lia.
Qed.

(** Two valid sentences taken from the receive stream at once: the second match
    makes the read index run past the received bytes, and the next scan leaves
    the buffer. *)
Theorem C52_two_sentences_refuted : forall fuel g o p h1 h0 gf p' h1' h0' gf',
  ~ In 42 p -> good_checksum p h1 h0 -> gga_payload p gf -> gps_arrays (f_gga o) -> short_fields p ->
  ~ In 42 p' -> good_checksum p' h1' h0' -> gga_payload p' gf' -> short_fields p' ->
  (length (sentence p h1 h0 ++ sentence p' h1' h0') <= Z.to_nat 1024)%nat -> (3 <= fuel)%nat ->
  GPS_TaskMethod fuel (fresh_gps g) o (sentence p h1 h0 ++ sentence p' h1' h0') = None.
Proof. exact two_sentences. Qed.
Print Assumptions C52_two_sentences_refuted.

Example C52_two_sentences_nonvacuous :
  GPS_TaskMethod 3 (fresh_gps zero_gps) no_fields (sentence sample 54 48 ++ sentence sample 54 48) = None.
Proof.
  apply (C52_two_sentences_refuted 3 zero_gps no_fields sample 54 48 sample_fix sample 54 48 sample_fix);
    try apply sample_no_star; try apply sample_checksum; try apply sample_payload; try apply sample_short;
    try (split; reflexivity); try lia.
  rewrite app_length, !sentence_length. cbn. lia.
Qed.

(** Any bytes before the sentence have the same effect. *)
Theorem C52_leading_bytes_refuted : forall fuel g o j p h1 h0 gf,
  ~ In 36 j -> j <> [] ->
  ~ In 42 p -> good_checksum p h1 h0 -> gga_payload p gf -> gps_arrays (f_gga o) -> short_fields p ->
  (length (j ++ sentence p h1 h0) <= Z.to_nat 1024)%nat -> (2 <= fuel)%nat ->
  GPS_TaskMethod fuel (fresh_gps g) o (j ++ sentence p h1 h0) = None.
Proof. exact late_sentence. Qed.
Print Assumptions C52_leading_bytes_refuted.

Example C52_leading_bytes_nonvacuous :
  GPS_TaskMethod 2 (fresh_gps zero_gps) no_fields ([13; 10] ++ sentence sample 54 48) = None.
Proof.
  apply (C52_leading_bytes_refuted 2 zero_gps no_fields [13; 10] sample 54 48 sample_fix);
    try apply sample_no_star; try apply sample_checksum; try apply sample_payload; try apply sample_short;
    try (split; reflexivity); try lia; try discriminate.
  - cbn. lia.
  - rewrite app_length, sentence_length. cbn. lia.
Qed.

(** A sentence cut after its fourteenth byte or later, anywhere, is lost. *)
Theorem C52_cut_sentence_lost_refuted : forall fuel g o1 o2 a b p h1 h0,
  sentence p h1 h0 = a ++ b -> b <> [] -> (14 <= length a)%nat ->
  ~ In 42 p -> ~ In 36 p -> good_checksum p h1 h0 -> (length (sentence p h1 h0) <= Z.to_nat 1024)%nat -> (1 <= fuel)%nat ->
  exists d', gps_run fuel (fresh_gps g) [(a, o1); (b, o2)] = Some (Some d') /\ gp_published d' = [] /\ gp_state d' = g /\
    nmea_empty (gp_dec d').
Proof. exact split_lost. Qed.
Print Assumptions C52_cut_sentence_lost_refuted.

Example C52_cut_sentence_nonvacuous :
  exists d', gps_run 1 (fresh_gps zero_gps)
      [(firstn 64 (sentence sample 54 48), no_fields); (skipn 64 (sentence sample 54 48), no_fields)] = Some (Some d') /\
    gp_published d' = [] /\ gp_state d' = zero_gps /\ nmea_empty (gp_dec d').
Proof.
  apply (C52_cut_sentence_lost_refuted 1 zero_gps no_fields no_fields _ _ sample 54 48);
    try apply sample_no_star; try apply sample_no_dollar; try apply sample_checksum; try lia.
  - symmetry. apply firstn_skipn.
  - discriminate.
  - cbn. lia.
  - rewrite sentence_length. cbn. lia.
Qed.

(** A first field of 128 characters or more overruns the token array although
    the checksum is right. *)
Theorem C52_long_field_refuted : forall fuel g o p h1 h0 f fs,
  ~ In 42 p -> good_checksum p h1 h0 -> fields p = f :: fs -> (128 <= length f)%nat ->
  (length (sentence p h1 h0) <= Z.to_nat 1024)%nat -> (1 <= fuel)%nat ->
  GPS_TaskMethod fuel (fresh_gps g) o (sentence p h1 h0) = None.
Proof. exact long_field. Qed.
Print Assumptions C52_long_field_refuted.

Example C52_long_field_nonvacuous :
  GPS_TaskMethod 1 (fresh_gps zero_gps) no_fields (sentence (repeat 48 128) 55 65) = None.
Proof.
  apply (C52_long_field_refuted 1 zero_gps no_fields _ _ _ (repeat 48 128) []); try lia.
  - intros I. apply repeat_spec in I. discriminate.
  - exists 7, 10. unfold hex_digit. split; [lia|]. split; [lia|]. reflexivity.
  - reflexivity.
  - rewrite repeat_length. lia.
  - rewrite sentence_length, repeat_length. lia.
Qed.

(** ** C53: the time field *)

(** [s] is the text that begins the 11-byte (or longer) field array. *)
Theorem C53_time_exact : forall s u,
  (11 <= length s)%nat ->
  (NmeaCharToUTCTime s = Some (Some u) <-> nth 10 s 1 = 0 /\ time_text (cstr s) u) /\
  NmeaCharToUTCTime s <> None.
Proof. intros s u L. now apply utc_exact. Qed.
Print Assumptions C53_time_exact.

Example C53_nonvacuous :
  NmeaCharToUTCTime (str "091626.042" ++ [0]) = Some (Some (mkUtc 9 16 26 42)) /\
  NmeaCharToUTCTime (str "091626" ++ [0; 7; 7; 7; 0]) = Some (Some (mkUtc 9 16 26 0)) /\
  NmeaCharToUTCTime (str "09162a.042" ++ [0]) = Some None.
Proof. repeat split; vm_compute; reflexivity. Qed.
