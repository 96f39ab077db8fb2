From Coq Require Import ZifyBool ZifyNat String.
From Verif.Base Require Import Text.
From Verif.Model Require Import Gps.
From Verif.Spec Require Import NmeaSpec.
From Verif.Proof Require Import MemFacts NmeaProof.

(** ** trimFront *)

Lemma trim_spec : forall d j n s t, view d s (j ++ t) -> ~ In 36 j ->
  s + Z.of_nat (length j) <= Z.of_nat (length d) -> Z.of_nat (length d) < 65536 ->
  (length j = n \/ (length j < n)%nat /\ exists u, t = 36 :: u) ->
  trimLoop d n s = Some (s + Z.of_nat (length j)).
Proof.
  induction j as [|c j IH]; intros n s t V NI L LD E; cbn [length] in *.
  - rewrite Z.add_0_r. destruct E as [<-|[E (u & ->)]]; [reflexivity|]. destruct n; [lia|].
    cbn [app] in V. apply view_cons in V as (V & _ & _). cbn [trimLoop]. rewrite V. reflexivity.
  - destruct n; [lia|]. cbn [app] in V. assert (P : 0 <= s) by apply V.
    apply view_cons in V as (V & V' & _). cbn [trimLoop]. rewrite V.
    destruct (Z.eqb_spec c 36) as [->|]; [exfalso; apply NI; now left|]. cbn [negb].
    rewrite u16_small by lia. rewrite (IH n (s + 1) t); auto; try lia.
    + f_equal. lia.
    + intros A. apply NI. now right.
    + destruct E as [E|[E U]]; [left; lia|right; split; [lia|exact U]].
Qed.

Lemma trim_bounds : forall d n s s', 0 <= s -> Z.of_nat (length d) < 65536 ->
  trimLoop d n s = Some s' -> s <= s' <= s + Z.of_nat n.
Proof.
  induction n; intros s s' P LD H; cbn [trimLoop] in H; [injection H as <-; lia|].
  destruct (rd d s) as [c|] eqn:R; [|discriminate]. apply rd_bound in R.
  destruct (negb (c =? 36)); [|injection H as <-; lia]. rewrite u16_small in H by lia.
  apply IHn in H; lia.
Qed.

Lemma trim_total : forall d n s, 0 <= s -> s + Z.of_nat n <= Z.of_nat (length d) -> Z.of_nat (length d) < 65536 ->
  exists s', trimLoop d n s = Some s'.
Proof.
  induction n; intros s P L LD; cbn [trimLoop]; [eauto|].
  destruct (rd_some Z d s) as (c & ->); [lia|]. destruct (negb (c =? 36)); [|eauto].
  rewrite u16_small by lia. apply IHn; lia.
Qed.

(** ** Soundness *)

(** What a successful search found: a sentence at index [s]. *)
Definition found (n : nmea) (s : Z) (p : list Z) (h1 h0 : Z) (post : list Z) (o : nfields) : Prop :=
  view (n_data n) s (sentence p h1 h0 ++ post) /\ ~ In 42 p /\ good_checksum p h1 h0 /\
  gga_payload p (f_gga o) /\ f_type o = NMEA_GPGGA /\
  s + 7 + Z.of_nat (length p) <= n_end n /\
  4 <= u16 (n_end n - (s + 7 + Z.of_nat (length p) + 1)).

Lemma u16_nonneg : forall z, 0 <= u16 z.
Proof. intros. unfold u16. apply Z.mod_pos_bound. lia. Qed.

Lemma decodeLoop_sound : forall used n o n' o',
  (length (n_data n) <= Z.to_nat 1024)%nat -> decodeLoop used n o = Some (inl (n', o')) ->
  exists s p h1 h0 post, found n s p h1 h0 post o' /\
    n' = set_start n (u16 (s + (s + Z.of_nat (length (sentence p h1 h0))))) /\
    (0 <= n_start n -> n_start n + Z.of_nat used = n_end n -> n_end n <= 1024 -> n_start n <= s).
Proof.
  induction used; intros n o n' o' LD H; cbn [decodeLoop] in H; [discriminate|].
  destruct (Z.gtb_spec (Z.of_nat (S used)) 13); [|discriminate].
  destruct (tryDecode n o) as [[len o1]|] eqn:T; [|discriminate].
  destruct (Z.eqb_spec len 0) as [->|NZ].
  - apply IHused in H as (s & p & h1 & h0 & post & F & E & B); [|exact LD].
    exists s, p, h1, h0, post. split; [exact F|]. split; [exact E|]. intros P SU EL. cbn in B.
    rewrite u16_small in B by lia. lia.
  - injection H as <- <-. pose proof (tryDecode_sound _ _ _ _ LD T NZ) as (p & h1 & h0 & post & F).
    destruct F as (F1 & F2 & F3 & F4 & F5 & -> & F6 & F7).
    exists (n_start n), p, h1, h0, post. split; [repeat split; auto; apply F1|]. split; [reflexivity|]. lia.
Qed.

Lemma trimFront_inv : forall n n', trimFront n = Some n' ->
  exists s', trimLoop (n_data n) (Z.to_nat (n_end n - n_start n)) (n_start n) = Some s' /\ n' = set_start n s'.
Proof. intros n n'. unfold trimFront. destruct (trimLoop _ _ _); [|discriminate]. intros [= <-]. eauto. Qed.

Lemma Decode_sound : forall n o n' o', (length (n_data n) <= Z.to_nat 1024)%nat ->
  NmeaDecode_Decode n o = Some (true, n', o') ->
  exists s p h1 h0 post, found n s p h1 h0 post o' /\
    n' = set_start n (u16 (s + (s + Z.of_nat (length (sentence p h1 h0))))) /\
    (0 <= n_start n <= n_end n -> n_end n <= 1024 -> n_start n <= s).
Proof.
  intros n o n' o' LD H. unfold NmeaDecode_Decode in H.
  destruct (trimFront n) as [n1|] eqn:TF; [|discriminate].
  apply trimFront_inv in TF as (s1 & TF & ->).
  destruct (decodeLoop _ _ _) as [[[n2 o2]|[[u n2] o2]]|] eqn:DL; try discriminate.
  - injection H as <- <-. apply decodeLoop_sound in DL as (s & p & h1 & h0 & post & F & E & B); [|exact LD].
    exists s, p, h1, h0, post. split; [exact F|]. split; [exact E|]. intros SE EL. cbn in B.
    apply trim_bounds in TF; [|lia|lia]. rewrite u16_small in B by lia. lia.
  - destruct (n_start n2 >? 1); [destruct (shiftLoop _ _ _ _); discriminate|discriminate].
Qed.

Lemma view_split : forall d s l, view d s l -> d = firstn (Z.to_nat s) d ++ l.
Proof. intros d s l [_ <-]. symmetry. apply firstn_skipn. Qed.

(** If the byte behind the end is no '*', the sentence has been received. *)
Lemma found_received : forall n s p h1 h0 post o, found n s p h1 h0 post o ->
  nmea_wf n -> n_start n <= s -> rd (n_data n) (n_end n) <> Some 42 ->
  infix (sentence p h1 h0) (received n).
Proof.
  intros n s p h1 h0 post o (V & _ & _ & _ & _ & SE & RM) (LD & SB & EA & AV) SS NE.
  assert (V' := V). rewrite sentence_layout in V'.
  pose proof (lay_views _ _ _ _ _ _ _ V' eq_refl ltac:(lia)) as LV. cbv zeta in LV.
  destruct LV as (_ & _ & _ & _ & W7 & (_ & _ & _ & _ & B) & P).
  apply view_app in W7. apply view_cons in W7 as (R & _ & _).
  set (e := s + 7 + Z.of_nat (length p)) in *.
  assert (e <> n_end n) by congruence.
  rewrite u16_small in RM by lia.
  assert (ML : s + Z.of_nat (length (sentence p h1 h0)) <= n_end n) by (rewrite sentence_length; lia).
  unfold received, infix.
  exists (firstn (Z.to_nat (s - n_start n)) (skipn (Z.to_nat (n_start n)) (n_data n))).
  exists (firstn (Z.to_nat (n_end n - s - Z.of_nat (length (sentence p h1 h0)))) post).
  assert (EQ : skipn (Z.to_nat (n_start n)) (n_data n) =
            firstn (Z.to_nat (s - n_start n)) (skipn (Z.to_nat (n_start n)) (n_data n)) ++ sentence p h1 h0 ++ post).
  { destruct V as [_ V]. rewrite <- V.
    replace (Z.to_nat s) with (Z.to_nat (s - n_start n) + Z.to_nat (n_start n))%nat by lia.
    rewrite <- skipn_skipn. symmetry. apply firstn_skipn. }
  set (a := firstn (Z.to_nat (s - n_start n)) (skipn (Z.to_nat (n_start n)) (n_data n))) in *.
  assert (LA : length a = Z.to_nat (s - n_start n)).
  { unfold a. rewrite firstn_length, skipn_length. lia. }
  rewrite EQ. rewrite firstn_app. rewrite (firstn_all2 a) by lia.
  rewrite firstn_app. rewrite (firstn_all2 (sentence p h1 h0)) by lia.
  do 3 f_equal. lia.
Qed.

(** ** Completeness for a buffer that holds exactly one sentence *)

Lemma Decode_one : forall n o p h1 h0 post gf,
  length (n_data n) = Z.to_nat 1024 -> n_start n = 0 -> 0 <= n_end n <= 1024 ->
  view (n_data n) 0 (sentence p h1 h0 ++ post) -> ~ In 42 p -> good_checksum p h1 h0 ->
  gga_payload p gf -> gps_arrays (f_gga o) -> short_fields p ->
  (Z.of_nat (length (sentence p h1 h0)) = n_end n \/ 7 + Z.of_nat (length p) = n_end n) ->
  exists g', NmeaDecode_Decode n o =
     Some (true, set_start n (Z.of_nat (length (sentence p h1 h0))), mkFields NMEA_GPGGA g') /\ gga_payload p g'.
Proof.
  intros n o p h1 h0 post gf LD S0 EB V NS GC G GA SH E. pose proof (gga_long _ _ G) as PL.
  pose proof (sentence_length p h1 h0) as SL.
  pose proof V as V'. rewrite sentence_layout in V'.
  pose proof (lay_views _ _ _ _ _ _ _ V' eq_refl ltac:(lia)) as LV. cbv zeta in LV.
  destruct LV as (_ & _ & _ & _ & _ & (_ & _ & _ & _ & B) & _).
  unfold NmeaDecode_Decode, trimFront. rewrite S0.
  rewrite (trim_spec (n_data n) [] _ 0 (layout (str "GPGGA") p h1 h0 post)); auto; try (cbn; lia).
  2:{ right. split; [cbn; lia|]. eexists. reflexivity. }
  cbn [length]. change (0 + Z.of_nat 0) with 0.
  assert (N0 : set_start n 0 = n) by (destruct n; cbn in *; subst; reflexivity). rewrite N0.
  rewrite S0. rewrite u16_small by lia.
  destruct (Z.to_nat (n_end n - 0)) as [|used] eqn:U; [lia|]. cbn [decodeLoop].
  destruct (Z.gtb_spec (Z.of_nat (S used)) 13); [|lia].
  destruct (tryDecode_complete n o p h1 h0 post gf) as (g' & T & G' & GA'); auto; try lia.
  { rewrite S0. exact V. }
  rewrite T. rewrite S0. destruct (Z.eqb_spec (0 + Z.of_nat (length (sentence p h1 h0))) 0); [lia|].
  exists g'. split; [|exact G']. rewrite u16_small by lia. rewrite !Z.add_0_l. reflexivity.
Qed.

(** No bytes left: the cursors go back to the beginning. *)
Lemma Decode_drained : forall n o, length (n_data n) = Z.to_nat 1024 ->
  1 < n_start n -> n_start n = n_end n -> n_end n + n_avail n = 1024 -> 0 <= n_avail n ->
  NmeaDecode_Decode n o = Some (false, mkNmea 0 0 1024 (n_data n), o).
Proof.
  intros n o LD S1 SE EA AV. unfold NmeaDecode_Decode, trimFront. rewrite SE, Z.sub_diag.
  cbn [Z.to_nat trimLoop]. change (Z.to_nat 0) with O. cbn [trimLoop].
  assert (N0 : set_start n (n_end n) = n) by (destruct n; cbn in *; subst; reflexivity). rewrite N0.
  assert (D0 : n_end n - n_start n = 0) by lia. rewrite D0. change (Z.to_nat (u16 0)) with O. cbn [decodeLoop].
  rewrite D0. change (u16 0) with 0. destruct (Z.gtb_spec (n_start n) 1); [|lia]. cbn [shiftLoop].
  rewrite (u16_small (n_avail n + n_start n)) by lia. replace (n_avail n + n_start n) with 1024 by lia. reflexivity.
Qed.

(** No '$' among the received bytes: they are dropped. *)
Lemma Decode_no_dollar : forall n o, nmea_wf n -> ~ In 36 (received n) -> 1 < n_end n ->
  NmeaDecode_Decode n o = Some (false, mkNmea 0 0 1024 (n_data n), o).
Proof.
  intros n o (LD & SB & EA & AV) ND E1. unfold NmeaDecode_Decode, trimFront.
  assert (LR : length (received n) = Z.to_nat (n_end n - n_start n)).
  { unfold received. rewrite firstn_length, skipn_length. lia. }
  rewrite (trim_spec (n_data n) (received n) _ (n_start n)
            (skipn (Z.to_nat (n_end n - n_start n)) (skipn (Z.to_nat (n_start n)) (n_data n)))); auto; try lia.
  2:{ split; [lia|]. unfold received. symmetry. apply firstn_skipn. }
  rewrite LR. replace (n_start n + Z.of_nat (Z.to_nat (n_end n - n_start n))) with (n_end n) by lia.
  unfold set_start. cbn [n_end n_start]. rewrite Z.sub_diag. change (Z.to_nat (u16 0)) with O.
  cbn [decodeLoop n_start n_end n_data n_avail].
  destruct (Z.gtb_spec (n_end n) 1); [|lia]. cbn [shiftLoop]. rewrite Z.sub_diag.
  change (u16 0) with 0. rewrite (u16_small (n_avail n + n_end n)) by lia. replace (n_avail n + n_end n) with 1024 by lia. reflexivity.
Qed.

(** ** One sentence per delivery *)

Lemma Accumulate_ok : forall n c, length (n_data n) = Z.to_nat 1024 -> 0 <= n_end n ->
  n_end n + n_avail n = 1024 -> Z.of_nat (length c) <= n_avail n ->
  NmeaDecode_AccumulateBytes n c =
  Some (true, mkNmea (n_start n) (n_end n + Z.of_nat (length c)) (n_avail n - Z.of_nat (length c))
    (firstn (Z.to_nat (n_end n)) (n_data n) ++ c ++ skipn (Z.to_nat (n_end n) + length c) (n_data n))).
Proof.
  intros n c LD E0 EA L. unfold NmeaDecode_AccumulateBytes. 
  destruct (Z.gtb_spec (Z.of_nat (length c)) (n_avail n)); [lia|]. unfold wr_block.
  destruct (Z.leb_spec 0 (n_end n)); [|lia].
  destruct (Z.leb_spec (n_end n + Z.of_nat (length c)) (Z.of_nat (length (n_data n)))); [|lia]. cbn [andb].
  rewrite !u16_small by lia. reflexivity.
Qed.

Lemma view0 : forall l, view l 0 l.
Proof. intros. split; [lia|reflexivity]. Qed.

(** At most 13 bytes, beginning with '$': kept for later. *)
Lemma Decode_few : forall n o t, n_start n = 0 -> 1 <= n_end n <= 13 -> n_data n = 36 :: t ->
  NmeaDecode_Decode n o = Some (false, n, o).
Proof.
  intros n o t S0 E D. unfold NmeaDecode_Decode, trimFront. rewrite S0, Z.sub_0_r, D.
  destruct (Z.to_nat (n_end n)) eqn:U; [lia|]. cbn [trimLoop]. rewrite rd_cons0.
  rewrite (proj2 (Z.eqb_eq 36 36) eq_refl). cbn [negb].
  assert (N0 : set_start n 0 = n) by (destruct n; cbn in *; subst; reflexivity). rewrite N0.
  rewrite S0, Z.sub_0_r, u16_small by lia. rewrite U. cbn [decodeLoop].
  destruct (Z.gtb_spec (Z.of_nat (S n0)) 13); [lia|]. rewrite S0. reflexivity.
Qed.

Lemma first_piece : forall fuel d o a b m p h1 h0, nmea_empty (gp_dec d) -> m = sentence p h1 h0 ->
  m = a ++ b -> (length a <= 13)%nat -> (1 <= fuel)%nat ->
  exists n, GPS_TaskMethod fuel d o a = Some (Some (mkGpsDev n (gp_state d) (gp_published d))) /\
    length (n_data n) = Z.to_nat 1024 /\ n_start n = 0 /\ n_end n = Z.of_nat (length a) /\
    n_end n + n_avail n = 1024 /\ exists t, n_data n = a ++ t.
Proof.
  intros fuel d o a b m p h1 h0 (LD & S0 & E0 & A0) EM EA LA FU. unfold GPS_TaskMethod.
  destruct a as [|c a].
  - cbn. exists (gp_dec d). split; [destruct d; reflexivity|]. repeat split; auto; try lia. exists (n_data (gp_dec d)). reflexivity.
  - destruct (Z.eqb_spec (Z.of_nat (length (c :: a))) 0); [cbn [length] in *; lia|].
    rewrite Accumulate_ok; try lia. rewrite E0. cbn [Z.to_nat firstn app negb Nat.add]. rewrite Z.add_0_l.
    assert (c = 36) as ->. { subst m. unfold sentence in EA. now injection EA as <- _. }
    destruct fuel; [lia|]. cbn [decodeAll gp_dec].
    erewrite Decode_few; [|exact S0|cbn [n_end length] in *; lia|cbn [n_data]; change (Z.to_nat 0) with O; reflexivity].
    eexists. split; [reflexivity|]. cbn [n_start n_end n_data n_avail].
    split; [|split; [exact S0|split; [reflexivity|split; [lia|]]]].
    + change (Z.to_nat 0) with O. cbn [firstn app length Nat.add]. rewrite app_length, skipn_length. cbn [length] in *. lia.
    + eexists. change (Z.to_nat 0) with O. reflexivity.
Qed.

Lemma second_piece : forall fuel d o a b m p h1 h0 gf t, m = sentence p h1 h0 -> m = a ++ b ->
  ~ In 42 p -> good_checksum p h1 h0 -> gga_payload p gf -> short_fields m -> (length m <= Z.to_nat 1024)%nat ->
  gps_arrays (f_gga o) -> (length a <= 13)%nat -> (2 <= fuel)%nat ->
  length (n_data (gp_dec d)) = Z.to_nat 1024 -> n_start (gp_dec d) = 0 -> n_end (gp_dec d) = Z.of_nat (length a) ->
  n_end (gp_dec d) + n_avail (gp_dec d) = 1024 -> n_data (gp_dec d) = a ++ t ->
  exists d' g, GPS_TaskMethod fuel d o b = Some (Some d') /\ nmea_empty (gp_dec d') /\
    gp_published d' = gp_published d ++ [g] /\ gp_state d' = g /\ gga_payload p g.
Proof.
  intros fuel d o a b m p h1 h0 gf t EM EA NS GC G SH LM GA LA FU LD S0 E0 AV DT.
  pose proof (gga_long _ _ G) as PL. pose proof (sentence_length p h1 h0) as SL. rewrite <- EM in SL.
  assert (LAB : length m = (length a + length b)%nat) by (rewrite EA, app_length; reflexivity).
  unfold GPS_TaskMethod. destruct (Z.eqb_spec (Z.of_nat (length b)) 0); [lia|].
  rewrite Accumulate_ok; try lia. cbn [negb]. rewrite E0, Nat2Z.id, DT.
  rewrite firstn_exact by reflexivity. rewrite app_assoc, <- EA.
  set (post := skipn (length a + length b) (a ++ t)).
  set (n1 := mkNmea _ _ _ _).
  assert (LP : length (m ++ post) = Z.to_nat 1024).
  { unfold post. rewrite app_length, skipn_length, <- DT, LD. lia. }
  destruct fuel as [|[|fuel]]; try lia. cbn [decodeAll gp_dec].
  destruct (Decode_one n1 o p h1 h0 post gf) as (g & D1 & G1); auto.
  - unfold n1. cbn [n_end]. lia.
  - unfold n1. cbn [n_data]. rewrite EM. apply view0.
  - unfold sentence in EM. apply (short_infix m (str "$GPGGA,") p (str "*" ++ [h1; h0; 13; 10])); assumption.
  - left. unfold n1. cbn [n_end]. rewrite <- EM. lia.
  - rewrite D1. cbn [f_type f_gga]. rewrite <- EM. cbn [pushGPGGA gp_dec].
    rewrite (Decode_drained (set_start n1 (Z.of_nat (length m)))); auto;
      unfold n1; cbn [set_start n_start n_end n_avail n_data]; try lia.
    eexists _, g. split; [reflexivity|]. cbn [gp_dec gp_published gp_state pushGPGGA].
    split; [|auto]. repeat split; cbn [n_data n_start n_end n_avail]; auto.
Qed.

Lemma one_delivery : forall fuel d x, (2 <= fuel)%nat -> nmea_empty (gp_dec d) -> dl_ok x ->
  exists d' g, gps_run fuel d (dl_chunks x) = Some (Some d') /\ nmea_empty (gp_dec d') /\
    gp_published d' = gp_published d ++ [g] /\ gp_state d' = g /\ valid_sentence (dl_text x) g.
Proof.
  intros fuel d [a b o1 o2] FU EM ((gf & p & h1 & h0 & E & NS & GC & G) & SH & LM & LA & GA).
  unfold dl_text, dl_chunks in *. cbn [dl_first dl_second dl_o1 dl_o2] in *.
  destruct (first_piece fuel d o1 a b (a ++ b) p h1 h0 EM E eq_refl LA ltac:(lia))
    as (n & T1 & LD & S0 & E0 & AV & t & DT).
  destruct (second_piece fuel (mkGpsDev n (gp_state d) (gp_published d)) o2 a b (a ++ b) p h1 h0 gf t E eq_refl NS GC G SH LM GA LA FU LD S0 E0 AV DT)
    as (d' & g & T2 & EM' & PB & ST & G').
  exists d', g. cbn [gps_run]. rewrite T1, T2. split; [reflexivity|]. split; [exact EM'|].
  split; [exact PB|]. split; [exact ST|]. exists p, h1, h0. auto.
Qed.

Lemma gps_run_app : forall fuel h1 h2 d, gps_run fuel d (h1 ++ h2) =
  match gps_run fuel d h1 with
  | None => None | Some None => Some None | Some (Some d') => gps_run fuel d' h2 end.
Proof.
  induction h1 as [|[c o] h1 IH]; intros h2 d; [reflexivity|]. cbn [app gps_run].
  destruct (GPS_TaskMethod fuel d o c) as [[d'|]|]; auto.
Qed.

Lemma last_indep : forall A (l : list A) x a b, last (x :: l) a = last (x :: l) b.
Proof. induction l as [|y l IH]; intros x a b; [reflexivity|]. exact (IH y a b). Qed.

Lemma deliveries : forall fuel ds d, (2 <= fuel)%nat -> nmea_empty (gp_dec d) -> Forall dl_ok ds ->
  exists d' gs, gps_run fuel d (flat_map dl_chunks ds) = Some (Some d') /\ nmea_empty (gp_dec d') /\
    gp_published d' = gp_published d ++ gs /\ gp_state d' = last gs (gp_state d) /\
    Forall2 (fun x g => valid_sentence (dl_text x) g) ds gs.
Proof.
  intros fuel ds. induction ds as [|x ds IH]; intros d FU EM F.
  - exists d, []. cbn. rewrite app_nil_r. auto.
  - apply Forall_cons_iff in F as [F1 F]. destruct (one_delivery fuel d x FU EM F1) as (d1 & g & R & EM1 & PB & ST & V).
    destruct (IH d1 FU EM1 F) as (d2 & gs & R2 & EM2 & PB2 & ST2 & V2).
    exists d2, (g :: gs). cbn [flat_map]. rewrite gps_run_app, R, R2. split; [reflexivity|]. split; [exact EM2|].
    split; [rewrite PB2, PB, <- app_assoc; reflexivity|]. split; [|now constructor].
    rewrite ST2, ST. destruct gs as [|g0 gs]; [reflexivity|]. change (last (g :: g0 :: gs) (gp_state d)) with (last (g0 :: gs) (gp_state d)).
    apply last_indep.
Qed.

(** ** Where it goes wrong *)

(** Cursor behind the end, zeros from there on: the search leaves the array. *)
Lemma overshoot_loop : forall k used n o, length (n_data n) = Z.to_nat 1024 ->
  0 <= n_end n < n_start n -> n_start n <= 3000 -> Z.to_nat (1024 - n_start n) = k -> (k + 14 <= used)%nat ->
  (forall i, n_start n <= i < 1024 -> rd (n_data n) i = Some 0) ->
  decodeLoop used n o = None.
Proof.
  induction k; intros used n o LD SE S3 K U Zs; destruct used as [|used]; try lia; cbn [decodeLoop];
    (destruct (Z.gtb_spec (Z.of_nat (S used)) 13); [|lia]).
  - unfold tryDecode. destruct (Z.eqb_spec (n_end n) (n_start n)); [lia|].
    assert (UU : u16 (n_end n - n_start n) = 65536 + n_end n - n_start n).
    { unfold u16. change (2 ^ 16) with 65536. symmetry. apply Z.mod_unique with (-1); lia. }
    rewrite UU. destruct (Z.ltb_spec (65536 + n_end n - n_start n) 13); [lia|].
    unfold rd at 1. destruct (Z.ltb_spec (n_start n) (Z.of_nat (length (n_data n)))); [lia|reflexivity].
  - rewrite (tryDecode_not_dollar n o 0) by (try (apply Zs; lia); lia). cbn [Z.eqb].
    destruct (Z.eqb_spec 0 0); [|lia]. apply IHk; cbn [set_start n_data n_end n_start]; auto; rewrite ?u16_small by lia; try lia.
    intros i I. apply Zs. lia.
Qed.

Lemma overshoot_Decode : forall n o, length (n_data n) = Z.to_nat 1024 ->
  0 <= n_end n < n_start n -> n_start n <= 3000 ->
  (forall i, n_start n <= i < 1024 -> rd (n_data n) i = Some 0) ->
  NmeaDecode_Decode n o = None.
Proof.
  intros n o LD SE S3 Zs. unfold NmeaDecode_Decode, trimFront.
  replace (Z.to_nat (n_end n - n_start n)) with O by lia. cbn [trimLoop].
  assert (N0 : set_start n (n_start n) = n) by (destruct n; reflexivity). rewrite N0.
  assert (UU : u16 (n_end n - n_start n) = 65536 + n_end n - n_start n).
  { unfold u16. change (2 ^ 16) with 65536. symmetry. apply Z.mod_unique with (-1); lia. }
  rewrite UU. rewrite (overshoot_loop (Z.to_nat (1024 - n_start n))); auto. lia.
Qed.

Lemma zeros_tail : forall m i, (length m <= Z.to_nat 1024)%nat -> Z.of_nat (length m) <= i < 1024 ->
  rd (m ++ skipn (length m) (repeat 0 (Z.to_nat 1024))) i = Some 0.
Proof.
  intros m i L I. 
  assert (SR : forall n k, skipn k (repeat 0 n) = repeat 0 (n - k)).
  { clear. induction n; intros [|k]; simpl; auto. }
  rewrite SR. rewrite (rd_nth Z _ i 7) by (rewrite app_length, repeat_length; lia).
  rewrite app_nth2 by lia. f_equal. 
  assert (NR : forall n k, (k < n)%nat -> nth k (repeat 0 n) 7 = 0).
  { clear. induction n; intros [|k] K; simpl; try lia. apply IHn. lia. }
  apply NR. lia.
Qed.

Lemma fresh_len : length (n_data fresh) = Z.to_nat 1024.
Proof. cbn [fresh n_data]. apply repeat_length. Qed.

(** A chunk into the fresh decoder. *)
Lemma fresh_chunk : forall c, (length c <= Z.to_nat 1024)%nat ->
  NmeaDecode_AccumulateBytes fresh c =
  Some (true, mkNmea 0 (Z.of_nat (length c)) (1024 - Z.of_nat (length c))
          (c ++ skipn (length c) (repeat 0 (Z.to_nat 1024)))).
Proof.
  intros c L. rewrite Accumulate_ok; [|exact fresh_len|cbn; lia|cbn; lia|cbn [fresh n_avail]; lia].
  cbn [fresh n_start n_end n_avail n_data]. rewrite Z.add_0_l. change (Z.to_nat 0) with O. reflexivity.
Qed.

Lemma chunk_len : forall c : list Z, (length c <= Z.to_nat 1024)%nat ->
  length (c ++ skipn (length c) (repeat 0 (Z.to_nat 1024))) = Z.to_nat 1024.
Proof. intros. rewrite app_length, skipn_length, repeat_length. lia. Qed.

(** Anything before the sentence, without a '$' of its own or another sentence. *)
Lemma Decode_at : forall n o s p h1 h0 post gf,
  length (n_data n) = Z.to_nat 1024 -> 0 <= n_start n <= s -> n_end n <= 1024 ->
  (n_start n = s \/ exists j, view (n_data n) (n_start n) (j ++ sentence p h1 h0 ++ post) /\ ~ In 36 j /\ n_start n + Z.of_nat (length j) = s) ->
  view (n_data n) s (sentence p h1 h0 ++ post) -> ~ In 42 p -> good_checksum p h1 h0 ->
  gga_payload p gf -> gps_arrays (f_gga o) -> short_fields p ->
  s + Z.of_nat (length (sentence p h1 h0)) <= n_end n ->
  exists g', NmeaDecode_Decode n o =
     Some (true, set_start n (s + (s + Z.of_nat (length (sentence p h1 h0)))), mkFields NMEA_GPGGA g') /\
     gga_payload p g' /\ gps_arrays g'.
Proof.
  intros n o s p h1 h0 post gf LD SB EB J V NS GC G GA SH E. pose proof (gga_long _ _ G) as PL.
  pose proof (sentence_length p h1 h0) as SL.
  assert (J' : exists j, view (n_data n) (n_start n) (j ++ sentence p h1 h0 ++ post) /\ ~ In 36 j /\ n_start n + Z.of_nat (length j) = s).
  { destruct J as [->|J]; [|exact J]. exists []. split; [exact V|]. split; [tauto|cbn; lia]. }
  clear J. destruct J' as (j & VJ & NJ & LJ).
  unfold NmeaDecode_Decode, trimFront.
  rewrite (trim_spec (n_data n) j _ (n_start n) (sentence p h1 h0 ++ post)); auto; try lia.
  2:{ right. split; [lia|]. eexists. reflexivity. }
  rewrite LJ. cbn [set_start n_end n_start]. rewrite u16_small by lia.
  destruct (Z.to_nat (n_end n - s)) as [|used] eqn:U; [lia|]. cbn [decodeLoop].
  destruct (Z.gtb_spec (Z.of_nat (S used)) 13); [|lia].
  destruct (tryDecode_complete (set_start n s) o p h1 h0 post gf) as (g' & T & G' & GA'); auto; try lia; cbn [set_start n_data n_start n_end] in *; try lia.
  rewrite T. destruct (Z.eqb_spec (s + Z.of_nat (length (sentence p h1 h0))) 0); [lia|].
  exists g'. split; [|auto]. rewrite u16_small by lia. reflexivity.
Qed.

(** A sentence that does not start at the beginning of the buffer: the next call
    of the decoder leaves its array. *)
Lemma late_sentence : forall fuel g o j p h1 h0 gf, 
  ~ In 36 j -> j <> [] -> ~ In 42 p -> good_checksum p h1 h0 -> gga_payload p gf -> gps_arrays (f_gga o) ->
  short_fields p -> (length (j ++ sentence p h1 h0) <= Z.to_nat 1024)%nat -> (2 <= fuel)%nat ->
  GPS_TaskMethod fuel (fresh_gps g) o (j ++ sentence p h1 h0) = None.
Proof.
  intros fuel g o j p h1 h0 gf NJ JN NS GC G GA SH L FU. unfold GPS_TaskMethod.
  pose proof (sentence_length p h1 h0) as SL. 
  assert (LJ : length (j ++ sentence p h1 h0) = (length j + length (sentence p h1 h0))%nat) by apply app_length.
  destruct (Z.eqb_spec (Z.of_nat (length (j ++ sentence p h1 h0))) 0); [lia|].
  cbn [fresh_gps gp_dec]. rewrite fresh_chunk by exact L. cbn [negb].
  set (c := j ++ sentence p h1 h0) in *. set (post := skipn (length c) (repeat 0 (Z.to_nat 1024))).
  pose proof (chunk_len c L) as CL. fold post in CL.
  assert (VJ : view (c ++ post) 0 (j ++ sentence p h1 h0 ++ post)).
  { unfold c. rewrite <- app_assoc. apply view0. }
  assert (V : view (c ++ post) (Z.of_nat (length j)) (sentence p h1 h0 ++ post)).
  { apply view_app in VJ. exact VJ. }
  destruct fuel as [|[|fuel]]; try lia. cbn [decodeAll gp_dec].
  destruct (Decode_at (mkNmea 0 (Z.of_nat (length c)) (1024 - Z.of_nat (length c)) (c ++ post)) o (Z.of_nat (length j)) p h1 h0 post gf)
    as (g' & D & G' & _); cbn [n_start n_end n_data]; auto; try lia.
  { right. exists j. split; [exact VJ|]. split; [exact NJ|lia]. }
  rewrite D. cbn [f_type f_gga pushGPGGA gp_dec].
  rewrite overshoot_Decode; [reflexivity|..]; cbn [set_start n_data n_start n_end]; auto.
  - destruct j; [congruence|]. cbn [length] in *. lia.
  - lia.
  - intros i I. apply zeros_tail; [exact L|]. destruct j; [congruence|]. cbn [length] in *. lia.
Qed.

(** Two sentences in one chunk. *)
Lemma two_sentences : forall fuel g o p h1 h0 gf p' h1' h0' gf',
  ~ In 42 p -> good_checksum p h1 h0 -> gga_payload p gf -> gps_arrays (f_gga o) -> short_fields p ->
  ~ In 42 p' -> good_checksum p' h1' h0' -> gga_payload p' gf' -> short_fields p' ->
  (length (sentence p h1 h0 ++ sentence p' h1' h0') <= Z.to_nat 1024)%nat -> (3 <= fuel)%nat ->
  GPS_TaskMethod fuel (fresh_gps g) o (sentence p h1 h0 ++ sentence p' h1' h0') = None.
Proof.
  intros fuel g o p h1 h0 gf p' h1' h0' gf' NS GC G GA SH NS' GC' G' SH' L FU. unfold GPS_TaskMethod.
  pose proof (sentence_length p h1 h0) as SL. pose proof (sentence_length p' h1' h0') as SL'.
  set (m := sentence p h1 h0) in *. set (m' := sentence p' h1' h0') in *.
  assert (LJ : length (m ++ m') = (length m + length m')%nat) by apply app_length.
  destruct (Z.eqb_spec (Z.of_nat (length (m ++ m'))) 0); [lia|].
  cbn [fresh_gps gp_dec]. rewrite fresh_chunk by exact L. cbn [negb].
  set (c := m ++ m') in *. set (post := skipn (length c) (repeat 0 (Z.to_nat 1024))).
  pose proof (chunk_len c L) as CL. fold post in CL.
  assert (V0 : view (c ++ post) 0 (m ++ (m' ++ post))).
  { unfold c. rewrite <- app_assoc. apply view0. }
  assert (V : view (c ++ post) (Z.of_nat (length m)) (m' ++ post)).
  { apply view_app in V0. exact V0. }
  destruct fuel as [|[|[|fuel]]]; try lia. cbn [decodeAll gp_dec].
  destruct (Decode_at (mkNmea 0 (Z.of_nat (length c)) (1024 - Z.of_nat (length c)) (c ++ post)) o 0 p h1 h0 (m' ++ post) gf)
    as (g1 & D & G1 & GA1); cbn [n_start n_end n_data]; auto; try lia.
  { fold m. lia. }
  rewrite D. fold m. cbn [f_type f_gga pushGPGGA gp_dec gp_state gp_published]. rewrite !Z.add_0_l.
  destruct (Decode_at (set_start (mkNmea 0 (Z.of_nat (length c)) (1024 - Z.of_nat (length c)) (c ++ post)) (Z.of_nat (length m)))
     (mkFields NMEA_GPGGA g1) (Z.of_nat (length m)) p' h1' h0' post gf')
    as (g2 & D2 & G2 & _); cbn [set_start n_start n_end n_data]; auto; try lia.
  { fold m'. lia. }
  rewrite D2. fold m'. cbn [f_type f_gga pushGPGGA gp_dec gp_state gp_published].
  rewrite overshoot_Decode; [reflexivity|..]; cbn [set_start n_data n_start n_end]; auto; try lia.
  intros i I. apply zeros_tail; [exact L|]. lia.
Qed.

(** ** A sentence in two larger pieces *)

Lemma view_upd : forall d i k c l, view d i l -> (Z.of_nat k < i) -> view (upd d k c) i l.
Proof. intros d i k c l [P E] K. split; [exact P|]. rewrite skipn_upd by lia. exact E. Qed.

Lemma shift_spec : forall q d start i t, view d (Z.of_nat i + start) (q ++ t) -> 1 <= start ->
  Z.of_nat i + start + Z.of_nat (length q) <= Z.of_nat (length d) ->
  shiftLoop d start (length q) (Z.of_nat i) = Some (firstn i d ++ q ++ skipn (i + length q) d).
Proof.
  induction q as [|c q IH]; intros d start i t V S1 L; cbn [length] in *.
  - cbn [shiftLoop app]. rewrite Nat.add_0_r, firstn_skipn. reflexivity.
  - cbn [app] in V. pose proof V as V0. apply view_cons in V as (R & V' & _). cbn [shiftLoop]. rewrite R.
    rewrite wr_in by lia. replace (Z.of_nat i + 1) with (Z.of_nat (S i)) by lia.
    rewrite (IH (upd d i c) start (S i) t).
    + rewrite firstn_upd by lia. rewrite skipn_upd by lia. rewrite <- app_assoc. cbn [app].
      replace (i + S (length q))%nat with (S i + length q)%nat by lia. reflexivity.
    + apply view_upd; [|lia]. replace (Z.of_nat (S i) + start) with (Z.of_nat i + start + 1) by lia. exact V'.
    + exact S1.
    + rewrite upd_length. lia.
Qed.

Lemma loop_no_dollar : forall used n o, 
  (length (n_data n) <= Z.to_nat 1024)%nat -> 0 <= n_start n -> n_start n + Z.of_nat used <= Z.of_nat (length (n_data n)) ->
  (forall i, n_start n <= i < n_start n + Z.of_nat used -> rd (n_data n) i <> Some 36) ->
  exists o', decodeLoop used n o =
    Some (inr (Nat.min used 13, set_start n (n_start n + Z.of_nat (used - 13)), o')).
Proof.
  induction used; intros n o LD S0 L ND; cbn [decodeLoop].
  - exists o. cbn. rewrite Z.add_0_r. destruct n; reflexivity.
  - destruct (Z.gtb_spec (Z.of_nat (S used)) 13) as [G|G].
    + destruct (rd_some Z (n_data n) (n_start n)) as (c & R); [lia|].
      rewrite (tryDecode_not_dollar n o c R) by (intros ->; apply (ND (n_start n)); [lia|exact R]).
      destruct (Z.eqb_spec 0 0); [|lia]. rewrite u16_small by lia.
      destruct (IHused (set_start n (n_start n + 1)) (mkFields NMEA_NULL (f_gga o))) as (o' & E);
        cbn [set_start n_data n_start] in *; try lia.
      { intros i I. apply ND. lia. }
      exists o'. rewrite E. unfold set_start. cbn [n_start n_end n_avail n_data].
      replace (Nat.min used 13) with (Nat.min (S used) 13) by lia.
      replace (n_start n + 1 + Z.of_nat (used - 13)) with (n_start n + Z.of_nat (S used - 13)) by lia. reflexivity.
    + exists o. replace (Nat.min (S used) 13) with (S used) by lia.
      replace (S used - 13)%nat with O by lia. rewrite Z.add_0_r. destruct n; reflexivity.
Qed.

Lemma received_of : forall n t, 0 <= n_start n <= n_end n -> n_end n <= Z.of_nat (length (n_data n)) ->
  forall r, view (n_data n) (n_start n) (r ++ t) -> Z.of_nat (length r) = n_end n - n_start n -> received n = r.
Proof.
  intros n t SB EB r [_ V] L. unfold received. rewrite V, <- L, Nat2Z.id. apply firstn_exact. reflexivity.
Qed.

Lemma received_len : forall n, nmea_wf n -> Z.of_nat (length (received n)) = n_end n - n_start n.
Proof. intros n (LD & SB & EA & AV). unfold received. rewrite firstn_length, skipn_length. lia. Qed.

Lemma Accumulate_received : forall n c, nmea_wf n -> Z.of_nat (length c) <= n_avail n ->
  exists n', NmeaDecode_AccumulateBytes n c = Some (true, n') /\ nmea_wf n' /\
    received n' = received n ++ c /\ n_end n' = n_end n + Z.of_nat (length c) /\ n_start n' = n_start n.
Proof.
  intros n c W L. pose proof W as (LD & SB & EA & AV). rewrite Accumulate_ok by (auto; lia).
  eexists. split; [reflexivity|].
  assert (LL : length (firstn (Z.to_nat (n_end n)) (n_data n) ++ c ++ skipn (Z.to_nat (n_end n) + length c) (n_data n)) = Z.to_nat 1024).
  { rewrite !app_length, firstn_length, skipn_length. lia. }
  split; [|split; [|split; reflexivity]].
  - unfold nmea_wf. cbn [n_data n_start n_end n_avail]. repeat split; auto; lia.
  - pose proof (received_len n W) as RL.
    apply received_of with (t := skipn (Z.to_nat (n_end n) + length c) (n_data n)); cbn [n_data n_start n_end]; try lia.
    + split; [lia|]. rewrite skipn_app. rewrite firstn_length.
      replace (Z.to_nat (n_start n) - Nat.min (Z.to_nat (n_end n)) (length (n_data n)))%nat with O by lia.
      cbn [skipn]. rewrite <- app_assoc. f_equal. unfold received.
      rewrite skipn_firstn_comm. f_equal. lia.
    + rewrite app_length. lia.
Qed.

Lemma sentence_one_dollar : forall p h1 h0, good_checksum p h1 h0 -> ~ In 36 p ->
  exists r, sentence p h1 h0 = 36 :: r /\ ~ In 36 r.
Proof.
  intros p h1 h0 (v1 & v0 & X1 & X0 & _) NP. eexists. split; [reflexivity|].
  assert (h1 <> 36) by (unfold hex_digit in X1; lia). assert (h0 <> 36) by (unfold hex_digit in X0; lia).
  intros I. change (In 36 (str "GPGGA," ++ p ++ str "*" ++ [h1; h0; 13; 10])) in I.
  apply in_app_or in I as [I|I]; [cbn in I; lia|]. apply in_app_or in I as [I|I]; [tauto|].
  cbn in I. lia.
Qed.

(** The beginning of a sentence in a fresh buffer is not decoded. *)
Lemma tryDecode_incomplete : forall o a b p h1 h0, sentence p h1 h0 = a ++ b -> b <> [] -> (14 <= length a)%nat ->
  ~ In 42 p -> (length (sentence p h1 h0) <= Z.to_nat 1024)%nat ->
  tryDecode (mkNmea 0 (Z.of_nat (length a)) (1024 - Z.of_nat (length a)) (a ++ skipn (length a) (repeat 0 (Z.to_nat 1024)))) o
  = Some (0, mkFields NMEA_NULL (f_gga o)).
Proof.
  intros o a b p h1 h0 E BN LA NS LM.
  assert (LB : (1 <= length b)%nat) by (destruct b; [congruence|cbn [length]; lia]).
  assert (LE : length (sentence p h1 h0) = (length a + length b)%nat) by (rewrite E; apply app_length).
  pose proof (sentence_length p h1 h0) as SL.
  assert (exists q, a = str "$GPGGA," ++ q /\ q ++ b = p ++ 42 :: h1 :: h0 :: 13 :: 10 :: []) as (q & -> & Q).
  { exists (skipn 7 a). 
    destruct a as [|a0 [|a1 [|a2 [|a3 [|a4 [|a5 [|a6 a]]]]]]]; cbn [length] in LA; try lia.
    unfold sentence in E. injection E as <- <- <- <- <- <- <- E. split; [reflexivity|]. now symmetry. }
  rewrite !app_length in *. change (length (str "$GPGGA,")) with 7%nat in *.
  set (z := skipn (7 + length q) (repeat 0 (Z.to_nat 1024))).
  assert (LZ : length z = (Z.to_nat 1024 - (7 + length q))%nat) by (unfold z; rewrite skipn_length, repeat_length; reflexivity).
  assert (exists z', z = 0 :: z') as (z' & EZ).
  { unfold z. assert (SR : forall n k, skipn k (repeat 0 n) = repeat 0 (n - k)).
    { clear. induction n; intros [|k]; simpl; auto. }
    rewrite SR. destruct (Z.to_nat 1024 - (7 + length q))%nat eqn:U; [lia|]. eexists. reflexivity. }
  rewrite EZ in *. cbn [length] in LZ.
  set (d := (str "$GPGGA," ++ q) ++ 0 :: z').
  assert (LD : length d = Z.to_nat 1024).
  { unfold d. rewrite !app_length. change (length (str "$GPGGA,")) with 7%nat. cbn [length]. lia. }
  assert (V7 : view d 7 (q ++ 0 :: z')).
  { change 7 with (0 + Z.of_nat (length (str "$GPGGA,"))). apply view_app. unfold d. rewrite <- app_assoc. apply view0. }
  unfold tryDecode. cbn [n_start n_end n_data]. fold d.
  destruct (Z.eqb_spec (Z.of_nat (7 + length q)) 0); [lia|].
  rewrite u16_small by lia. destruct (Z.ltb_spec (Z.of_nat (7 + length q) - 0) 13); [lia|].
  assert (R0 : rd d 0 = Some 36) by apply rd_cons0. rewrite R0.
  rewrite (proj2 (Z.eqb_eq 36 36) eq_refl). cbn [negb].
  change (u16 (0 + 1)) with 1.
  assert (RB : rd_block d 1 5 = Some (str "GPGGA")).
  { apply (view_block d 1 (str "GPGGA") (44 :: q ++ 0 :: z')); [split; [lia|reflexivity]|].
    change (length (str "GPGGA")) with 5%nat. lia. }
  rewrite RB. change (u16 (1 + 5)) with 6.
  assert (R6 : rd d 6 = Some 44).
  { apply (rd_mid Z (str "$GPGGA") 44 (q ++ 0 :: z')). reflexivity. }
  rewrite R6. rewrite (proj2 (Z.eqb_eq 44 44) eq_refl). cbn [negb]. change (u16 (1 + 6)) with 7.
  apply app_eq_app in Q as (l & [[Q1 Q2]|[Q1 Q2]]).
  - (* the '*' may have been received *)
    destruct l as [|l0 l].
    + rewrite app_nil_r in Q1. subst q.
      rewrite (star_none d (p ++ [0]) _ 7 z'); [reflexivity|..]; try lia.
      * rewrite <- app_assoc. exact V7.
      * intros I. apply in_app_or in I as [I|[I|[]]]; [tauto|lia].
      * rewrite app_length. cbn [length]. lia.
    + cbn [app] in Q2. injection Q2 as <- Q2. subst q. rewrite <- app_assoc in V7. cbn [app] in V7.
      rewrite (star_found d p _ 7 _ V7 NS); [|rewrite app_length; lia|lia].
      assert (LL : (length l <= 3)%nat).
      { apply (f_equal (@length Z)) in Q2. rewrite app_length in Q2. cbn [length] in Q2. lia. }
      unfold locateMsgEnd. rewrite app_length in *. cbn [length] in *.
      rewrite (u16_small (7 + Z.of_nat (length p) + 1)) by lia.
      rewrite u16_small by lia.
      destruct (Z.ltb_spec (Z.of_nat (7 + (length p + S (length l))) - (7 + Z.of_nat (length p) + 1)) 4); [reflexivity|lia].
  - rewrite (star_none d (q ++ [0]) _ 7 z'); [reflexivity|..]; try lia.
    + rewrite <- app_assoc. exact V7.
    + intros I. apply in_app_or in I as [I|[I|[]]]; [|lia]. apply NS. rewrite Q1. apply in_or_app. now left.
    + rewrite app_length. cbn [length]. lia.
Qed.

Lemma split_first : forall o a b p h1 h0, sentence p h1 h0 = a ++ b -> b <> [] -> (14 <= length a)%nat ->
  ~ In 42 p -> ~ In 36 p -> good_checksum p h1 h0 -> (length (sentence p h1 h0) <= Z.to_nat 1024)%nat ->
  exists n o', NmeaDecode_Decode (mkNmea 0 (Z.of_nat (length a)) (1024 - Z.of_nat (length a)) (a ++ skipn (length a) (repeat 0 (Z.to_nat 1024)))) o
   = Some (false, n, o') /\ nmea_wf n /\ ~ In 36 (received n) /\ 13 <= n_end n <= Z.of_nat (length a).
Proof.
  intros o a b p h1 h0 E BN LA NS ND GC LM.
  pose proof (tryDecode_incomplete o a b p h1 h0 E BN LA NS LM) as TI.
  assert (LE : length (sentence p h1 h0) = (length a + length b)%nat) by (rewrite E; apply app_length).
  destruct (sentence_one_dollar p h1 h0 GC ND) as (r & ER & NR).
  assert (exists a', a = 36 :: a' /\ ~ In 36 a') as (a' & EA & NA).
  { destruct a as [|x a']; [cbn in LA; lia|]. rewrite ER in E. injection E as <- E. exists a'. split; [reflexivity|].
    intros I. apply NR. rewrite E. apply in_or_app. now left. }
  pose proof (chunk_len a ltac:(lia)) as CL. set (z := skipn (length a) (repeat 0 (Z.to_nat 1024))) in *.
  set (n := mkNmea _ _ _ _) in *.
  unfold NmeaDecode_Decode, trimFront. 
  rewrite (trim_spec (n_data n) [] _ (n_start n) (a ++ z)); cbn [n n_data n_start n_end]; auto; try (cbn [length]; lia); [|apply view0|].
  2:{ right. split; [cbn [length]; lia|]. rewrite EA. eexists. reflexivity. }
  cbn [length]. change (0 + Z.of_nat 0) with 0.
  assert (N0 : set_start n 0 = n) by reflexivity. fold n. rewrite N0. cbn [n n_start n_end]. fold n.
  rewrite Z.sub_0_r, u16_small by lia. rewrite Nat2Z.id.
  assert (LA' : length a = S (length a')) by (rewrite EA; reflexivity).
  replace (decodeLoop (length a) n o) with (decodeLoop (S (length a')) n o) by (now rewrite LA').
  cbn [decodeLoop]. destruct (Z.gtb_spec (Z.of_nat (S (length a'))) 13); [|lia].
  rewrite TI. destruct (Z.eqb_spec 0 0); [|lia]. cbn [n n_start]. fold n. change (u16 (0 + 1)) with 1.
  assert (V1 : view (a ++ z) 1 (a' ++ z)) by (split; [lia|rewrite EA; reflexivity]).
  destruct (loop_no_dollar (length a') (set_start n 1) (mkFields NMEA_NULL (f_gga o))) as (o' & DL);
    cbn [set_start n_data n_start n]; try lia.
  { intros i I R. apply view_rd in R as (t & R); [|lia]. destruct V1 as [_ V1]. destruct R as [_ R].
    replace (Z.to_nat i) with (Z.to_nat (i - 1) + Z.to_nat 1)%nat in R by lia.
    rewrite <- skipn_skipn, V1 in R. rewrite skipn_app in R.
    replace (Z.to_nat (i - 1) - length a')%nat with O in R by lia. cbn [skipn] in R.
    destruct (skipn (Z.to_nat (i - 1)) a') as [|y u] eqn:SK.
    { apply (f_equal (@length Z)) in SK. rewrite skipn_length in SK. cbn in SK. lia. }
    injection R as -> _. apply NA. rewrite <- (firstn_skipn (Z.to_nat (i - 1)) a'), SK. apply in_or_app. right. now left. }
  rewrite DL. cbn [set_start n_start n_end n_avail n_data n]. 
  replace (Nat.min (length a') 13) with 13%nat by lia.
  set (s := 1 + Z.of_nat (length a' - 13)).
  (* the last 13 bytes *)
  set (q := skipn (length a' - 13) a').
  assert (LQ : length q = 13%nat) by (unfold q; rewrite skipn_length; lia).
  assert (VS : view (a ++ z) s (q ++ z)).
  { split; [unfold s; lia|]. unfold s. 
    replace (Z.to_nat (1 + Z.of_nat (length a' - 13))) with ((length a' - 13) + Z.to_nat 1)%nat by lia.
    rewrite <- skipn_skipn. destruct V1 as [_ ->]. rewrite skipn_app.
    replace (length a' - 13 - length a')%nat with O by lia. reflexivity. }
  assert (NQ : ~ In 36 q).
  { intros I. apply NA. rewrite <- (firstn_skipn (length a' - 13) a'). apply in_or_app. now right. }
  destruct (Z.gtb_spec s 1).
  - pose proof (shift_spec q (a ++ z) s 0 z) as SS. cbn [length] in SS. change (Z.of_nat 0) with 0 in SS.
    rewrite LQ in SS. rewrite SS; [|exact VS|lia|unfold s; lia].
    cbn [firstn app Nat.add]. eexists _, o'. split; [reflexivity|].
    rewrite (u16_small (Z.of_nat (length a) - s)) by (unfold s; lia).
    rewrite (u16_small (1024 - Z.of_nat (length a) + s)) by (unfold s; lia).
    assert (LL : length (q ++ skipn 13 (a ++ z)) = Z.to_nat 1024) by (rewrite app_length, skipn_length, LQ, CL; lia).
    split; [unfold nmea_wf; cbn [n_data n_start n_end n_avail]; repeat split; auto; unfold s; lia|].
    split; [|cbn [n_end]; unfold s; lia].
    rewrite (received_of _ (skipn 13 (a ++ z))) with (r := q); cbn [n_data n_start n_end]; auto; try (unfold s; lia). apply view0.
  - eexists _, o'. split; [reflexivity|]. unfold set_start, n. cbn [n_data n_start n_end n_avail].
    split; [unfold nmea_wf; cbn [n_data n_start n_end n_avail]; repeat split; auto; unfold s; lia|].
    split; [|cbn [n_end]; lia].
    rewrite (received_of _ z) with (r := q); cbn [n_data n_start n_end]; auto; unfold s in *; try lia.
Qed.

Lemma split_lost : forall fuel g o1 o2 a b p h1 h0, sentence p h1 h0 = a ++ b -> b <> [] -> (14 <= length a)%nat ->
  ~ In 42 p -> ~ In 36 p -> good_checksum p h1 h0 -> (length (sentence p h1 h0) <= Z.to_nat 1024)%nat -> (1 <= fuel)%nat ->
  exists d', gps_run fuel (fresh_gps g) [(a, o1); (b, o2)] = Some (Some d') /\ gp_published d' = [] /\ gp_state d' = g /\
    nmea_empty (gp_dec d').
Proof.
  intros fuel g o1 o2 a b p h1 h0 E BN LA NS ND GC LM FU.
  destruct (split_first o1 a b p h1 h0 E BN LA NS ND GC LM) as (n & o' & D & W & NR & EN).
  assert (LE : length (sentence p h1 h0) = (length a + length b)%nat) by (rewrite E; apply app_length).
  assert (LB : (1 <= length b)%nat) by (destruct b; [congruence|cbn [length]; lia]).
  destruct (sentence_one_dollar p h1 h0 GC ND) as (r & ER & NRR).
  assert (NB : ~ In 36 b).
  { destruct a as [|x a']; [cbn in LA; lia|]. rewrite ER in E. injection E as _ E.
    intros I. apply NRR. rewrite E. apply in_or_app. now right. }
  cbn [gps_run]. unfold GPS_TaskMethod at 1. destruct (Z.eqb_spec (Z.of_nat (length a)) 0); [lia|].
  cbn [fresh_gps gp_dec gp_state gp_published]. rewrite fresh_chunk by lia. cbn [negb].
  destruct fuel; [lia|]. cbn [decodeAll gp_dec gp_state gp_published]. rewrite D. cbn [gp_dec gp_state gp_published].
  pose proof W as (LD & SB & EA & AV).
  destruct (Accumulate_received n b W) as (n' & AC & W' & RC & EC & SC); [lia|].
  unfold GPS_TaskMethod. destruct (Z.eqb_spec (Z.of_nat (length b)) 0); [lia|]. cbn [gp_dec gp_state gp_published].
  rewrite AC. cbn [negb decodeAll gp_dec gp_state gp_published].
  rewrite Decode_no_dollar; [|exact W'|rewrite RC; intros I; apply in_app_or in I; tauto|lia].
  eexists. split; [reflexivity|]. cbn. repeat split; auto. apply W'.
Qed.

(** ** Bounds *)

Lemma received_prefix : forall n a p t, view (n_data n) (n_start n) (a ++ p ++ t) ->
  Z.of_nat (length a + length p) <= n_end n - n_start n -> exists b, received n = a ++ p ++ b.
Proof.
  intros n a p t [_ V] L. unfold received. rewrite V.
  exists (firstn (Z.to_nat (n_end n - n_start n) - length a - length p) t).
  rewrite firstn_app. f_equal; [apply firstn_all2; lia|].
  rewrite firstn_app. f_equal. apply firstn_all2. lia.
Qed.

Lemma tryDecode_safe : forall n o, length (n_data n) = Z.to_nat 1024 -> 0 <= n_start n <= n_end n ->
  n_end n <= 1019 -> short_fields (received n) -> gps_arrays (f_gga o) ->
  exists len o', tryDecode n o = Some (len, o') /\ gps_arrays (f_gga o').
Proof.
  intros n o LD SB EB SF GA. unfold tryDecode.
  assert (FAIL : exists len o', Some (0, mkFields NMEA_NULL (f_gga o)) = Some (len, o') /\ gps_arrays (f_gga o')).
  { eexists _, _. split; [reflexivity|exact GA]. }
  destruct (Z.eqb_spec (n_end n) (n_start n)); [exact FAIL|].
  rewrite u16_small by lia. destruct (Z.ltb_spec (n_end n - n_start n) 13); [exact FAIL|].
  set (d := n_data n) in *. set (s := n_start n) in *.
  destruct (rd_some Z d s) as (c & R0); [lia|]. rewrite R0.
  destruct (Z.eqb_spec c 36) as [->|]; cbn [negb]; [|exact FAIL].
  rewrite (u16_small (s + 1)) by lia.
  destruct (rd_block d (s + 1) 5) as [id|] eqn:RB; [|exfalso; unfold rd_block in RB; destruct (_ && _) eqn:C; [discriminate|lia]].
  rewrite (u16_small (s + 1 + 5)) by lia.
  destruct (rd_some Z d (s + 1 + 5)) as (c & R6); [lia|]. rewrite R6.
  destruct (Z.eqb_spec c 44) as [->|]; cbn [negb]; [|exact FAIL].
  rewrite (u16_small (s + 1 + 6)) by lia. replace (s + 1 + 6) with (s + 7) by lia.
  destruct (starLoop d (Z.to_nat (n_end n - (s + 7) + 1)) (s + 7)) as [[pEnd|]|] eqn:ST; [|exact FAIL|].
  2:{ exfalso. apply (star_total d _ (s + 7)) in ST; [exact ST|lia|lia|lia]. }
  apply star_inv in ST as (p & t & V7 & NS & -> & LP); [|lia|lia].
  set (e := s + 7 + Z.of_nat (length p)) in *.
  rewrite (u16_small (e + 1)) by lia. unfold locateMsgEnd.
  destruct (_ <? 4); [exact FAIL|].
  destruct (rd_some Z d (e + 1)) as (h1 & Q1); [lia|]. rewrite Q1. rewrite (u16_small (e + 1 + 1)) by lia.
  destruct (rd_some Z d (e + 1 + 1)) as (h0 & Q2); [lia|]. rewrite Q2. rewrite (u16_small (e + 1 + 2)) by lia.
  destruct (rd_some Z d (e + 1 + 2)) as (c3 & Q3); [lia|]. rewrite Q3.
  destruct (Z.eqb_spec c3 13) as [->|]; cbn [negb]; [|exact FAIL].
  rewrite (u16_small (e + 1 + 3)) by lia.
  destruct (rd_some Z d (e + 1 + 3)) as (c4 & Q4); [lia|]. rewrite Q4.
  destruct (Z.eqb_spec c4 10) as [->|]; cbn [negb]; [|exact FAIL].
  apply view_rd in R0 as (t0 & V0); [|lia]. pose proof V0 as V0'. apply view_cons in V0' as (_ & V1 & _).
  apply view_rd_block in RB as (t1 & VB & LI). pose proof (view_fun _ _ _ _ V1 VB). subst t0.
  apply view_rd in R6 as (t2 & V6); [|lia]. pose proof V6 as V6'. apply view_cons in V6' as (_ & V7' & _).
  replace (s + 1 + 5 + 1) with (s + 7) in V7' by lia.
  pose proof (view_fun _ _ _ _ V7 V7'). subst t2.
  assert (t1 = 44 :: p ++ 42 :: t) by (eapply view_app_inv; [exact VB|rewrite LI; exact V6]). subst t1.
  pose proof V7 as V8. apply view_app in V8. fold e in V8. apply view_cons in V8 as (_ & V8 & _).
  apply view_rd in Q1 as (u1 & W1); [|lia]. apply view_rd in Q2 as (u2 & W2); [|lia].
  apply view_rd in Q3 as (u3 & W3); [|lia]. apply view_rd in Q4 as (u4 & W4); [|lia].
  pose proof (view_fun _ _ _ _ V8 W1). subst t. apply view_cons in W1 as (_ & W1 & _).
  pose proof (view_fun _ _ _ _ W1 W2). subst u1. apply view_cons in W2 as (_ & W2 & _).
  replace (e + 1 + 1 + 1) with (e + 1 + 2) in W2 by lia.
  pose proof (view_fun _ _ _ _ W2 W3). subst u2. apply view_cons in W3 as (_ & W3 & _).
  replace (e + 1 + 2 + 1) with (e + 1 + 3) in W3 by lia.
  pose proof (view_fun _ _ _ _ W3 W4). subst u3. 
  assert (VL : view d s (layout id p h1 h0 u4)) by exact V0.
  assert (LI' : length id = 5%nat) by lia.
  destruct (checksum_spec d id p s h1 h0 u4 VL LI' ltac:(lia)) as (good & VC & G). fold e in VC. rewrite VC.
  destruct good; cbn [negb]; [|exact FAIL].
  destruct (proj1 G eq_refl) as (P2 & _).
  unfold tryDecodePayload. destruct (bytes_eqb id (str "GPGGA")) eqn:EB'; [|exact FAIL]. cbn [f_gga].
  destruct (received_prefix n (36 :: id ++ [44]) p (42 :: h1 :: h0 :: 13 :: 10 :: u4)) as (bb & RE).
  { unfold layout in VL. fold d s. cbn [app]. rewrite <- app_assoc. exact VL. }
  { cbn [length]. rewrite app_length. cbn [length]. fold s. lia. }
  destruct (payload_safe d (s + 7) p h1 (h0 :: 13 :: 10 :: u4) V7 ltac:(lia) (f_gga o) GA) as (ok & g & PD & GA').
  { eapply short_fields_all; [exact RE|exact SF]. }
  fold e in PD. rewrite PD. destruct ok; eexists _, _; (split; [reflexivity|exact GA']).
Qed.

Lemma received_tail : forall n k, 0 <= n_start n -> 0 <= k -> n_start n + k <= n_end n ->
  n_end n <= Z.of_nat (length (n_data n)) ->
  exists a, received n = a ++ received (set_start n (n_start n + k)).
Proof.
  intros n k S0 K L LD. unfold received, set_start. cbn [n_start n_end n_data].
  exists (firstn (Z.to_nat k) (skipn (Z.to_nat (n_start n)) (n_data n))).
  set (l := skipn (Z.to_nat (n_start n)) (n_data n)).
  replace (skipn (Z.to_nat (n_start n + k)) (n_data n)) with (skipn (Z.to_nat k) l).
  2:{ unfold l. rewrite skipn_skipn. f_equal. lia. }
  rewrite <- (firstn_skipn (Z.to_nat k) l) at 1.
  assert (LL : length (firstn (Z.to_nat k) l) = Z.to_nat k).
  { rewrite firstn_length. unfold l. rewrite skipn_length. lia. }
  rewrite firstn_app, LL. rewrite firstn_all2 by lia. f_equal. f_equal. lia.
Qed.

Lemma decodeLoop_safe : forall used n o, length (n_data n) = Z.to_nat 1024 -> 0 <= n_start n ->
  n_start n + Z.of_nat used = n_end n -> n_end n <= 1019 -> short_fields (received n) -> gps_arrays (f_gga o) ->
  (exists n' o', decodeLoop used n o = Some (inl (n', o')) /\ gps_arrays (f_gga o')) \/
  (exists o', decodeLoop used n o =
    Some (inr (Nat.min used 13, set_start n (n_start n + Z.of_nat (used - 13)), o')) /\ gps_arrays (f_gga o')).
Proof.
  induction used; intros n o LD S0 L EB SF GA; cbn [decodeLoop].
  - right. exists o. cbn. rewrite Z.add_0_r. split; [destruct n; reflexivity|exact GA].
  - destruct (Z.gtb_spec (Z.of_nat (S used)) 13) as [G|G].
    + destruct (tryDecode_safe n o LD ltac:(lia) EB SF GA) as (len & o' & TD & GA'). rewrite TD.
      destruct (Z.eqb_spec len 0).
      * rewrite u16_small by lia.
        destruct (received_tail n 1 S0 ltac:(lia) ltac:(lia) ltac:(lia)) as (a & RT).
        destruct (IHused (set_start n (n_start n + 1)) o') as [(n' & o2 & E & GA2)|(o2 & E & GA2)];
          cbn [set_start n_data n_start n_end] in *; auto; try lia.
        { eapply short_infix with (m := received n) (a := a) (b := []); [|exact SF].
          rewrite app_nil_r. exact RT. }
        { left. eauto. }
        { right. exists o2. split; [|exact GA2]. rewrite E. unfold set_start. cbn [n_start n_end n_avail n_data].
          replace (Nat.min used 13) with (Nat.min (S used) 13) by lia.
          replace (n_start n + 1 + Z.of_nat (used - 13)) with (n_start n + Z.of_nat (S used - 13)) by lia. reflexivity. }
      * left. eauto.
    + right. exists o. replace (Nat.min (S used) 13) with (S used) by lia.
      replace (S used - 13)%nat with O by lia. rewrite Z.add_0_r. split; [destruct n; reflexivity|exact GA].
Qed.

Lemma Decode_safe : forall n o, nmea_wf n -> n_end n <= 1019 -> short_fields (received n) -> gps_arrays (f_gga o) ->
  exists more n' o', NmeaDecode_Decode n o = Some (more, n', o') /\ gps_arrays (f_gga o') /\
    (more = false -> nmea_wf n' /\ n_end n' <= 14 /\ exists a, received n = a ++ received n').
Proof.
  intros n o W EB SF GA. pose proof W as (LD & SB & EA & AV).
  unfold NmeaDecode_Decode, trimFront.
  destruct (trim_total (n_data n) (Z.to_nat (n_end n - n_start n)) (n_start n)) as (s' & TR); try lia.
  rewrite TR. apply trim_bounds in TR; [|lia|lia].
  destruct (received_tail n (s' - n_start n) ltac:(lia) ltac:(lia) ltac:(lia) ltac:(lia)) as (a & RT).
  replace (n_start n + (s' - n_start n)) with s' in RT by lia.
  set (n1 := set_start n s') in *.
  assert (E1 : n_end n1 = n_end n) by reflexivity. assert (S1 : n_start n1 = s') by reflexivity.
  assert (D1 : n_data n1 = n_data n) by reflexivity. assert (A1 : n_avail n1 = n_avail n) by reflexivity.
  rewrite E1, S1, u16_small by lia.
  assert (SF1 : short_fields (received n1)).
  { eapply short_infix with (m := received n) (a := a) (b := []); [|exact SF]. now rewrite app_nil_r. }
  destruct (decodeLoop_safe (Z.to_nat (n_end n - s')) n1 o) as [(n2 & o' & DL & GA')|(o' & DL & GA')];
    rewrite ?D1, ?S1, ?E1; auto; try lia; rewrite DL.
  - exists true, n2, o'. split; [reflexivity|]. split; [exact GA'|discriminate].
  - rewrite S1. set (u := Z.to_nat (n_end n - s')). set (s := s' + Z.of_nat (u - 13)).
    assert (BS : s' <= s <= n_end n) by (unfold s, u; lia).
    assert (BK : Z.of_nat (Nat.min u 13) = n_end n - s) by (unfold s, u; lia).
    destruct (received_tail n1 (s - s') ltac:(lia) ltac:(lia) ltac:(lia) ltac:(rewrite D1; lia)) as (a2 & RT2).
    rewrite S1 in RT2. replace (s' + (s - s')) with s in RT2 by lia.
    assert (W2 : nmea_wf (set_start n1 s)).
    { unfold nmea_wf. cbn [set_start n_data n_start n_end n_avail n1]. repeat split; auto; lia. }
    pose proof (received_len _ W2) as RL. cbn [set_start n_start n_end n1] in RL.
    cbn [set_start n_data n_start n_end n_avail n1]. 
    destruct (Z.gtb_spec s 1).
    + set (q := received (set_start n1 s)) in *. set (d := n_data n) in *.
      assert (LQ : Nat.min u 13 = length q) by lia.
      assert (VS : view d s (q ++ skipn (length q) (skipn (Z.to_nat s) d))).
      { split; [lia|]. rewrite <- (firstn_skipn (length q) (skipn (Z.to_nat s) d)) at 1. f_equal.
        unfold q at 2. unfold received. cbn [set_start n_data n_start n_end n1]. fold d. f_equal. lia. }
      pose proof (shift_spec q d s 0 _ VS ltac:(lia)) as SS. cbn [length] in SS. change (Z.of_nat 0) with 0 in SS.
      rewrite LQ, SS by lia. cbn [firstn app Nat.add].
      rewrite (u16_small (n_end n - s)) by lia. rewrite (u16_small (n_avail n + s)) by lia.
      eexists false, _, o'. split; [reflexivity|]. split; [exact GA'|]. intros _.
      assert (LL : length (q ++ skipn (length q) d) = Z.to_nat 1024) by (rewrite app_length, skipn_length; lia).
      split; [unfold nmea_wf; cbn [n_data n_start n_end n_avail]; repeat split; auto; lia|].
      split; [cbn [n_end]; lia|].
      exists (a ++ a2). rewrite (received_of (mkNmea 0 (n_end n - s) (n_avail n + s) (q ++ skipn (length q) d)) (skipn (length q) d)) with (r := q); cbn [n_data n_start n_end]; try lia.
      * rewrite <- app_assoc, <- RT2. exact RT.
      * apply view0.
    + eexists false, _, o'. split; [reflexivity|]. split; [exact GA'|]. intros _.
      split; [exact W2|]. split; [cbn [set_start n_end n1]; lia|].
      exists (a ++ a2). rewrite <- app_assoc. rewrite RT, RT2. reflexivity.
Qed.

(** ** Soundness of a whole history *)

Lemma shift_length : forall k d s i d', shiftLoop d s k i = Some d' -> length d' = length d.
Proof.
  induction k; intros d s i d' H; cbn [shiftLoop] in H; [now injection H as <-|].
  destruct (rd d (i + s)) as [b|]; [|discriminate].
  destruct (wr d i b) as [d1|] eqn:E; [|discriminate]. apply IHk in H. rewrite H.
  unfold wr in E. destruct (_ && _); [|discriminate]. injection E as <-. apply upd_length.
Qed.

Lemma decodeLoop_data : forall used n o r, decodeLoop used n o = Some r ->
  match r with inl (n', _) => n_data n' = n_data n | inr (_, n', _) => n_data n' = n_data n end.
Proof.
  induction used; intros n o r H; cbn [decodeLoop] in H.
  - now injection H as <-.
  - destruct (_ >? 13); [|now injection H as <-].
    destruct (tryDecode n o) as [[len o']|]; [|discriminate].
    destruct (len =? 0); [|now injection H as <-].
    apply IHused in H. destruct r as [[? ?]|[[? ?] ?]]; exact H.
Qed.

Lemma Decode_length : forall n o m n' o', NmeaDecode_Decode n o = Some (m, n', o') ->
  length (n_data n') = length (n_data n).
Proof.
  intros n o m n' o' H. unfold NmeaDecode_Decode, trimFront in H.
  destruct (trimLoop _ _ _) as [s|]; [|discriminate].
  destruct (decodeLoop _ _ _) as [r|] eqn:DL; [|discriminate]. apply decodeLoop_data in DL.
  destruct r as [[? ?]|[[? ?] ?]]; cbn [set_start n_data] in DL; [injection H as _ <- _; now rewrite DL|].
  destruct (_ >? 1).
  - destruct (shiftLoop _ _ _ _) as [d'|] eqn:SH; [|discriminate]. injection H as _ <- _. cbn [n_data].
    apply shift_length in SH. rewrite SH, DL. reflexivity.
  - injection H as _ <- _. now rewrite DL.
Qed.

Lemma Accumulate_length : forall n c m n', NmeaDecode_AccumulateBytes n c = Some (m, n') ->
  length (n_data n') = length (n_data n).
Proof.
  intros n c m n' H. unfold NmeaDecode_AccumulateBytes in H. destruct (_ >? _); [now injection H as _ <-|].
  destruct (wr_block _ _ _) as [d|] eqn:W; [|discriminate]. injection H as _ <-. cbn [n_data].
  unfold wr_block in W. destruct (_ && _) eqn:C; [|discriminate]. injection W as <-.
  rewrite !app_length, firstn_length, skipn_length. lia.
Qed.

Definition reports (gs : list gps_t) : Prop := Forall (fun g => exists m, valid_sentence m g) gs.

Lemma decodeAll_sound : forall fuel d o d', (length (n_data (gp_dec d)) <= Z.to_nat 1024)%nat ->
  decodeAll fuel d o = Some (Some d') ->
  (length (n_data (gp_dec d')) <= Z.to_nat 1024)%nat /\
  exists gs, gp_published d' = gp_published d ++ gs /\ gp_state d' = last gs (gp_state d) /\ reports gs.
Proof.
  induction fuel; intros d o d' LD H; cbn [decodeAll] in H; [discriminate|].
  destruct (NmeaDecode_Decode (gp_dec d) o) as [[[more n] o']|] eqn:D; [|discriminate].
  pose proof (Decode_length _ _ _ _ _ D) as LN.
  destruct more.
  - destruct (Decode_sound _ _ _ _ LD D) as (s & p & h1 & h0 & post & (V & NS & GC & GP & FT & _) & _).
    rewrite FT in H. apply IHfuel in H; [|cbn; lia].
    destruct H as (L' & gs & P & S & R). split; [exact L'|].
    exists (f_gga o' :: gs). cbn [pushGPGGA gp_published gp_state gp_dec] in *. repeat split.
    + rewrite P, <- app_assoc. reflexivity.
    + rewrite S. destruct gs; [reflexivity|]. cbn [last]. apply last_indep.
    + constructor; [|exact R]. exists (sentence p h1 h0). exists p, h1, h0. auto.
  - injection H as <-. cbn [gp_dec gp_published gp_state]. split; [lia|]. exists []. rewrite app_nil_r.
    repeat split. constructor.
Qed.

Lemma last_app2 : forall gs gs2 (g : gps_t), last (gs ++ gs2) g = last gs2 (last gs g).
Proof.
  intros gs gs2 g. destruct gs2 as [|x t]; [now rewrite app_nil_r|].
  destruct (exists_last (l := x :: t) ltac:(discriminate)) as (l' & y & E). rewrite E.
  rewrite app_assoc, !last_last. reflexivity.
Qed.

Lemma gps_run_sound : forall h fuel d d', (length (n_data (gp_dec d)) <= Z.to_nat 1024)%nat ->
  gps_run fuel d h = Some (Some d') ->
  exists gs, gp_published d' = gp_published d ++ gs /\ gp_state d' = last gs (gp_state d) /\ reports gs.
Proof.
  induction h as [|[c o] h IH]; intros fuel d d' LD H; cbn [gps_run] in H.
  - injection H as <-. exists []. rewrite app_nil_r. repeat split. constructor.
  - destruct (GPS_TaskMethod fuel d o c) as [[d1|]|] eqn:T; try discriminate.
    assert ((length (n_data (gp_dec d1)) <= Z.to_nat 1024)%nat /\
      exists gs, gp_published d1 = gp_published d ++ gs /\ gp_state d1 = last gs (gp_state d) /\ reports gs)
      as (L1 & gs & P & S & R).
    { unfold GPS_TaskMethod in T. destruct (_ =? 0).
      { injection T as <-. split; [exact LD|]. exists []. rewrite app_nil_r. repeat split. constructor. }
      destruct (NmeaDecode_AccumulateBytes _ _) as [[ok n]|] eqn:A; [|discriminate].
      apply Accumulate_length in A. destruct ok; cbn [negb] in T.
      - apply decodeAll_sound in T; [exact T|cbn; lia].
      - injection T as <-. cbn. split; [lia|]. exists []. rewrite app_nil_r. repeat split. constructor. }
    destruct (IH _ _ _ L1 H) as (gs2 & P2 & S2 & R2). exists (gs ++ gs2).
    rewrite P2, P, app_assoc, S2, S, last_app2. repeat split. now apply Forall_app.
Qed.

(** ** A checksum that was never received *)

Lemma stale_checksum : forall fuel g o1 o2 p gf p' gf' h1 h0,
  ~ In 42 p -> good_checksum p h1 h0 -> gga_payload p gf -> short_fields p ->
  ~ In 42 p' -> good_checksum p' h1 h0 -> gga_payload p' gf' -> short_fields p' -> length p' = length p ->
  (length (sentence p h1 h0) <= Z.to_nat 1024)%nat -> gps_arrays (f_gga o1) -> gps_arrays (f_gga o2) -> (2 <= fuel)%nat ->
  exists d1 n2 n3 g', GPS_TaskMethod fuel (fresh_gps g) o1 (sentence p h1 h0) = Some (Some d1) /\
    nmea_empty (gp_dec d1) /\
    NmeaDecode_AccumulateBytes (gp_dec d1) (str "$GPGGA," ++ p') = Some (true, n2) /\
    received n2 = str "$GPGGA," ++ p' /\
    NmeaDecode_Decode n2 o2 = Some (true, n3, mkFields NMEA_GPGGA g') /\ gga_payload p' g'.
Proof.
  intros fuel g o1 o2 p gf p' gf' h1 h0 NS GC GP SF NS' GC' GP' SF' LP LM GA1 GA2 FU.
  set (m := sentence p h1 h0) in *. pose proof (sentence_length p h1 h0) as SL. fold m in SL.
  pose proof (chunk_len m ltac:(lia)) as CL. set (z := skipn (length m) (repeat 0 (Z.to_nat 1024))) in *.
  set (n1 := mkNmea 0 (Z.of_nat (length m)) (1024 - Z.of_nat (length m)) (m ++ z)).
  destruct (Decode_one n1 o1 p h1 h0 z gf) as (g1 & D1 & _); cbn [n1 n_data n_start n_end]; auto; try lia; [apply view0|].
  fold m in D1.
  set (n1' := mkNmea 0 0 1024 (m ++ z)).
  exists (mkGpsDev n1' g1 [g1]).
  assert (E1 : nmea_empty n1') by (unfold nmea_empty; cbn; auto).
  assert (W1 : nmea_wf n1') by (unfold nmea_wf; cbn [n1' n_data n_start n_end n_avail]; repeat split; auto; lia).
  set (c := str "$GPGGA," ++ p').
  assert (LC : length c = (7 + length p')%nat) by (unfold c; rewrite app_length; reflexivity).
  destruct (Accumulate_received n1' c W1) as (n2 & A2 & W2 & R2 & EN2 & ST2); [cbn [n1' n_avail]; lia|].
  pose proof (Accumulate_ok n1' c) as AO. rewrite A2 in AO. cbn [n1' n_start n_end n_avail n_data] in AO.
  specialize (AO CL ltac:(lia) ltac:(lia) ltac:(lia)).
  apply (f_equal (fun x => match x with Some (_, k) => n_data k | None => [] end)) in AO.
  cbn [n_data] in AO. change (Z.to_nat 0) with O in AO. rewrite firstn_O, app_nil_l, Nat.add_0_l in AO.
  assert (SK : skipn (length c) (m ++ z) = 42 :: h1 :: h0 :: 13 :: 10 :: z).
  { unfold m, sentence. rewrite <- !app_assoc. rewrite (app_assoc (str "$GPGGA,")).
    rewrite skipn_app. replace (length c) with (length (str "$GPGGA," ++ p)).
    2:{ rewrite app_length, LC, LP. reflexivity. }
    rewrite skipn_all, Nat.sub_diag. reflexivity. }
  rewrite SK in AO.
  destruct (Decode_one n2 o2 p' h1 h0 z gf') as (g' & D2 & G'); auto.
  { apply W2. }
  { rewrite EN2. cbn [n1' n_end]. lia. }
  { rewrite AO. unfold sentence. split; [lia|]. change (Z.to_nat 0) with O. cbn [skipn].
    unfold c. rewrite <- !app_assoc. reflexivity. }
  { right. rewrite EN2. cbn [n1' n_end]. lia. }
  exists n2, (set_start n2 (Z.of_nat (length (sentence p' h1 h0)))), g'.
  split; [|split; [exact E1|split; [exact A2|split; [rewrite R2; reflexivity|split; [exact D2|exact G']]]]].
  unfold GPS_TaskMethod. destruct (Z.eqb_spec (Z.of_nat (length m)) 0); [lia|].
  cbn [fresh_gps gp_dec gp_state gp_published]. rewrite fresh_chunk by lia. cbn [negb]. fold z n1.
  destruct fuel as [|[|fuel]]; [lia|lia|]. cbn [decodeAll gp_dec gp_state gp_published].
  rewrite D1. cbn [f_type f_gga pushGPGGA gp_dec gp_state gp_published].
  rewrite Decode_drained; cbn [set_start n_data n_start n_end n_avail n1]; auto; try lia.
Qed.

(** ** A field longer than the token array *)

Lemma long_field : forall fuel g o p h1 h0 f fs,
  ~ In 42 p -> good_checksum p h1 h0 -> fields p = f :: fs -> (128 <= length f)%nat ->
  (length (sentence p h1 h0) <= Z.to_nat 1024)%nat -> (1 <= fuel)%nat ->
  GPS_TaskMethod fuel (fresh_gps g) o (sentence p h1 h0) = None.
Proof.
  intros fuel g o p h1 h0 f fs NS GC FP LF LM FU.
  set (m := sentence p h1 h0) in *. pose proof (sentence_length p h1 h0) as SL. fold m in SL.
  pose proof (chunk_len m ltac:(lia)) as CL. set (z := skipn (length m) (repeat 0 (Z.to_nat 1024))) in *.
  set (n1 := mkNmea 0 (Z.of_nat (length m)) (1024 - Z.of_nat (length m)) (m ++ z)).
  unfold GPS_TaskMethod. destruct (Z.eqb_spec (Z.of_nat (length m)) 0); [lia|].
  cbn [fresh_gps gp_dec gp_state gp_published]. rewrite fresh_chunk by lia. cbn [negb]. fold z n1.
  destruct fuel as [|fuel]; [lia|]. cbn [decodeAll gp_dec gp_state gp_published].
  assert (LPF : (128 <= length p)%nat).
  { destruct (field_infix p f) as (_ & a & b & E); [rewrite FP; now left|]. rewrite E, !app_length. lia. }
  unfold NmeaDecode_Decode, trimFront.
  rewrite (trim_spec (n_data n1) [] _ (n_start n1) (m ++ z)); cbn [n1 n_data n_start n_end]; auto; try (cbn [length]; lia); [|apply view0|].
  2:{ right. split; [cbn [length]; lia|]. eexists. reflexivity. }
  cbn [length]. change (0 + Z.of_nat 0) with 0.
  assert (N0 : set_start n1 0 = n1) by reflexivity. fold n1. rewrite N0. cbn [n1 n_start n_end]. fold n1.
  rewrite Z.sub_0_r, u16_small by lia. rewrite Nat2Z.id.
  assert (exists k, length m = S k) as (k & LK) by (exists (length m - 1)%nat; lia).
  replace (decodeLoop (length m) n1 o) with (decodeLoop (S k) n1 o) by (now rewrite LK).
  cbn [decodeLoop]. destruct (Z.gtb_spec (Z.of_nat (S k)) 13); [|lia].
  assert (VL : view (m ++ z) 0 (layout (str "GPGGA") p h1 h0 z)).
  { unfold m. rewrite sentence_layout. apply view0. }
  destruct (tryDecode_layout (m ++ z) (str "GPGGA") p 0 h1 h0 z VL eq_refl ltac:(lia) n1 o) as (good & G & TD);
    cbn [n1 n_data n_start n_end]; auto; try lia.
  assert (good = true) as ->.
  { apply G. split; [lia|]. destruct GC as (v1 & v0 & X1 & X0 & CS). exists v1, v0. repeat split; auto; try apply X1; try apply X0. }
  cbn [negb] in TD. rewrite TD. unfold tryDecodePayload.
  replace (bytes_eqb (str "GPGGA") (str "GPGGA")) with true by reflexivity. cbn [f_gga].
  pose proof (lay_views (m ++ z) (str "GPGGA") p 0 h1 h0 z VL eq_refl ltac:(lia)) as (_ & _ & _ & _ & V7 & _).
  rewrite (payload_long (m ++ z) (0 + 7) p h1 (h0 :: 13 :: 10 :: z) V7 ltac:(lia) (f_gga o) f fs FP LF). reflexivity.
Qed.
