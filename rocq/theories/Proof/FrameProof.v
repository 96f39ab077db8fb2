From Coq Require Import ZifyBool ZifyNat.
From Verif.Base Require Import Mem.
From Verif.Model Require Import MsgFrame.
From Verif.Spec Require Import FrameSpec DecoderSpec.
From Verif.Proof Require Import MemFacts.
From Verif.Proof Require CrcProof.
Ltac Zify.zify_post_hook ::= Z.div_mod_to_equations.

Lemma u16_small : forall z, 0 <= z < 65536 -> u16 z = z.
Proof. intros. unfold u16. apply Z.mod_small. assumption. Qed.
Lemma u32_small : forall z, 0 <= z < 4294967296 -> u32 z = z.
Proof. intros. unfold u32. apply Z.mod_small. assumption. Qed.

Lemma byte_be32 : forall a b c d, is_byte a -> is_byte b -> is_byte c -> is_byte d ->
  [byte 3 (be32 a b c d); byte 2 (be32 a b c d); byte 1 (be32 a b c d); byte 0 (be32 a b c d)] = [a; b; c; d].
Proof.
  intros a b c d A B C D. unfold is_byte in *. unfold byte, be32, le32.
  change (2 ^ (8 * 3)) with 16777216. change (2 ^ (8 * 2)) with 65536.
  change (2 ^ (8 * 1)) with 256. change (2 ^ (8 * 0)) with 1.
  repeat f_equal; lia.
Qed.

(** Acceptance of a window when the CRC mutex outcome is [lk]. *)
Definition crc_ok (lk : bool) (w : list Z) : bool := snd (CRC_Calculate lk (covered w)) =? crc_field w.
Definition accepts (lk : bool) (w : list Z) : bool := delimited w && crc_ok lk w.

Lemma accepts_true : forall L w, length w = L -> accepts true w = valid_frame L w.
Proof.
  intros L w H. unfold accepts, valid_frame, crc_ok. simpl. rewrite H, Nat.eqb_refl.
  rewrite (Z.eqb_sym (crc_field w)). reflexivity.
Qed.

Record inv (L : nat) (m : mfdec) (rest : list Z) : Prop := {
  inv_L : d_msgLen m = Z.of_nat L;
  inv_range : (6 <= L <= 1024)%nat;
  inv_bytes : Forall is_byte rest;
  inv_ex : exists pre post, d_data m = pre ++ rest ++ post /\ d_start m = Z.of_nat (length pre) /\
     d_end m = Z.of_nat (length pre + length rest) /\ d_avail m = Z.of_nat (length post) /\
     (length pre + length rest + length post = Z.to_nat 1024)%nat }.

Lemma n1024 : Z.of_nat (Z.to_nat 1024) = 1024. Proof. reflexivity. Qed.

Lemma verify_spec : forall L m w r pre post lk,
  d_msgLen m = Z.of_nat L -> (6 <= L <= 1024)%nat -> length w = L -> Forall is_byte w ->
  d_data m = pre ++ (w ++ r) ++ post -> d_start m = Z.of_nat (length pre) ->
  verifyCrc lk m = Some (crc_ok lk w, m).
Proof.
  intros L m w r pre post lk HL HR HW HB HD HS. unfold verifyCrc. rewrite HS.
  rewrite u32_small by lia. rewrite HL.
  destruct (split_at _ (L - 6) w) as (h & t & E & Lh); [lia|].
  assert (Lt : length t = 6%nat) by (subst w; rewrite app_length in HW; lia).
  destruct t as [|b3 [|b2 [|b1 [|b0 [|x [|y [|? ?]]]]]]]; try discriminate. clear Lt.
  assert (B : is_byte b3 /\ is_byte b2 /\ is_byte b1 /\ is_byte b0).
  { rewrite Forall_forall in HB. subst w.
    repeat split; apply HB; apply in_app_iff; right; simpl; tauto. }
  destruct B as (B3 & B2 & B1 & B0).
  assert (F : crc_field w = be32 b3 b2 b1 b0).
  { unfold crc_field. rewrite HW, <- Lh, E.
    rewrite <- (Nat.add_0_r (length h)) at 1.
    rewrite !nth_app_r. reflexivity. }
  assert (C : covered w = h ++ [0; 0; 0; 0] ++ [x; y]).
  { unfold covered. rewrite HW, <- Lh, E. rewrite firstn_exact by reflexivity. f_equal. f_equal.
    change (b3 :: b2 :: b1 :: b0 :: [x; y]) with ([b3; b2; b1; b0] ++ [x; y]).
    rewrite app_assoc. rewrite skipn_exact; [reflexivity|]. rewrite app_length. reflexivity. }
  assert (D : forall q0 q1 q2 q3, pre ++ ((h ++ [q0; q1; q2; q3] ++ [x; y]) ++ r) ++ post
              = (pre ++ h) ++ [q0; q1; q2; q3] ++ ([x; y] ++ r ++ post)).
  { intros. rewrite <- !app_assoc. reflexivity. }
  assert (DD : d_data m = (pre ++ h) ++ [b3; b2; b1; b0] ++ ([x; y] ++ r ++ post)).
  { rewrite HD, E. rewrite <- D. reflexivity. }
  assert (O : Z.of_nat (length pre) + (Z.of_nat L - 6) = Z.of_nat (length (pre ++ h))).
  { rewrite app_length. lia. }
  rewrite O.
  assert (R3 : rd (d_data m) (Z.of_nat (length (pre ++ h))) = Some b3).
  { rewrite DD. now apply rd_mid. }
  assert (R2 : rd (d_data m) (Z.of_nat (length (pre ++ h)) + 1) = Some b2).
  { rewrite DD. change ([b3; b2; b1; b0] ++ [x; y] ++ r ++ post) with ([b3] ++ b2 :: ([b1; b0; x; y] ++ r ++ post)).
    rewrite app_assoc. apply rd_mid. rewrite !app_length. simpl. lia. }
  assert (R1 : rd (d_data m) (Z.of_nat (length (pre ++ h)) + 2) = Some b1).
  { rewrite DD. change ([b3; b2; b1; b0] ++ [x; y] ++ r ++ post) with ([b3; b2] ++ b1 :: ([b0; x; y] ++ r ++ post)).
    rewrite app_assoc. apply rd_mid. rewrite !app_length. simpl. lia. }
  assert (R0 : rd (d_data m) (Z.of_nat (length (pre ++ h)) + 3) = Some b0).
  { rewrite DD. change ([b3; b2; b1; b0] ++ [x; y] ++ r ++ post) with ([b3; b2; b1] ++ b0 :: ([x; y] ++ r ++ post)).
    rewrite app_assoc. apply rd_mid. rewrite !app_length. simpl. lia. }
  rewrite R3, R2, R1, R0. cbv zeta.
  rewrite DD at 1. rewrite wr_block_mid by reflexivity.
  rewrite <- D.
  assert (W : (pre ++ ((h ++ [0; 0; 0; 0] ++ [x; y]) ++ r) ++ post)
              = pre ++ (h ++ [0; 0; 0; 0] ++ [x; y]) ++ (r ++ post)) by now rewrite <- !app_assoc.
  rewrite W at 1. rewrite rd_block_mid; [|reflexivity|rewrite !app_length; simpl; lia].
  rewrite D, wr_block_mid by reflexivity.
  rewrite byte_be32 by assumption. rewrite <- DD.
  unfold crc_ok. rewrite C, F. f_equal. f_equal. destruct m. reflexivity.
Qed.

Lemma delim_spec : forall L m w r pre post,
  (6 <= L)%nat -> length w = L -> d_data m = pre ++ (w ++ r) ++ post ->
  d_start m = Z.of_nat (length pre) -> d_msgLen m = Z.of_nat L ->
  Z.of_nat (length pre + L) < 4294967296 ->
  exists s c l, rd (d_data m) (d_start m) = Some s /\
    rd (d_data m) (u32 (d_start m + d_msgLen m - 2)) = Some c /\
    rd (d_data m) (u32 (d_start m + d_msgLen m - 1)) = Some l /\
    ((s =? 58) && (c =? 13) && (l =? 10)) = delimited w.
Proof.
  intros L m w r pre post HL HW HD HS HM HB. rewrite HS, HM, !u32_small by lia.
  assert (G : forall i, (i < L)%nat -> rd (d_data m) (Z.of_nat (length pre + i)) = Some (nth i w 0)).
  { intros i Hi. rewrite rd_nth with (d := 0).
    - rewrite Nat2Z.id, HD, nth_app_r. rewrite app_nth1 by (rewrite app_length; lia).
      now rewrite app_nth1 by lia.
    - rewrite HD, !app_length. lia. }
  exists (nth 0 w 0), (nth (L - 2) w 0), (nth (L - 1) w 0).
  split; [|split; [|split]].
  - rewrite <- (Nat.add_0_r (length pre)). apply G. lia.
  - rewrite <- G by lia. f_equal. lia.
  - rewrite <- G by lia. f_equal. lia.
  - unfold delimited. now rewrite HW.
Qed.

(** Facts on [scan]. *)
Lemma scan_skip : forall L k s t, length s = k -> scan L k (s ++ t) = scan L 0 t.
Proof.
  intros L k s t <-. induction s as [|x s IH]; simpl; auto.
Qed.

Lemma valid_length : forall L w, valid_frame L w = true -> length w = L.
Proof. intros L w H. unfold valid_frame in H. apply andb_prop in H. destruct H as [H _].
  apply andb_prop in H. now apply Nat.eqb_eq. Qed.

Lemma scan_hit : forall L w t, (1 <= L)%nat -> valid_frame L w = true ->
  scan L 0 (w ++ t) = w :: scan L 0 t.
Proof.
  intros L w t HL H. pose proof (valid_length _ _ H) as E.
  destruct w as [|x w]; [simpl in E; lia|]. cbn [app scan].
  replace (firstn L (x :: w ++ t)) with (x :: w) by (symmetry; apply (firstn_exact _ (x :: w)); auto).
  rewrite H. f_equal. apply scan_skip. simpl in E. lia.
Qed.

Lemma scan_miss : forall L x t, valid_frame L (firstn L (x :: t)) = false ->
  scan L 0 (x :: t) = scan L 0 t.
Proof. intros L x t H. simpl. now rewrite H. Qed.

Lemma scan_short : forall L k s, (length s < L)%nat -> scan L k s = [].
Proof.
  intros L k s. revert k. induction s as [|x s IH]; intros k H; [reflexivity|].
  cbn [scan]. simpl in H. destruct k; [|apply IH; lia].
  destruct (valid_frame L (firstn L (x :: s))) eqn:V; [|apply IH; lia].
  apply valid_length in V. rewrite firstn_length in V. simpl in V. lia.
Qed.

(** The search loop. *)
Definition found (w : option (list Z)) : list (list Z) := match w with Some x => [x] | None => [] end.

Lemma search_spec : forall fuel L m rest pre post locks,
  d_msgLen m = Z.of_nat L -> (6 <= L <= 1024)%nat -> Forall is_byte rest ->
  d_data m = pre ++ rest ++ post -> d_start m = Z.of_nat (length pre) ->
  (length pre + length rest + length post = Z.to_nat 1024)%nat ->
  (length rest < fuel)%nat ->
  exists junk wo rest' locks' r m',
    search fuel locks (Z.of_nat (length rest)) m = Some (r, m', Z.of_nat (length rest'), locks') /\
    rest = junk ++ match wo with Some w => w | None => [] end ++ rest' /\
    m' = mkDec (d_msgLen m)
               (Z.of_nat (length pre + length junk + match wo with Some _ => L | None => 0 end))
               (d_end m) (d_avail m) (d_data m) /\
    match wo with
    | Some w => length w = L /\ r = Some (Z.of_nat (length pre + length junk)) /\
                exists lk, accepts lk w = true /\ (Forall (eq true) locks -> lk = true)
    | None => r = None /\ (length rest' < L)%nat
    end /\
    (Forall (eq true) locks -> Forall (eq true) locks' /\
       forall X, scan L 0 (rest ++ X) = found wo ++ scan L 0 (rest' ++ X)).
Proof.
  induction fuel as [|fuel IH]; intros L m rest pre post locks HL HR HB HD HS HT HF; [lia|].
  assert (N : Z.of_nat (Z.to_nat 1024) = 1024) by reflexivity.
  cbn [search]. rewrite Z.geb_leb.
  destruct (Z.leb_spec (d_msgLen m) (Z.of_nat (length rest))) as [Hge|Hlt].
  2: { exists [], None, rest, locks, None, m. split; [reflexivity|].
       split; [reflexivity|]. split; [destruct m; simpl in *; subst; repeat f_equal; lia|].
       split; [split; [reflexivity|lia]|]. intros; split; [assumption|]. intros; reflexivity. }
  destruct (split_at _ L rest) as (w & r & E & Lw); [lia|].
  assert (HW : Forall is_byte w) by (subst rest; now apply Forall_app in HB).
  destruct (delim_spec L m w r pre post) as (s & c & l & R1 & R2 & R3 & DL); auto; try lia.
  { now rewrite <- E. }
  rewrite R1, R2, R3, DL. clear R1 R2 R3 DL s c l.
  assert (REC : forall lo,
    (Forall (eq true) locks -> Forall (eq true) lo /\ valid_frame L w = false) ->
     exists junk wo rest' locks' r m',
      search fuel lo (u32 (Z.of_nat (length rest) - 1))
        (mkDec (d_msgLen m) (u16 (d_start m + 1)) (d_end m) (d_avail m) (d_data m))
        = Some (r, m', Z.of_nat (length rest'), locks') /\
      rest = junk ++ match wo with Some w => w | None => [] end ++ rest' /\
      m' = mkDec (d_msgLen m)
               (Z.of_nat (length pre + length junk + match wo with Some _ => L | None => 0 end))
               (d_end m) (d_avail m) (d_data m) /\
      match wo with
      | Some w => length w = L /\ r = Some (Z.of_nat (length pre + length junk)) /\
                exists lk, accepts lk w = true /\ (Forall (eq true) locks -> lk = true)
      | None => r = None /\ (length rest' < L)%nat
      end /\
      (Forall (eq true) locks -> Forall (eq true) locks' /\
         forall X, scan L 0 (rest ++ X) = found wo ++ scan L 0 (rest' ++ X))).
  { intros lo Hlo. destruct rest as [|x rest]; [simpl in Hge; lia|].
    rewrite u32_small by (simpl length in *; lia). rewrite HS, u16_small by (simpl length in *; lia).
    replace (Z.of_nat (length (x :: rest)) - 1) with (Z.of_nat (length rest)) by (simpl length; lia).
    destruct (IH L (mkDec (d_msgLen m) (Z.of_nat (length pre) + 1) (d_end m) (d_avail m) (d_data m))
                 rest (pre ++ [x]) post lo) as (junk & wo & rest' & locks' & r0 & m' & A & B & C & D & F); auto.
    - now inversion HB.
    - simpl. rewrite HD, <- app_assoc. reflexivity.
    - simpl. rewrite app_length. simpl. lia.
    - rewrite app_length. simpl length in *. lia.
    - simpl length in *. lia.
    - exists (x :: junk), wo, rest', locks', r0, m'. split; [exact A|].
      split; [simpl; now f_equal|].
      split. { rewrite C. cbn [d_msgLen d_end d_avail d_data]. f_equal. rewrite app_length. simpl length. lia. }
      split.
      { destruct wo as [w0|]; [|exact D]. destruct D as (D1 & D2 & lk & D3 & D4).
        split; [exact D1|]. split; [rewrite D2; f_equal; rewrite app_length; simpl length; lia|].
        exists lk. split; [exact D3|]. intros Q. apply D4, Hlo, Q. }
      intros Q. destruct (Hlo Q) as [Q1 Q2]. destruct (F Q1) as [F1 F2]. split; [exact F1|].
      intros X. rewrite <- F2. cbn [app]. apply scan_miss.
      change (x :: rest ++ X) with ((x :: rest) ++ X).
      rewrite E, <- app_assoc, firstn_exact by exact Lw. exact Q2. }
  destruct (delimited w) eqn:DW.
  2: { apply REC. intros Q. split; [exact Q|].
       unfold valid_frame. now rewrite DW, andb_false_r. }
  rewrite (verify_spec L m w r pre post (hd true locks)) by (auto; now rewrite <- E).
  destruct (crc_ok (hd true locks) w) eqn:CK.
  - exists [], (Some w), r, (tl locks), (Some (d_start m)),
      (mkDec (d_msgLen m) (u16 (d_start m + d_msgLen m)) (d_end m) (d_avail m) (d_data m)).
    assert (LR : length rest = (L + length r)%nat) by (rewrite E, app_length; lia).
    split. { rewrite HL, u32_small by lia. do 3 f_equal. lia. }
    split; [simpl; exact E|].
    split. { f_equal. rewrite HS, HL, u16_small by lia. simpl. lia. }
    split. { split; [exact Lw|]. split; [rewrite HS; f_equal; simpl; lia|].
             exists (hd true locks). split; [unfold accepts; now rewrite DW, CK|].
             intros Q. destruct Q; [reflexivity|simpl; congruence]. }
    intros Q. assert (T : hd true locks = true) by (destruct Q; [reflexivity|simpl; congruence]).
    split; [destruct Q; simpl; [constructor|assumption]|].
    intros X. rewrite E, <- app_assoc. simpl found. apply scan_hit; [lia|].
    rewrite <- accepts_true by exact Lw. unfold accepts. rewrite T in CK. now rewrite DW, CK.
  - apply REC. intros Q. assert (T : hd true locks = true) by (destruct Q; [reflexivity|simpl; congruence]).
    split; [destruct Q; simpl; [constructor|assumption]|].
    rewrite <- accepts_true by exact Lw. unfold accepts. rewrite T in CK. now rewrite CK, andb_false_r.
Qed.

(** Compaction. *)
Lemma shift_down_spec : forall n done pre todo post start,
  Z.of_nat (length pre) = start -> 0 < start -> length todo = n ->
  (length done + n + length post)%nat = (length done + n + length post)%nat ->
  exists tail, shift_down n (Z.of_nat (length done)) start (done ++ pre ++ todo ++ post)
    = Some (done ++ todo ++ tail) /\ length tail = (length pre + length post)%nat.
Proof.
  induction n as [|n IH]; intros done pre todo post start HP HS HT _.
  - destruct todo; [|discriminate]. exists (pre ++ post). split; [reflexivity|now rewrite app_length].
  - destruct todo as [|x todo]; [discriminate|]. cbn [shift_down].
    destruct pre as [|p pre]; [simpl in HP; lia|].
    replace (done ++ (p :: pre) ++ (x :: todo) ++ post) with ((done ++ p :: pre) ++ x :: (todo ++ post))
      by now rewrite <- app_assoc.
    rewrite rd_mid by (rewrite app_length; lia).
    replace ((done ++ p :: pre) ++ x :: todo ++ post) with (done ++ p :: (pre ++ x :: todo ++ post))
      by now rewrite <- app_assoc.
    rewrite wr_mid by reflexivity.
    replace (done ++ x :: pre ++ x :: todo ++ post) with ((done ++ [x]) ++ (pre ++ [x]) ++ todo ++ post)
      by (rewrite <- !app_assoc; reflexivity).
    replace (Z.of_nat (length done) + 1) with (Z.of_nat (length (done ++ [x]))) by (rewrite app_length; simpl; lia).
    destruct (IH (done ++ [x]) (pre ++ [x]) todo post start) as (tail & E & Lt).
    + rewrite app_length. simpl in *. lia.
    + exact HS.
    + simpl in HT. lia.
    + reflexivity.
    + exists tail. split; [rewrite E; now rewrite <- app_assoc|]. rewrite app_length in Lt. simpl in *. lia.
Qed.

Lemma recv_spec : forall L m rest locks, inv L m rest ->
  exists junk wo rest' locks' r m',
    MsgFrameDecode_RecvMsg locks m = Some (r, m', locks') /\
    rest = junk ++ match wo with Some w => w | None => [] end ++ rest' /\
    inv L m' rest' /\
    match wo with
    | Some w => length w = L /\ handed_out m' r = Some [w] /\ r <> None /\
                d_end m' = d_end m /\
                d_start m' = d_start m + Z.of_nat (length junk + L) /\
                exists lk, accepts lk w = true /\ (Forall (eq true) locks -> lk = true)
    | None => r = None /\ (length rest' < L)%nat /\ d_start m' <= 1
    end /\
    (Forall (eq true) locks -> Forall (eq true) locks' /\
       forall X, scan L 0 (rest ++ X) = found wo ++ scan L 0 (rest' ++ X)).
Proof.
  intros L m rest locks [HL HR HB (pre & post & HD & HS & HE & HA & HT)].
  assert (N : Z.of_nat (Z.to_nat 1024) = 1024) by reflexivity.
  unfold MsgFrameDecode_RecvMsg. rewrite HS, HE.
  replace (u32 (Z.of_nat (length pre + length rest) - Z.of_nat (length pre))) with (Z.of_nat (length rest))
    by (rewrite u32_small by lia; lia).
  cbv zeta. rewrite Nat2Z.id.
  destruct (search_spec (S (length rest)) L m rest pre post locks HL HR HB HD HS HT)
    as (junk & wo & rest' & locks' & r & m' & A & B & C & D & F); [lia|].
  rewrite A. clear A.
  assert (HB' : Forall is_byte rest').
  { rewrite B in HB. apply Forall_app in HB. destruct HB as [_ HB]. now apply Forall_app in HB. }
  destruct wo as [w|].
  - destruct D as (Lw & -> & lk & D3 & D4).
    exists junk, (Some w), rest', locks', (Some (Z.of_nat (length pre + length junk))), m'.
    split; [reflexivity|]. split; [exact B|].
    assert (LR : length rest = (length junk + (L + length rest'))%nat).
    { rewrite B, !app_length. lia. }
    split.
    { subst m'. split; simpl; auto. exists (pre ++ junk ++ w), post.
      rewrite HD, B, !app_length, <- !app_assoc. split; [reflexivity|]. lia. }
    split; [|exact F].
    split; [exact Lw|]. split.
    { unfold handed_out. subst m'. cbn [d_data d_msgLen]. rewrite HD, B, HL.
      replace (pre ++ (junk ++ w ++ rest') ++ post) with ((pre ++ junk) ++ w ++ (rest' ++ post))
        by now rewrite <- !app_assoc.
      rewrite rd_block_mid; [reflexivity|rewrite app_length; lia|lia]. }
    split; [discriminate|]. subst m'. simpl. split; [exact HE|]. split; [rewrite ?HS; lia|].
    eauto.
  - destruct D as (-> & D2).
    assert (LR : length rest = (length junk + length rest')%nat) by (rewrite B, !app_length; simpl; lia).
    assert (DD : d_data m = (pre ++ junk) ++ rest' ++ post).
    { rewrite HD, B. simpl. now rewrite <- !app_assoc. }
    rewrite Z.gtb_ltb. destruct (Z.ltb_spec 1 (d_start m')) as [G|G].
    + subst m'. cbn [d_start d_data d_msgLen d_end d_avail] in *.
      destruct (shift_down_spec (length rest') [] (pre ++ junk) rest' post
                 (Z.of_nat (length pre + length junk + 0))) as (tail & E & Lt).
      * rewrite app_length. lia.
      * lia.
      * reflexivity.
      * reflexivity.
      * simpl in E. change (Z.of_nat 0) with 0 in E. rewrite Nat2Z.id, DD, E.
        eexists junk, None, rest', locks', None, _. split; [reflexivity|]. split; [exact B|].
        split.
        { split; cbn [d_msgLen d_start d_end d_avail d_data]; auto.
          exists [], tail. rewrite app_length in Lt. simpl length.
          split; [reflexivity|]. split; [reflexivity|].
          rewrite HE, HA, !u16_small by lia. lia. }
        split; [|exact F]. split; [reflexivity|]. split; [exact D2|]. simpl. lia.
    + eexists junk, None, rest', locks', None, m'. split; [reflexivity|]. split; [exact B|].
      split.
      { subst m'. split; cbn [d_msgLen d_start d_end d_avail d_data]; auto.
        exists (pre ++ junk), post. rewrite app_length. split; [exact DD|]. lia. }
      split; [|exact F]. split; [reflexivity|]. split; [exact D2|exact G].
Qed.

Lemma push_spec : forall L m rest b, inv L m rest -> Forall is_byte b ->
  exists ok m', MsgFrameDecode_RecvBytes m b = Some (ok, m') /\
    (ok = true <-> Z.of_nat (length b) <= d_avail m) /\
    inv L m' (rest ++ if ok : bool then b else []) /\
    d_start m' = d_start m /\
    (ok = false -> m' = m).
Proof.
  intros L m rest b I Hb. pose proof I as I0.
  destruct I as [HL HR HB (pre & post & HD & HS & HE & HA & HT)].
  assert (N : Z.of_nat (Z.to_nat 1024) = 1024) by reflexivity.
  unfold MsgFrameDecode_RecvBytes. rewrite Z.gtb_ltb.
  destruct (Z.ltb_spec (d_avail m) (Z.of_nat (length b))) as [G|G].
  - exists false, m. split; [reflexivity|]. split; [split; [discriminate|lia]|].
    split; [now rewrite app_nil_r|]. auto.
  - destruct (split_at _ (length b) post) as (p1 & p2 & E & Lp); [lia|].
    exists true.
    replace (wr_block (d_data m) (d_end m) b) with (Some ((pre ++ rest) ++ b ++ p2)).
    + eexists. split; [reflexivity|]. split; [tauto|].
      assert (length post = (length b + length p2)%nat) by (rewrite E, app_length; lia).
      split.
      { split; cbn [d_msgLen d_start d_end d_avail d_data]; auto.
        - now apply Forall_app.
        - exists pre, p2. rewrite !app_length. split; [now rewrite <- !app_assoc|].
          rewrite HE, HA, !u16_small by lia. lia. }
      split; [reflexivity|discriminate].
    + symmetry. rewrite HD, HE, E. rewrite app_assoc. apply wr_block_mid; [now rewrite app_length|exact Lp].
Qed.

Lemma fresh_inv : forall L m, (6 <= L <= 1024)%nat -> fresh (Z.of_nat L) m -> inv L m [].
Proof.
  intros L m HR (m0 & HD & HM & HI). unfold MsgFrameDecode_Init in HI.
  unfold MSGFRAME_BUFFER_LEN in *. rewrite HM in HI.
  destruct (_ >? _); [discriminate|]. injection HI as <-.
  split; auto. exists [], (d_data m0). simpl. rewrite HD. repeat split.
Qed.

(** Whole histories. *)
Lemma in_order_gap : forall ws g s, in_order ws s -> in_order ws (g ++ s).
Proof.
  intros ws g s H. destruct H as [s|gap w s ws H]; [constructor|].
  rewrite app_assoc. now constructor.
Qed.

Lemma run_spec : forall L ops m rest, inv L m rest -> ops_ok ops ->
  exists m' got out rest', dec_run m ops = Some (m', got, out) /\ inv L m' rest' /\
    (exists used, rest ++ got = used ++ rest') /\
    in_order out (rest ++ got) /\
    Forall (fun w => length w = L /\ exists lk, accepts lk w = true) out /\
    (locks_ok ops -> forall X, scan L 0 (rest ++ got ++ X) = out ++ scan L 0 (rest' ++ X)).
Proof.
  intros L. induction ops as [|o ops IH]; intros m rest I OK.
  - exists m, [], [], rest. split; [reflexivity|]. split; [exact I|].
    split; [exists []; now rewrite app_nil_r|]. split; [constructor|]. split; [constructor|]. reflexivity.
  - inversion OK as [|? ? Ho OK']; subst. destruct o as [b|locks].
    + destruct (push_spec L m rest b I Ho) as (ok & m1 & E & _ & I1 & _ & _).
      destruct (IH m1 _ I1 OK') as (m2 & got & out & rest2 & E2 & I2 & (u & U) & IO & A2 & S2).
      cbn [dec_run]. rewrite E, E2.
      exists m2, ((if ok then b else []) ++ got), out, rest2. split; [reflexivity|]. split; [exact I2|].
      rewrite <- app_assoc in U, IO. split; [now exists u|]. split; [exact IO|]. split; [exact A2|].
      intros LK. inversion LK; subst. intros X. rewrite <- S2 by assumption. now rewrite <- !app_assoc.
    + destruct (recv_spec L m rest locks I) as (junk & wo & rest1 & locks' & r & m1 & E & B & I1 & D & F).
      destruct (IH m1 _ I1 OK') as (m2 & got & out & rest2 & E2 & I2 & (u & U) & IO & A2 & S2).
      cbn [dec_run]. rewrite E.
      assert (H1 : handed_out m1 r = Some (found wo)).
      { destruct wo; [apply D|]. destruct D as [-> _]. reflexivity. }
      rewrite H1, E2. exists m2, got, (found wo ++ out), rest2.
      split; [reflexivity|]. split; [exact I2|].
      split. { exists (junk ++ match wo with Some w => w | None => [] end ++ u). rewrite B.
               rewrite <- !app_assoc. do 2 f_equal. exact U. }
      split. { rewrite B, <- !app_assoc. destruct wo as [w|]; simpl found; [|now apply in_order_gap].
               simpl app. now constructor. }
      split. { apply Forall_app. split; [|exact A2]. destruct wo as [w|]; simpl; constructor; [|constructor].
               destruct D as (D1 & _ & _ & _ & _ & lk & D3 & _). eauto. }
      intros LK. inversion LK; subst. destruct (F ltac:(assumption)) as [_ F2].
      intros X. rewrite F2, S2 by assumption. now rewrite app_assoc.
Qed.

(** ** Encoding *)
Lemma be32_bytes : forall c, 0 <= c < 2 ^ 32 -> be32 (byte 3 c) (byte 2 c) (byte 1 c) (byte 0 c) = c.
Proof.
  intros c H. change (2 ^ 32) with 4294967296 in H. unfold byte, be32, le32.
  change (2 ^ (8 * 3)) with 16777216. change (2 ^ (8 * 2)) with 65536.
  change (2 ^ (8 * 1)) with 256. change (2 ^ (8 * 0)) with 1. lia.
Qed.

Lemma encode_parts : forall h b3 b2 b1 b0 x y,
  let w := h ++ [b3; b2; b1; b0; x; y] in
  length w = (length h + 6)%nat /\ crc_field w = be32 b3 b2 b1 b0 /\ covered w = h ++ [0; 0; 0; 0; x; y] /\ ((0 < length h)%nat -> delimited w = (nth 0 h 0 =? 58) && (x =? 13) && (y =? 10)).
Proof.
  intros h b3 b2 b1 b0 x y w.
  assert (Lw : length w = (length h + 6)%nat) by (unfold w; rewrite app_length; reflexivity).
  split; [exact Lw|]. split.
  { unfold crc_field. rewrite Lw. replace (length h + 6 - 6)%nat with (length h) by lia. unfold w.
    rewrite <- (Nat.add_0_r (length h)) at 1. rewrite !nth_app_r. reflexivity. }
  split.
  { unfold covered. rewrite Lw. replace (length h + 6 - 6)%nat with (length h) by lia. unfold w.
    rewrite firstn_exact by reflexivity. simpl. f_equal.
    change (h ++ [b3; b2; b1; b0; x; y]) with (h ++ [b3; b2; b1; b0] ++ [x; y]).
    rewrite app_assoc, skipn_exact by (rewrite app_length; reflexivity). reflexivity. }
  intros Hp. unfold delimited. rewrite Lw. unfold w.
  replace (length h + 6 - 2)%nat with (length h + 4)%nat by lia.
  replace (length h + 6 - 1)%nat with (length h + 5)%nat by lia.
  rewrite !nth_app_r, app_nth1 by exact Hp. reflexivity.
Qed.

Lemma encode_unfold : forall a f p, exists c, 0 <= c < 2 ^ 32 /\ c = HAL_CRC_Calculate ((58 :: byte 1 a :: byte 0 a :: byte 1 f :: byte 0 f :: p) ++ [0; 0; 0; 0; 13; 10]) /\ encode a f p = (58 :: byte 1 a :: byte 0 a :: byte 1 f :: byte 0 f :: p) ++
                 [byte 3 c; byte 2 c; byte 1 c; byte 0 c; 13; 10].
Proof. intros. eexists. split; [apply CrcProof.hal_word|]. split; reflexivity. Qed.

Lemma encode_length : forall a f p, length (encode a f p) = (length p + 11)%nat.
Proof.
  intros. destruct (encode_unfold a f p) as (c & _ & _ & ->). rewrite app_length. simpl. lia.
Qed.

Lemma encode_valid : forall a f p, valid_frame (length p + 11) (encode a f p) = true.
Proof.
  intros. destruct (encode_unfold a f p) as (c & Hc & Ec & E).
  unfold valid_frame. rewrite encode_length, Nat.eqb_refl. rewrite E.
  destruct (encode_parts (58 :: byte 1 a :: byte 0 a :: byte 1 f :: byte 0 f :: p)
              (byte 3 c) (byte 2 c) (byte 1 c) (byte 0 c) 13 10) as (_ & -> & -> & D).
  rewrite D by (simpl; lia). rewrite <- Ec, be32_bytes by exact Hc. rewrite (Z.eqb_refl c). reflexivity.
Qed.

Lemma byte_is_byte : forall k z, is_byte (byte k z).
Proof. intros. unfold is_byte, byte. apply Z.mod_pos_bound. lia. Qed.

Lemma encode_bytes : forall a f p, Forall is_byte p -> Forall is_byte (encode a f p).
Proof.
  intros a f p H. destruct (encode_unfold a f p) as (c & _ & _ & ->).
  apply Forall_app. split.
  - constructor; [unfold is_byte; lia|]. do 4 (constructor; [apply byte_is_byte|]). exact H.
  - do 4 (constructor; [apply byte_is_byte|]). do 2 (constructor; [unfold is_byte; lia|]). constructor.
Qed.

Lemma encode_fields : forall a f p, is_u16 a -> is_u16 f ->
  frame_addr (encode a f p) = a /\ frame_func (encode a f p) = f /\ frame_payload (encode a f p) = p.
Proof.
  intros a f p A F. unfold is_u16 in *. unfold frame_addr, frame_func, frame_payload.
  rewrite encode_length. destruct (encode_unfold a f p) as (c & _ & _ & ->).
  cbn [nth app skipn]. replace (length p + 11 - 11)%nat with (length p) by lia.
  rewrite firstn_exact by reflexivity.
  unfold be16, byte. change (2 ^ (8 * 1)) with 256. change (2 ^ (8 * 0)) with 1.
  split; [lia|]. split; [lia|reflexivity].
Qed.

(** The frame with whatever CRC_Calculate delivers. *)
Definition framed (lock : bool) (a f : Z) (p : list Z) : list Z :=
  let head := 58 :: byte 1 a :: byte 0 a :: byte 1 f :: byte 0 f :: p in
  let c := snd (CRC_Calculate lock (head ++ [0; 0; 0; 0; 13; 10])) in
  head ++ [byte 3 c; byte 2 c; byte 1 c; byte 0 c; 13; 10].

Lemma framed_true : forall a f p, framed true a f p = encode a f p.
Proof. reflexivity. Qed.

Lemma framed_length : forall lock a f p, length (framed lock a f p) = (length p + 11)%nat.
Proof. intros. unfold framed. cbv zeta. cbn [length app]. rewrite app_length. cbn [length]. lia. Qed.

Lemma framed_payload : forall lock a f p, frame_payload (framed lock a f p) = p.
Proof.
  intros. unfold frame_payload. rewrite framed_length. unfold framed. cbv zeta. cbn [app skipn].
  apply firstn_exact. lia.
Qed.

Lemma encoder_builds_any : forall lock e buffer payload,
  Z.of_nat (length payload) = e_dataLen e -> e_msgLen e = e_dataLen e + 11 -> e_msgLen e < 65536 ->
  Z.of_nat (length buffer) = e_msgLen e ->
  exists b1 b2, MsgFrameEncode_InitFrame e buffer = Some b1 /\
    wr_block b1 5 payload = Some b2 /\
    MsgFrameEncode_UpdateCRC lock e b2 = Some (framed lock (e_address e) (e_function e) payload).
Proof.
  intros lock e buffer payload HP HM HU HB.
  destruct buffer as [|x0 [|x1 [|x2 [|x3 [|x4 buf]]]]]; try (simpl length in HB; lia).
  destruct (split_at _ (length payload) buf) as (mid & t & E & Lm); [simpl length in HB; lia|].
  assert (Lt : length t = 6%nat) by (subst buf; simpl length in HB; rewrite app_length in HB; lia).
  destruct t as [|y0 [|y1 [|y2 [|y3 [|y4 [|y5 [|? ?]]]]]]]; try discriminate. clear Lt.
  unfold MsgFrameEncode_InitFrame.
  destruct (Z.geb_spec (e_msgLen e) 11); [|lia].
  destruct (Z.eqb_spec (e_msgLen e - 11) (e_dataLen e)); [|lia]. simpl negb. cbn [orb]. cbv iota.
  pose proof (wr_mid _ [] x0 58 (x1 :: x2 :: x3 :: x4 :: buf) 0 eq_refl) as W0.
  cbn [app] in W0. rewrite W0. clear W0. rewrite E.
  replace (58 :: x1 :: x2 :: x3 :: x4 :: mid ++ [y0; y1; y2; y3; y4; y5])
    with ((58 :: x1 :: x2 :: x3 :: x4 :: mid ++ [y0; y1; y2; y3]) ++ y4 :: [y5])
    by (simpl; rewrite <- app_assoc; reflexivity).
  rewrite wr_mid by (simpl length; rewrite app_length; simpl length; lia).
  replace ((58 :: x1 :: x2 :: x3 :: x4 :: mid ++ [y0; y1; y2; y3]) ++ 13 :: [y5])
    with ((58 :: x1 :: x2 :: x3 :: x4 :: mid ++ [y0; y1; y2; y3; 13]) ++ y5 :: [])
    by (simpl; rewrite <- !app_assoc; reflexivity).
  rewrite wr_mid by (simpl length; rewrite app_length; simpl length; lia).
  replace ((58 :: x1 :: x2 :: x3 :: x4 :: mid ++ [y0; y1; y2; y3; 13]) ++ [10])
    with ([58] ++ x1 :: (x2 :: x3 :: x4 :: mid ++ [y0; y1; y2; y3; 13; 10]))
    by (simpl; rewrite <- !app_assoc; reflexivity).
  rewrite wr_mid by reflexivity.
  match goal with |- context [[58] ++ ?u :: x2 :: ?r] =>
    change ([58] ++ u :: x2 :: r) with ([58; u] ++ x2 :: r) end.
  rewrite wr_mid by reflexivity.
  match goal with |- context [[58; ?u] ++ ?v :: x3 :: ?r] =>
    change ([58; u] ++ v :: x3 :: r) with ([58; u; v] ++ x3 :: r) end.
  rewrite wr_mid by reflexivity.
  match goal with |- context [[58; ?u; ?v] ++ ?z :: x4 :: ?r] =>
    change ([58; u; v] ++ z :: x4 :: r) with ([58; u; v; z] ++ x4 :: r) end.
  rewrite wr_mid by reflexivity.
  set (a := e_address e). set (f := e_function e).
  set (hd5 := [58; byte 1 a; byte 0 a; byte 1 f; byte 0 f]).
  exists (hd5 ++ mid ++ [y0; y1; y2; y3; 13; 10]), (hd5 ++ payload ++ [y0; y1; y2; y3; 13; 10]).
  split; [reflexivity|]. split; [apply wr_block_mid; [reflexivity|exact Lm]|].
  unfold MsgFrameEncode_UpdateCRC. rewrite u32_small by lia. cbv zeta.
  replace (hd5 ++ payload ++ [y0; y1; y2; y3; 13; 10]) with ((hd5 ++ payload) ++ [y0; y1; y2; y3] ++ [13; 10])
    by now rewrite <- app_assoc.
  rewrite wr_block_mid; [|rewrite app_length; simpl length; lia|reflexivity].
  assert (RB : rd_block ((hd5 ++ payload) ++ [0; 0; 0; 0] ++ [13; 10]) 0 (e_msgLen e)
               = Some ((hd5 ++ payload) ++ [0; 0; 0; 0; 13; 10])).
  { replace ((hd5 ++ payload) ++ [0; 0; 0; 0] ++ [13; 10])
      with ([] ++ ((hd5 ++ payload) ++ [0; 0; 0; 0; 13; 10]) ++ []) by (simpl; now rewrite app_nil_r).
    apply rd_block_mid; [reflexivity|rewrite !app_length; simpl length; lia]. }
  rewrite RB.
  rewrite wr_block_mid; [|rewrite app_length; simpl length; lia|reflexivity].
  reflexivity.
Qed.

Lemma encoder_builds : forall e buffer payload,
  Z.of_nat (length payload) = e_dataLen e -> e_msgLen e = e_dataLen e + 11 -> e_msgLen e < 65536 ->
  Z.of_nat (length buffer) = e_msgLen e ->
  exists b1 b2, MsgFrameEncode_InitFrame e buffer = Some b1 /\
    wr_block b1 5 payload = Some b2 /\
    MsgFrameEncode_UpdateCRC true e b2 = Some (encode (e_address e) (e_function e) payload).
Proof. intros. rewrite <- framed_true. now apply encoder_builds_any. Qed.

(** ** Frames in a stream *)
Lemma scan_in_order : forall L s k, (1 <= L)%nat -> in_order (scan L k s) (skipn k s).
Proof.
  intros L s. induction s as [|x s IH]; intros k HL; [constructor|].
  destruct k as [|k]; [|simpl; now apply IH]. cbn [scan].
  destruct (valid_frame L (firstn L (x :: s))) eqn:V.
  - change (skipn 0 (x :: s)) with (x :: s).
    rewrite <- (firstn_skipn L (x :: s)) at 2.
    change (firstn L (x :: s) ++ skipn L (x :: s)) with ([] ++ firstn L (x :: s) ++ skipn L (x :: s)).
    constructor. replace (skipn L (x :: s)) with (skipn (L - 1) s); [now apply IH|].
    destruct L; [lia|]. simpl. f_equal. lia.
  - change (skipn 0 (x :: s)) with ([x] ++ skipn 0 s). apply in_order_gap. now apply IH.
Qed.

Lemma scan_valid : forall L s k, Forall (fun w => valid_frame L w = true) (scan L k s).
Proof.
  intros L s. induction s as [|x s IH]; intros k; [constructor|]. destruct k as [|k]; cbn [scan]; [|apply IH].
  destruct (valid_frame L (firstn L (x :: s))) eqn:V; [constructor; auto|apply IH].
Qed.

Lemma scan_clean : forall L f t noise k, (1 <= L)%nat -> valid_frame L f = true ->
  (k <= length noise)%nat -> clean_before L noise f ->
  scan L k (noise ++ f ++ t) = scan L k noise ++ f :: scan L 0 t.
Proof.
  intros L f t noise. induction noise as [|x noise IH]; intros k HL HF HK HC.
  - simpl in HK. replace k with 0%nat by lia. simpl app. now apply scan_hit.
  - assert (HC' : clean_before L noise f).
    { intros i H1 H2. apply (HC (S i)); simpl; lia. }
    cbn [app scan]. destruct k as [|k]; [|apply IH; auto; simpl in HK; lia].
    destruct (le_lt_dec L (length (x :: noise))) as [G|G].
    + replace (firstn L (x :: noise ++ f ++ t)) with (firstn L (x :: noise)).
      * destruct (valid_frame L (firstn L (x :: noise))); [|apply IH; auto; lia].
        cbn [app]. f_equal. apply IH; auto. simpl in G. lia.
      * change (x :: noise ++ f ++ t) with ((x :: noise) ++ f ++ t).
        rewrite firstn_app. replace (L - length (x :: noise))%nat with 0%nat by lia.
        simpl (firstn 0 _). now rewrite app_nil_r.
    + pose proof (valid_length _ _ HF) as LF.
      assert (V1 : valid_frame L (firstn L (x :: noise ++ f ++ t)) = false).
      { replace (firstn L (x :: noise ++ f ++ t)) with (firstn L (skipn 0 ((x :: noise) ++ f))).
        - apply HC; simpl in *; lia.
        - simpl skipn. change (x :: noise ++ f ++ t) with ((x :: noise) ++ f ++ t).
          rewrite app_assoc, (firstn_app _ _ t). rewrite app_length.
          replace (L - (length (x :: noise) + length f))%nat with 0%nat by lia.
          simpl (firstn 0 _). now rewrite app_nil_r. }
      rewrite V1. assert (V2 : valid_frame L (firstn L (x :: noise)) = false).
      { destruct (valid_frame L (firstn L (x :: noise))) eqn:V; [|reflexivity].
        apply valid_length in V. rewrite firstn_length in V. lia. }
      rewrite V2. apply IH; auto. lia.
Qed.

(** ** Deliver in chunks, decode until false *)
Lemma pull_all_spec : forall n L m rest, inv L m rest -> (length rest / L < n)%nat ->
  exists m' out rest', pull_all n m = Some (m', out) /\ inv L m' rest' /\
    (length rest' < L)%nat /\ d_start m' <= 1 /\
    forall X, scan L 0 (rest ++ X) = out ++ scan L 0 (rest' ++ X).
Proof.
  induction n as [|n IH]; intros L m rest I H; [now apply Nat.nlt_0_r in H|].
  assert (HL : (6 <= L)%nat) by apply I.
  destruct (recv_spec L m rest [] I) as (junk & wo & rest1 & locks' & r & m1 & E & B & I1 & D & F).
  destruct (F (Forall_nil _)) as [_ F2]. cbn [pull_all]. rewrite E.
  destruct wo as [w|].
  - destruct D as (D1 & D2 & D3 & _). destruct r as [off|]; [|easy]. rewrite D2.
    destruct (IH L m1 rest1 I1) as (m2 & out & rest2 & E2 & I2 & R2 & S2 & F3).
    { assert (LR : (length rest >= L + length rest1)%nat) by (rewrite B, !app_length; lia).
      assert ((length rest1 + 1 * L) / L <= length rest / L)%nat by (apply Nat.div_le_mono; lia).
      rewrite Nat.div_add in H0 by lia. lia. }
    rewrite E2. exists m2, ([w] ++ out), rest2. split; [reflexivity|]. split; [exact I2|].
    split; [exact R2|]. split; [exact S2|]. intros X. rewrite F2, F3. reflexivity.
  - destruct D as (-> & D2 & D3). exists m1, [], rest1. split; [reflexivity|]. split; [exact I1|].
    split; [exact D2|]. split; [exact D3|]. intros X. rewrite F2. reflexivity.
Qed.

Lemma inv_avail : forall L m rest, inv L m rest ->
  d_avail m = 1024 - d_end m /\ d_end m = d_start m + Z.of_nat (length rest) /\ 0 <= d_start m /\ d_end m <= 1024.
Proof.
  intros L m rest [_ _ _ (pre & post & HD & HS & HE & HA & HT)].
  assert (N : Z.of_nat (Z.to_nat 1024) = 1024) by reflexivity. lia.
Qed.

Lemma deliver_spec : forall L chunks m rest, inv L m rest -> (length rest < L)%nat -> d_start m <= 1 ->
  Forall (Forall is_byte) chunks -> Forall (fun c => Z.of_nat (length c) <= 1024 - Z.of_nat L) chunks ->
  exists m' out rest', deliver m chunks = Some (m', out) /\ inv L m' rest' /\ (length rest' < L)%nat /\
    d_start m' <= 1 /\
    forall X, scan L 0 (rest ++ concat chunks ++ X) = out ++ scan L 0 (rest' ++ X).
Proof.
  intros L. induction chunks as [|c chunks IH]; intros m rest I R S HB HC.
  - exists m, [], rest. repeat (split; [reflexivity || assumption|]). reflexivity.
  - inversion HB as [|? ? B1 B2]; subst. inversion HC as [|? ? C1 C2]; subst.
    pose proof (inv_avail _ _ _ I) as (A1 & A2 & A3 & A4).
    destruct (push_spec L m rest c I B1) as (ok & m1 & E & OK & I1 & S1 & _).
    assert (ok = true) by (apply OK; lia). subst ok. cbn [deliver]. rewrite E.
    assert (HL : (6 <= L <= 1024)%nat) by apply I.
    pose proof (inv_avail _ _ _ I1) as (Q1 & Q2 & Q3 & Q4).
    destruct (pull_all_spec 200 L m1 (rest ++ c) I1) as (m2 & o1 & rest1 & E2 & I2 & R2 & S2 & F2).
    { apply Nat.le_lt_trans with (length (rest ++ c) / 6)%nat.
      - apply Nat.div_le_compat_l. lia.
      - apply Nat.div_lt_upper_bound; lia. }
    rewrite E2.
    destruct (IH m2 rest1 I2 R2 S2 B2 C2) as (m3 & o2 & rest2 & E3 & I3 & R3 & S3 & F3).
    rewrite E3. exists m3, (o1 ++ o2), rest2.
    split; [reflexivity|]. split; [exact I3|]. split; [exact R3|]. split; [exact S3|].
    intros X. cbn [concat].
    replace (rest ++ (c ++ concat chunks) ++ X) with ((rest ++ c) ++ (concat chunks ++ X))
      by (now rewrite <- !app_assoc).
    rewrite F2, F3. now rewrite app_assoc.
Qed.

(** The encoder working at the start of a longer buffer. *)
Lemma update_crc_app_l : forall lock e b t b', MsgFrameEncode_UpdateCRC lock e b = Some b' ->
  MsgFrameEncode_UpdateCRC lock e (b ++ t) = Some (b' ++ t).
Proof.
  intros lock e b t b'. unfold MsgFrameEncode_UpdateCRC. cbv zeta.
  destruct (wr_block b _ [0; 0; 0; 0]) as [b1|] eqn:E1; [|discriminate].
  rewrite (wr_block_app_l _ _ t _ _ _ E1).
  destruct (rd_block b1 0 _) as [w|] eqn:E2; [|discriminate].
  rewrite (rd_block_app_l _ _ t _ _ _ E2). intros E3. apply (wr_block_app_l _ _ t _ _ _ E3).
Qed.
Lemma init_frame_app_l : forall e b t b', MsgFrameEncode_InitFrame e b = Some b' ->
  MsgFrameEncode_InitFrame e (b ++ t) = Some (b' ++ t).
Proof.
  intros e b t b'. unfold MsgFrameEncode_InitFrame. destruct (_ || _); [discriminate|].
  repeat match goal with |- (match wr ?l ?i ?x with _ => _ end = _) -> _ =>
    let E := fresh in destruct (wr l i x) eqn:E; [|discriminate]; rewrite (wr_app_l _ _ t _ _ _ E) end.
  intros E. apply (wr_app_l _ _ t _ _ _ E).
Qed.

Lemma encoder_builds_in : forall e buffer payload,
  Z.of_nat (length payload) = e_dataLen e -> e_msgLen e = e_dataLen e + 11 -> e_msgLen e < 65536 ->
  e_msgLen e <= Z.of_nat (length buffer) ->
  exists b1 b2 tail, MsgFrameEncode_InitFrame e buffer = Some b1 /\
    wr_block b1 5 payload = Some b2 /\
    MsgFrameEncode_UpdateCRC true e b2 = Some (encode (e_address e) (e_function e) payload ++ tail) /\
    (length (encode (e_address e) (e_function e) payload ++ tail) = length buffer)%nat.
Proof.
  intros e buffer payload HP HM HU HB.
  destruct (split_at _ (Z.to_nat (e_msgLen e)) buffer) as (a & t & -> & La); [lia|].
  destruct (encoder_builds e a payload) as (b1 & b2 & E1 & E2 & E3); [auto..|lia|].
  exists (b1 ++ t), (b2 ++ t), t. split; [now apply init_frame_app_l|].
  split; [now apply wr_block_app_l|]. split; [now apply update_crc_app_l|].
  rewrite !app_length, encode_length. lia.
Qed.
