From Coq Require Import ZifyBool ZifyNat String.
From Verif.Base Require Import Text.
From Verif.Model Require Import Gps.
From Verif.Spec Require Import NmeaSpec.
From Verif.Proof Require Import MemFacts.

(** ** Times *)

Lemma dec_inv : forall c d, charToUIntDec c = Some d <-> (c = dig d /\ is_dig d).
Proof.
  intros c d. unfold charToUIntDec, dig, is_dig. rewrite Z.geb_leb.
  destruct (Z.leb_spec 48 c), (Z.leb_spec c 57); simpl; split; intros H1; try discriminate; try lia.
  - injection H1 as <-. lia.
  - f_equal. lia.
Qed.
Lemma dec_dig : forall d, is_dig d -> charToUIntDec (dig d) = Some d.
Proof. intros. now apply dec_inv. Qed.

Lemma rd_cons0 : forall A (x : A) t, rd (x :: t) 0 = Some x.
Proof. intros. apply (rd_mid A [] x t). reflexivity. Qed.

Ltac rdm t := let R := fresh in pose proof (t eq_refl) as R; cbn [app] in R; rewrite R; clear R.

Lemma utc_in11 : forall c0 c1 c2 c3 c4 c5 c6 c7 c8 c9 c10 t,
  NmeaCharToUTCTime (c0 :: c1 :: c2 :: c3 :: c4 :: c5 :: c6 :: c7 :: c8 :: c9 :: c10 :: t) =
  if negb (c10 =? 0) then Some None else
  match charToUIntDec c0, charToUIntDec c1, charToUIntDec c2,
        charToUIntDec c3, charToUIntDec c4, charToUIntDec c5 with
  | Some h1, Some h0, Some m1, Some m0, Some s1, Some s0 =>
      let time ms2 ms1 ms0 :=
        mkUtc (u8 (10 * h1 + h0)) (u8 (10 * m1 + m0)) (u8 (10 * s1 + s0))
              (u16 (100 * ms2 + 10 * ms1 + ms0)) in
      if c6 =? 46 then
        match charToUIntDec c7, charToUIntDec c8, charToUIntDec c9 with
        | Some ms2, Some ms1, Some ms0 => Some (Some (time ms2 ms1 ms0))
        | _, _, _ => Some None
        end
      else if negb (c6 =? 0) then Some None
      else Some (Some (time 0 0 0))
  | _, _, _, _, _, _ => Some None
  end.
Proof.
  intros. unfold NmeaCharToUTCTime.
  rdm (rd_mid Z [c0;c1;c2;c3;c4;c5;c6;c7;c8;c9] c10 t 10).
  rdm (rd_mid Z [c0;c1;c2;c3;c4;c5;c6;c7;c8] c9 (c10 :: t) 9).
  rdm (rd_mid Z [c0;c1;c2;c3;c4;c5;c6;c7] c8 (c9 :: c10 :: t) 8).
  rdm (rd_mid Z [c0;c1;c2;c3;c4;c5;c6] c7 (c8 :: c9 :: c10 :: t) 7).
  rdm (rd_mid Z [c0;c1;c2;c3;c4;c5] c6 (c7 :: c8 :: c9 :: c10 :: t) 6).
  rdm (rd_mid Z [c0;c1;c2;c3;c4] c5 (c6 :: c7 :: c8 :: c9 :: c10 :: t) 5).
  rdm (rd_mid Z [c0;c1;c2;c3] c4 (c5 :: c6 :: c7 :: c8 :: c9 :: c10 :: t) 4).
  rdm (rd_mid Z [c0;c1;c2] c3 (c4 :: c5 :: c6 :: c7 :: c8 :: c9 :: c10 :: t) 3).
  rdm (rd_mid Z [c0;c1] c2 (c3 :: c4 :: c5 :: c6 :: c7 :: c8 :: c9 :: c10 :: t) 2).
  rdm (rd_mid Z [c0] c1 (c2 :: c3 :: c4 :: c5 :: c6 :: c7 :: c8 :: c9 :: c10 :: t) 1).
  rewrite rd_cons0. reflexivity.
Qed.

Lemma cstr_dig : forall d t, is_dig d -> cstr (dig d :: t) = dig d :: cstr t.
Proof. intros d t H. unfold is_dig, dig in *. simpl. destruct (Z.eqb_spec (48 + d) 0); [lia|reflexivity]. Qed.

Lemma small_u8 : forall a b, is_dig a -> is_dig b -> u8 (10 * a + b) = 10 * a + b.
Proof. intros a b. unfold is_dig, u8. intros. apply Z.mod_small. lia. Qed.
Lemma small_u16 : forall a b c, is_dig a -> is_dig b -> is_dig c ->
  u16 (100 * a + 10 * b + c) = 100 * a + 10 * b + c.
Proof. intros a b c. unfold is_dig, u16. intros. apply Z.mod_small. lia. Qed.

(** Exactness of the time parser on arrays of at least 11 characters. *)
Lemma utc_exact : forall s u, (11 <= length s)%nat ->
  (NmeaCharToUTCTime s = Some (Some u) <->
   nth 10 s 1 = 0 /\ time_text (cstr s) u) /\
  NmeaCharToUTCTime s <> None.
Proof.
  intros s u L.
  destruct s as [|c0 [|c1 [|c2 [|c3 [|c4 [|c5 [|c6 [|c7 [|c8 [|c9 [|c10 t]]]]]]]]]]]; simpl in L; try lia.
  rewrite utc_in11. cbn [nth]. destruct (Z.eqb_spec c10 0) as [->|N]; simpl negb; cbv iota.
  2:{ split; [split; [discriminate|intros [? _]; congruence]|discriminate]. }
  split.
  - split.
    + intros H. split; [reflexivity|]. revert H.
      destruct (charToUIntDec c0) as [h1|] eqn:E0; [|discriminate].
      destruct (charToUIntDec c1) as [h0|] eqn:E1; [|discriminate].
      destruct (charToUIntDec c2) as [m1|] eqn:E2; [|discriminate].
      destruct (charToUIntDec c3) as [m0|] eqn:E3; [|discriminate].
      destruct (charToUIntDec c4) as [s1|] eqn:E4; [|discriminate].
      destruct (charToUIntDec c5) as [s0|] eqn:E5; [|discriminate].
      apply dec_inv in E0 as [-> ?], E1 as [-> ?], E2 as [-> ?], E3 as [-> ?], E4 as [-> ?], E5 as [-> ?].
      cbv zeta. rewrite !small_u8 by assumption.
      destruct (Z.eqb_spec c6 46) as [->|N6].
      * destruct (charToUIntDec c7) as [f2|] eqn:E7; [|discriminate].
        destruct (charToUIntDec c8) as [f1|] eqn:E8; [|discriminate].
        destruct (charToUIntDec c9) as [f0|] eqn:E9; [|discriminate].
        apply dec_inv in E7 as [-> ?], E8 as [-> ?], E9 as [-> ?].
        rewrite small_u16 by assumption. intros [= <-].
        rewrite !cstr_dig by assumption.
        change (cstr (46 :: ?l)) with (46 :: cstr l). rewrite !cstr_dig by assumption.
        change (cstr (0 :: t)) with (@nil Z).
        apply (time_millis h1 h0 m1 m0 s1 s0 f2 f1 f0). repeat (apply Forall_cons; [assumption|]); apply Forall_nil.
      * destruct (Z.eqb_spec c6 0) as [->|N0]; simpl negb; cbv iota; [|discriminate].
        intros [= <-]. rewrite !cstr_dig by assumption.
        change (cstr (0 :: ?l)) with (@nil Z).
        apply (time_seconds h1 h0 m1 m0 s1 s0). repeat (apply Forall_cons; [assumption|]); apply Forall_nil.
    + intros [_ H]. remember (cstr _) as q eqn:Q.
      assert (step : forall d c l r, is_dig d -> dig d :: l = cstr (c :: r) -> c = dig d /\ l = cstr r).
      { intros d c l r D E. unfold dig in *. simpl in E. destruct (Z.eqb_spec c 0); [discriminate|].
        injection E as <- ->. auto. }
      destruct H as [h1 h0 m1 m0 s1 s0 F | h1 h0 m1 m0 s1 s0 f2 f1 f0 F];
        repeat match goal with H : Forall _ (_ :: _) |- _ => apply Forall_cons_iff in H as [? H] end;
        cbn [map app] in Q.
      * do 6 (apply step in Q as [-> Q]; [|assumption]).
        simpl in Q. destruct (Z.eqb_spec c6 0) as [->|]; [|discriminate].
        rewrite !dec_dig by assumption. cbv zeta. rewrite !small_u8 by assumption. reflexivity.
      * do 6 (apply step in Q as [-> Q]; [|assumption]).
        change (str "." ++ ?l) with (46 :: l) in Q.
        assert (c6 = 46 /\ [dig f2; dig f1; dig f0] = cstr (c7 :: c8 :: c9 :: 0 :: t)) as [-> Q'].
        { revert Q. generalize (c7 :: c8 :: c9 :: 0 :: t). intros l Q. simpl in Q.
          destruct (Z.eqb_spec c6 0); [discriminate|]. injection Q as <- ->. auto. }
        do 3 (apply step in Q' as [-> Q']; [|assumption]).
        rewrite !dec_dig by assumption. cbv zeta. rewrite !small_u8, small_u16 by assumption. reflexivity.
  - repeat match goal with |- context[match charToUIntDec ?c with _ => _ end] => destruct (charToUIntDec c) end;
      try discriminate; cbv zeta; destruct (c6 =? 46); try destruct (negb _); discriminate.
Qed.

(** ** Numbers *)

Lemma number_snoc : forall ds d, number (ds ++ [d]) = 10 * number ds + d.
Proof. intros. unfold number. rewrite fold_left_app. reflexivity. Qed.

Lemma mod256 : forall a b k, a = b + 256 * k -> a mod 256 = b mod 256.
Proof. intros a b k ->. rewrite (Z.mul_comm 256 k). apply Z.mod_add. lia. Qed.

Lemma firstn_S_nth : forall (l : list Z) k, (k < length l)%nat -> firstn (S k) l = firstn k l ++ [nth k l 0].
Proof.
  induction l as [|x l IH]; intros k H; simpl in H; [lia|]. destruct k; [reflexivity|].
  cbn [firstn app nth]. f_equal. apply IH. lia.
Qed.

Lemma strDec_total : forall str k mul out, (k <= length str)%nat ->
  exists b r, strDecLoop str k mul out = Some (b, r) /\
    if b : bool then exists ds, Forall is_dig ds /\ firstn k str = map dig ds /\
                      r mod 256 = (out + mul * number ds) mod 256 /\ (k <> O -> 0 <= r < 256)
    else forall ds, Forall is_dig ds -> firstn k str <> map dig ds.
Proof.
  induction k as [|k IH]; intros mul out H.
  - exists true, out. split; [reflexivity|]. exists []. repeat split; auto; try tauto.
    unfold number. simpl. f_equal. lia.
  - cbn [strDecLoop]. rewrite (rd_nth Z str (Z.of_nat k) 0) by lia. rewrite Nat2Z.id.
    rewrite firstn_S_nth by lia.
    destruct (charToUIntDec (nth k str 0)) as [d|] eqn:E.
    + apply dec_inv in E as [E D].
      edestruct (IH (u16 (mul * 10)) (u8 (out + u8 (mul * d)))) as (b & r & Q & R); [lia|].
      exists b, r. split; [exact Q|]. destruct b.
      * destruct R as (ds & F & S & V & Z0). exists (ds ++ [d]). split; [apply Forall_app; auto|].
        split; [rewrite map_app, S, E; reflexivity|]. split.
        -- rewrite V, number_snoc.
           unfold u8, u16. change (2 ^ 8) with 256. change (2 ^ 16) with 65536.
           pose proof (Z.div_mod (mul * 10) 65536 ltac:(lia)).
           pose proof (Z.div_mod (mul * d) 256 ltac:(lia)).
           pose proof (Z.div_mod (out + mul * d mod 256) 256 ltac:(lia)).
           set (a := mul * d / 256) in *. set (b := (out + mul * d mod 256) / 256) in *.
           set (c := mul * 10 / 65536) in *.
           apply (mod256 _ _ (- (a + b + 256 * c * number ds))).
           replace ((mul * 10) mod 65536) with (mul * 10 - 65536 * c) by lia.
           replace ((out + (mul * d) mod 256) mod 256) with (out + mul * d mod 256 - 256 * b) by lia.
           replace (mul * d mod 256) with (mul * d - 256 * a) by lia. ring.
        -- intros _. destruct k.
           ++ cbn [strDecLoop] in Q. injection Q as <-. unfold u8. apply Z.mod_pos_bound. lia.
           ++ apply Z0. lia.
      * intros ds F S. destruct ds as [|x ds _] using rev_ind.
        { apply (f_equal (@length Z)) in S. rewrite app_length in S. simpl in S. lia. }
        rewrite map_app in S. apply app_inj_tail in S as [S1 S2].
        apply Forall_app in F as [F1 F2]. exact (R ds F1 S1).
    + exists false, out. split; [reflexivity|]. intros ds F S.
      destruct ds as [|x ds _] using rev_ind.
      { apply (f_equal (@length Z)) in S. rewrite app_length in S. simpl in S. lia. }
      rewrite map_app in S. apply app_inj_tail in S as [S1 S2].
      apply Forall_app in F as [F1 F2]. apply Forall_inv in F2. simpl in S2. rewrite S2, dec_dig in E by exact F2.
      discriminate.
Qed.

(** ** Looking at an array from an index on *)

Definition view (d : list Z) (i : Z) (l : list Z) : Prop := 0 <= i /\ skipn (Z.to_nat i) d = l.

Lemma skipn_skipn : forall (d : list Z) b a, skipn a (skipn b d) = skipn (a + b) d.
Proof.
  induction d as [|y d IH]; intros b a; [now rewrite !skipn_nil|]. destruct b.
  - rewrite Nat.add_0_r. reflexivity.
  - rewrite Nat.add_succ_r. simpl. apply IH.
Qed.

Lemma skipn_cons : forall (d : list Z) n x t, skipn n d = x :: t ->
  skipn (S n) d = t /\ nth_error d n = Some x /\ (n < length d)%nat.
Proof.
  induction d as [|y d IH]; intros n x t H; [destruct n; discriminate|].
  destruct n; simpl in H.
  - injection H as -> ->. simpl. repeat split; lia.
  - apply IH in H as (A & B & C). simpl. repeat split; auto; lia.
Qed.

Lemma view_cons : forall d i x t, view d i (x :: t) ->
  rd d i = Some x /\ view d (i + 1) t /\ i < Z.of_nat (length d).
Proof.
  intros d i x t [P H]. apply skipn_cons in H as (A & B & C).
  split; [|split; [split; [lia|]|lia]].
  - unfold rd, get. destruct (Z.ltb_spec i (Z.of_nat (length d))); [|lia].
    destruct (Z.ltb_spec i 0); [lia|]. exact B.
  - rewrite <- A. f_equal. lia.
Qed.

Lemma view_app : forall d i a t, view d i (a ++ t) -> view d (i + Z.of_nat (length a)) t.
Proof.
  intros d i a t [P H]. split; [lia|].
  replace (Z.to_nat (i + Z.of_nat (length a))) with (length a + Z.to_nat i)%nat by lia.
  rewrite <- skipn_skipn, H. now rewrite skipn_app, skipn_all, Nat.sub_diag.
Qed.

Lemma view_len : forall d i l, view d i l -> i <= Z.of_nat (length d) ->
  Z.of_nat (length d) = i + Z.of_nat (length l).
Proof. intros d i l [P <-] H. rewrite skipn_length. lia. Qed.

Lemma view_len_le : forall d i a x t, view d i (a ++ x :: t) -> i + Z.of_nat (length a) < Z.of_nat (length d).
Proof. intros d i a x t H. apply view_app in H. apply view_cons in H. tauto. Qed.

Lemma view_rd : forall d i x, rd d i = Some x -> 0 <= i ->
  exists t, view d i (x :: t).
Proof.
  intros d i x H P. exists (skipn (S (Z.to_nat i)) d). split; [exact P|].
  unfold rd, get in H. destruct (Z.ltb_spec i (Z.of_nat (length d))); [|discriminate].
  destruct (Z.ltb_spec i 0); [lia|]. clear -H. revert H. generalize (Z.to_nat i). intros n.
  revert n. induction d as [|y d IH]; intros [|n] E; simpl in E |- *; try discriminate.
  - now injection E as ->.
  - exact (IH n E).
Qed.

Lemma view_fun : forall d i l l', view d i l -> view d i l' -> l = l'.
Proof. intros d i l l' [_ <-] [_ <-]. reflexivity. Qed.

Lemma view_block : forall d i a t, view d i (a ++ t) -> i + Z.of_nat (length a) <= Z.of_nat (length d) ->
  rd_block d i (Z.of_nat (length a)) = Some a.
Proof.
  intros d i a t [P H] L. unfold rd_block.
  destruct (Z.leb_spec 0 i); [|lia]. destruct (Z.leb_spec 0 (Z.of_nat (length a))); [|lia].
  destruct (Z.leb_spec (i + Z.of_nat (length a)) (Z.of_nat (length d))); [|lia]. simpl.
  rewrite H, Nat2Z.id, firstn_app, firstn_all, Nat.sub_diag. simpl. now rewrite app_nil_r.
Qed.

Lemma view_rd_block : forall d i n a, rd_block d i n = Some a -> exists t, view d i (a ++ t) /\ Z.of_nat (length a) = n.
Proof.
  intros d i n a. unfold rd_block. destruct (Z.leb_spec 0 i); [|discriminate].
  destruct (Z.leb_spec 0 n); [|discriminate].
  destruct (Z.leb_spec (i + n) (Z.of_nat (length d))); [|discriminate]. simpl. intros [= <-].
  exists (skipn (Z.to_nat n) (skipn (Z.to_nat i) d)). split.
  - split; [lia|]. now rewrite firstn_skipn.
  - rewrite firstn_length, skipn_length. lia.
Qed.

(** ** Tokens *)

Lemma u16_small : forall z, 0 <= z < 65536 -> u16 z = z.
Proof. intros. unfold u16. apply Z.mod_small. lia. Qed.

Lemma firstn_upd : forall (l : list Z) k c, (k < length l)%nat -> firstn (S k) (upd l k c) = firstn k l ++ [c].
Proof.
  induction l as [|x l IH]; intros k c H; simpl in H; [lia|]. destruct k; [reflexivity|].
  cbn [upd firstn app]. f_equal. apply IH. lia.
Qed.
Lemma skipn_upd : forall (l : list Z) k c j, (k < j)%nat -> skipn j (upd l k c) = skipn j l.
Proof.
  induction l as [|x l IH]; intros k c j H; [reflexivity|]. destruct k, j; try lia; [reflexivity|].
  cbn [upd skipn]. apply IH. lia.
Qed.
Lemma wr_in : forall (l : list Z) k c, (k < length l)%nat -> wr l (Z.of_nat k) c = Some (upd l k c).
Proof.
  intros l k c H. unfold wr. destruct (Z.leb_spec 0 (Z.of_nat k)); [|lia].
  destruct (Z.ltb_spec (Z.of_nat k) (Z.of_nat (length l))); [|lia]. simpl. now rewrite Nat2Z.id.
Qed.
Lemma wr_out : forall (l : list Z) k c, (length l <= k)%nat -> wr l (Z.of_nat k) c = None.
Proof.
  intros l k c H. unfold wr. destruct (Z.leb_spec 0 (Z.of_nat k)); [|lia].
  destruct (Z.ltb_spec (Z.of_nat k) (Z.of_nat (length l))); [lia|]. reflexivity.
Qed.

(** One field [f], ended by a comma or by the end of the payload. *)
Lemma tokenLoop_field : forall d b len f i buf k c rest,
  view d (b + i) (f ++ c :: rest) -> ~ In 44 f -> 0 <= i -> 0 <= len < 65000 ->
  i + Z.of_nat (length f) <= len -> (i + Z.of_nat (length f) = len \/ c = 44) ->
  (k <= length buf)%nat -> length buf = 128%nat ->
  tokenLoop d (Z.to_nat (len - i)) (mkToken b len i buf) (Z.of_nat k) =
  if (k + length f <=? length buf)%nat
  then Some (Z.of_nat (k + length f),
             mkToken b len (i + Z.of_nat (length f))
               (firstn k buf ++ f ++ skipn (k + length f) buf))
  else None.
Proof.
  induction f as [|x f IH]; intros i buf k c rest V NC I L LE E K K2.
  - cbn [app] in V. apply view_cons in V as (V & _ & _).
    cbn [length] in *. rewrite Nat.add_0_r, Z.add_0_r in *. cbn [app].
    rewrite firstn_skipn. destruct (Nat.leb_spec k (length buf)); [|lia].
    destruct (Z.to_nat (len - i)) eqn:N; cbn [tokenLoop tk_base tk_i tk_len tk_buf]; rewrite V; [reflexivity|].
    destruct E as [E | ->]; [lia|]. reflexivity.
  - cbn [app] in V. apply view_cons in V as (V & V' & _). cbn [length] in *.
    replace (Z.to_nat (len - i)) with (S (Z.to_nat (len - (i + 1)))) by lia.
    cbn [tokenLoop tk_base tk_i tk_len tk_buf]. rewrite V.
    destruct (Z.eqb_spec x 44) as [->|X]; [exfalso; apply NC; left; reflexivity|].
    destruct (Z.ltb_spec i len); [|lia]. simpl andb. cbv iota.
    destruct (Nat.ltb_spec k (length buf)).
    + rewrite wr_in by assumption.
      rewrite u16_small by lia. rewrite u16_small by lia.
      replace (Z.of_nat k + 1) with (Z.of_nat (S k)) by lia.
      assert (LB : length (upd buf k x) = length buf) by apply upd_length.
      rewrite IH with (c := c) (rest := rest); rewrite ?LB; try lia.
      * replace (S k + length f)%nat with (k + S (length f))%nat by lia.
        destruct (_ <=? _)%nat; [|reflexivity]. do 2 f_equal.
        f_equal; [lia|].
        rewrite firstn_upd by assumption. rewrite skipn_upd by lia.
        rewrite <- app_assoc. reflexivity.
      * rewrite Z.add_assoc. exact V'.
      * intros A. apply NC. now right.
    + rewrite wr_out by assumption. destruct (Nat.leb_spec (k + S (length f)) (length buf)); [lia|reflexivity].
Qed.

Definition tok_after (b len i : Z) (f buf : list Z) : token :=
  mkToken b len (i + Z.of_nat (length f) + 1) (f ++ 0 :: skipn (S (length f)) buf).

Lemma extract_field : forall d b len f i buf c rest,
  view d (b + i) (f ++ c :: rest) -> ~ In 44 f -> 0 <= i -> 0 < len < 65000 ->
  i + Z.of_nat (length f) <= len -> (i + Z.of_nat (length f) = len \/ c = 44) ->
  length buf = 128%nat ->
  extractNextToken d (mkToken b len i buf) =
  if (length f <? 128)%nat then Some (Z.of_nat (length f) + 1, tok_after b len i f buf) else None.
Proof.
  intros d b len f i buf c rest V NC I L LE E LB. unfold extractNextToken.
  cbn [tk_base tk_i tk_len tk_buf]. destruct (Z.eqb_spec len 0); [lia|].
  pose proof (tokenLoop_field d b len f i buf 0%nat c rest) as T. change (Z.of_nat 0) with 0 in T.
  rewrite T by (auto; lia). clear T.
  rewrite LB. cbn [Nat.add firstn app].
  destruct (Nat.leb_spec (length f) 128), (Nat.ltb_spec (length f) 128); try lia; [| |reflexivity].
  - cbn [tk_base tk_i tk_len tk_buf].
    assert (LL : length (f ++ skipn (length f) buf) = 128%nat) by (rewrite app_length, skipn_length; lia).
    rewrite wr_in by lia. rewrite !u16_small by lia. unfold tok_after.
    do 4 f_equal.
    destruct (skipn (length f) buf) as [|y t] eqn:S.
    + apply (f_equal (@length Z)) in S. rewrite skipn_length in S. simpl in S. lia.
    + apply skipn_cons in S as (S & _ & _). rewrite S. apply upd_mid.
  - cbn [tk_buf].
    rewrite wr_out; [reflexivity|]. rewrite app_length, skipn_length. lia.
Qed.

(** After the last field: one more call yields an empty token. *)
Lemma extract_past_end : forall d b len i buf c rest,
  view d (b + i) (c :: rest) -> 0 < len < 65000 -> i = len + 1 -> length buf = 128%nat ->
  exists t, extractNextToken d (mkToken b len i buf) = Some (1, t).
Proof.
  intros d b len i buf c rest V L -> LB. unfold extractNextToken.
  cbn [tk_base tk_i tk_len tk_buf]. destruct (Z.eqb_spec len 0); [lia|].
  replace (Z.to_nat (len - (len + 1))) with O by lia. cbn [tokenLoop tk_base tk_i tk_len tk_buf].
  apply view_cons in V as (-> & _ & _). cbn [tk_base tk_i tk_len tk_buf].
  rewrite (wr_in buf 0) by lia. eauto.
Qed.

Lemma tok_after_buf : forall b len i f buf, (length f < 128)%nat -> length buf = 128%nat ->
  length (tk_buf (tok_after b len i f buf)) = 128%nat.
Proof. intros. unfold tok_after. cbn [tk_buf]. rewrite app_length. cbn [length]. rewrite skipn_length. lia. Qed.

(** ** The list of fields *)

Lemma fields_cons : forall p, exists f fs, fields p = f :: fs.
Proof.
  induction p as [|c p (f & fs & E)]; [exists [], []; reflexivity|]. simpl.
  destruct (c =? 44); [eauto|]. rewrite E. eauto.
Qed.

(** The first field, and what follows it. *)
Lemma fields_split : forall p f fs, fields p = f :: fs ->
  ~ In 44 f /\ (fs = [] /\ p = f \/ exists q, p = f ++ 44 :: q /\ fields q = fs).
Proof.
  induction p as [|c p IH]; intros f fs E.
  - injection E as <- <-. split; [tauto|]. now left.
  - simpl in E. destruct (Z.eqb_spec c 44) as [->|N].
    + injection E as <- <-. split; [tauto|]. right. exists p. auto.
    + destruct (fields_cons p) as (g & gs & E2). rewrite E2 in E. injection E as <- <-.
      destruct (IH _ _ E2) as (A & B). split; [intros [->|?]; tauto|].
      destruct B as [[-> ->]|(q & -> & Q)]; [left; auto|right; exists q; auto].
Qed.

Lemma fields_app : forall f q, ~ In 44 f -> fields (f ++ 44 :: q) = f :: fields q.
Proof.
  induction f as [|c f IH]; intros q N; [reflexivity|]. simpl.
  destruct (Z.eqb_spec c 44) as [->|]; [exfalso; apply N; now left|].
  rewrite IH by (intros A; apply N; now right). reflexivity.
Qed.

(** ** Payload *)

Lemma strncpy_length : forall n src, length (strncpy_src src n) = n.
Proof.
  induction n; intros [|c t]; cbn [strncpy_src]; auto; [apply repeat_length|].
  destruct (c =? 0); [apply repeat_length|]. simpl. now rewrite IHn.
Qed.

Lemma cstr_strncpy : forall f r q, cstr (strncpy_src (f ++ 0 :: r) (S (length f)) ++ q) = cstr f.
Proof.
  induction f as [|c f IH]; intros r q; [reflexivity|].
  cbn [length app]. change (strncpy_src (c :: f ++ 0 :: r) (S (S (length f)))) with
    (if c =? 0 then repeat 0 (S (S (length f))) else c :: strncpy_src (f ++ 0 :: r) (S (length f))).
  destruct (c =? 0) eqn:E.
  - simpl. now rewrite E.
  - cbn [app]. change (cstr (c :: f)) with (if c =? 0 then [] else c :: cstr f). rewrite E.
    change (cstr (c :: ?l)) with (if c =? 0 then [] else c :: cstr l). rewrite E. now rewrite IH.
Qed.

Lemma strncpy_inv : forall dst f r dst', strncpy dst (f ++ 0 :: r) (Z.of_nat (length f) + 1) = Some dst' ->
  cstr dst' = cstr f /\ length dst' = length dst.
Proof.
  intros dst f r dst'. unfold strncpy.
  replace (Z.to_nat (Z.of_nat (length f) + 1)) with (S (length f)) by lia. intros H.
  pose proof (wr_block_length _ _ _ _ _ H) as L. split; [|exact L].
  unfold wr_block in H. destruct (_ && _); [|discriminate]. injection H as <-.
  cbn [firstn app Z.to_nat]. apply cstr_strncpy.
Qed.

Lemma strncpy_ok : forall dst src n, length dst = 11%nat -> 0 <= n <= 11 -> exists dst', strncpy dst src n = Some dst'.
Proof.
  intros dst src n L N. unfold strncpy, wr_block. rewrite strncpy_length, L.
  destruct (Z.leb_spec 0 0); [|lia]. destruct (Z.leb_spec (0 + Z.of_nat (Z.to_nat n)) (Z.of_nat 11)); [|lia].
  simpl. eauto.
Qed.

Section Payload.
Variables (d : list Z) (b : Z) (p : list Z) (x : Z) (tl : list Z).
Hypothesis Vp : view d b (p ++ 42 :: x :: tl).
Hypothesis Len : 0 < Z.of_nat (length p) < 65000.
Let len := Z.of_nat (length p).

(** The token is positioned before the fields [fs]. *)
Definition at_fields (t : token) (fs : list (list Z)) : Prop :=
  tk_base t = b /\ tk_len t = len /\ length (tk_buf t) = 128%nat /\
  (fs = [] /\ tk_i t = len + 1 \/
   exists a q, p = a ++ q /\ Z.of_nat (length a) = tk_i t /\ fields q = fs).

Lemma at_step : forall t f fs, at_fields t (f :: fs) -> 
  if (length f <? 128)%nat then
    exists t', extractNextToken d t = Some (Z.of_nat (length f) + 1, t') /\ at_fields t' fs /\
      tk_buf t' = f ++ 0 :: skipn (S (length f)) (tk_buf t)
  else extractNextToken d t = None.
Proof.
  intros t f fs (B & L & LB & [[A _]|(a & q & Q & I & F)]); [discriminate|].
  apply fields_split in F as (NC & F). destruct t as [tb tlen ti buf]; cbn [tk_base tk_len tk_buf tk_i] in *.
  subst tb tlen.
  assert (exists c rest, view d (b + ti) (f ++ c :: rest) /\ ti + Z.of_nat (length f) <= len /\
            (ti + Z.of_nat (length f) = len \/ c = 44)) as (c & rest & V & LE & CE).
  { pose proof Vp as V. destruct F as [[-> ->]|(q' & -> & F)].
    - exists 42, (x :: tl). rewrite Q, <- app_assoc in V. apply view_app in V. rewrite I in V.
      unfold len. rewrite Q, app_length. split; [exact V|lia].
    - exists 44, (q' ++ 42 :: x :: tl). rewrite Q, <- !app_assoc in V. apply view_app in V. rewrite I in V.
      unfold len. rewrite Q, !app_length. cbn [length]. split; [|lia].
      rewrite <- app_comm_cons in V. exact V. }
  rewrite (extract_field d b len f ti buf c rest) by (auto; unfold len in *; lia).
  destruct (Nat.ltb_spec (length f) 128); [|reflexivity].
  exists (tok_after b len ti f buf). split; [reflexivity|]. split; [|reflexivity].
  split; [reflexivity|]. split; [reflexivity|]. split; [now apply tok_after_buf|].
  destruct F as [[-> ->]|(q' & -> & F)].
  - left. split; [reflexivity|]. cbn. unfold len. rewrite Q, app_length. lia.
  - right. exists (a ++ f ++ [44]), q'. split; [rewrite Q, <- !app_assoc; reflexivity|].
    split; [|exact F]. cbn. rewrite !app_length. cbn [length]. lia.
Qed.

Lemma at_end : forall t, at_fields t [] -> exists t', extractNextToken d t = Some (1, t').
Proof.
  intros t (B & L & LB & [[_ I]|(a & q & Q & I & F)]).
  - destruct t as [tb tlen ti buf]; cbn [tk_base tk_len tk_buf tk_i] in *. subst tb tlen.
    apply (extract_past_end d b len ti buf x tl); auto.
    subst ti. pose proof Vp as V. apply view_app in V. apply view_cons in V as (_ & V & _).
    rewrite <- Z.add_assoc in V. exact V.
  - destruct (fields_cons q) as (f & fs & E). congruence.
Qed.

Definition next (t : token) (f : list Z) (fs : list (list Z)) (t' : token) : Prop :=
  at_fields t' fs /\ tk_buf t' = f ++ 0 :: skipn (S (length f)) (tk_buf t).

Lemma tok_true : forall t fs g k g', at_fields t fs -> tok 2 d t g k = Some (true, g') ->
  exists f fs' t', fs = f :: fs' /\ f <> [] /\ (length f < 128)%nat /\ next t f fs' t' /\
    k (Z.of_nat (length f) + 1) t' = Some (true, g').
Proof.
  intros t fs g k g' A H. unfold tok in H. destruct fs as [|f fs].
  - destruct (at_end t A) as (t' & E). rewrite E in H. discriminate.
  - pose proof (at_step t f fs A) as S. destruct (Nat.ltb_spec (length f) 128).
    + destruct S as (t' & E & A' & B). rewrite E in H.
      destruct (Z.ltb_spec (Z.of_nat (length f) + 1) 2); [discriminate|].
      exists f, fs, t'. repeat split; auto; try apply A'. intros ->. simpl in *. lia.
    + rewrite S in H. discriminate.
Qed.

Lemma tok_fwd : forall t f fs, at_fields t (f :: fs) -> f <> [] -> (length f < 128)%nat ->
  exists t', next t f fs t' /\ forall g k, tok 2 d t g k = k (Z.of_nat (length f) + 1) t'.
Proof.
  intros t f fs A N L. pose proof (at_step t f fs A) as S. destruct (Nat.ltb_spec (length f) 128); [|lia].
  destruct S as (t' & E & A' & B). exists t'. split; [split; auto|]. intros. unfold tok. rewrite E.
  destruct (Z.ltb_spec (Z.of_nat (length f) + 1) 2); [|reflexivity]. destruct f; [congruence|]. simpl length in *. lia.
Qed.

Lemma tok_opt : forall t fs g k, at_fields t fs ->
  Forall (fun f => (length f < 128)%nat) fs -> exists c t', tok 1 d t g k = k c t'.
Proof.
  intros t fs g k A F. unfold tok. destruct fs as [|f fs].
  - destruct (at_end t A) as (t' & ->). simpl. eauto.
  - pose proof (at_step t f fs A) as S. apply Forall_inv in F; cbv beta in F.
    destruct (Nat.ltb_spec (length f) 128); [|lia]. destruct S as (t' & -> & _).
    destruct (Z.ltb_spec (Z.of_nat (length f) + 1) 1); [lia|]. eauto.
Qed.

Lemma tok_opt_true : forall t fs g g', at_fields t fs -> tok 1 d t g (fun _ _ => Some (true, g)) = Some (true, g') -> g' = g.
Proof. intros t fs g g' A. unfold tok. destruct (extractNextToken d t) as [[c t']|]; [|discriminate].
  destruct (_ <? _); [discriminate|]. now intros [= <-]. Qed.

(** No undefined behaviour as long as the fields are short. *)
Definition safe (r : option (bool * gps_t)) : Prop :=
  exists ok g, r = Some (ok, g) /\ gps_arrays g.

Lemma tok_safe : forall min t fs g k, at_fields t fs -> 1 <= min <= 2 -> gps_arrays g ->
  Forall (fun f => (length f < 128)%nat) fs ->
  (fs = [] -> min = 1 -> forall t', safe (k 1 t')) ->
  (forall f fs' t', fs = f :: fs' -> min <= Z.of_nat (length f) + 1 -> (length f < 128)%nat -> next t f fs' t' ->
     Forall (fun f => (length f < 128)%nat) fs' -> safe (k (Z.of_nat (length f) + 1) t')) ->
  safe (tok min d t g k).
Proof.
  intros min t fs g k A M GA F K0 K. unfold tok. destruct fs as [|f fs].
  - destruct (at_end t A) as (t' & ->). destruct (Z.ltb_spec 1 min).
    + exists false, g. auto.
    + apply K0; [reflexivity|lia].
  - pose proof (at_step t f fs A) as S. pose proof (Forall_inv F) as FI; cbv beta in FI.
    destruct (Nat.ltb_spec (length f) 128); [|lia]. destruct S as (t' & -> & A' & B).
    destruct (Z.ltb_spec (Z.of_nat (length f) + 1) min).
    + exists false, g. auto.
    + apply (K f fs t'); auto; [split; auto|]. now apply Forall_inv_tail in F.
Qed.

Lemma tok_long : forall min t f fs g k, at_fields t (f :: fs) -> (128 <= length f)%nat -> tok min d t g k = None.
Proof.
  intros min t f fs g k A L. unfold tok. pose proof (at_step t f fs A) as S.
  destruct (Nat.ltb_spec (length f) 128); [lia|]. now rewrite S.
Qed.

Lemma rd_hd : forall f r c, hd_error f = Some c -> rd (f ++ 0 :: r) 0 = Some c.
Proof. intros [|y f] r c [= ->]. apply rd_cons0. Qed.

Lemma rd_hd_inv : forall f r, f <> [] -> exists c, hd_error f = Some c /\ rd (f ++ 0 :: r) 0 = Some c.
Proof. intros [|y f] r N; [congruence|]. exists y. split; [reflexivity|apply rd_cons0]. Qed.

Lemma nsat_spec : forall f r, (length f < 128)%nat ->
  exists ok v, strToUInt8Dec (f ++ 0 :: r) (Z.of_nat (length f) + 1 - 1) = Some (ok, v) /\
   if ok : bool then exists n, dec_text f n /\ v mod 256 = n mod 256 /\ (f <> [] -> 0 <= v < 256)
   else forall n, ~ dec_text f n.
Proof.
  intros f r L. unfold strToUInt8Dec.
  replace (Z.to_nat (Z.of_nat (length f) + 1 - 1)) with (length f) by lia.
  destruct (strDec_total (f ++ 0 :: r) (length f) 1 0) as (ok & v & E & S); [rewrite app_length; lia|].
  rewrite firstn_app, firstn_all, Nat.sub_diag in S. simpl firstn in S. rewrite app_nil_r in S.
  exists ok, v. split; [exact E|]. destruct ok.
  - destruct S as (ds & F & M & V & R). exists (number ds). split; [exists ds; auto|]. split.
    + rewrite V. f_equal. lia.
    + intros N. apply R. destruct f; [congruence|]. simpl. lia.
  - intros n (ds & F & M & V). exact (S ds F M).
Qed.

(** The two N/S, E/W tests. *)
Lemma one_of : forall c a a', negb (c =? a) && negb (c =? a') = false <-> In c [a; a'].
Proof. intros. simpl. destruct (Z.eqb_spec c a), (Z.eqb_spec c a'); simpl; split; intros; try discriminate; auto;
  repeat match goal with H : _ \/ _ |- _ => destruct H end; congruence || tauto. Qed.

Ltac next_tok H f t1 NE L B :=
  let fs := fresh "fs" in let E := fresh in let N := fresh in
  eapply tok_true in H as (f & fs & t1 & E & NE & L & N & H); [|eassumption]; subst;
  let A := fresh "A" in destruct N as [A B].

Lemma tail_sound : forall t fs g g', at_fields t fs -> decodeTail d t g = Some (true, g') ->
  exists fx nsat hdop alt altu geo geou rest n pf,
    fs = [fx; nsat; hdop; alt; altu; geo; geou] ++ rest /\
    hd_error fx = Some (dig pf) /\ is_dig pf /\ nsat <> [] /\ dec_text nsat n /\
    Forall (fun f => f <> []) [hdop; alt; altu; geo; geou] /\
    g' = gg_nsat (gg_fix g pf) (n mod 256).
Proof.
  intros t fs g g' A H. unfold decodeTail in H.
  next_tok H fx t1 N1 L1 B1. rewrite B1 in H.
  destruct (rd_hd_inv fx (skipn (S (length fx)) (tk_buf t)) N1) as (c & HC & R). rewrite R in H. 
  destruct (charToUIntDec c) as [pf|] eqn:E; [|discriminate]. apply dec_inv in E as [-> D].
  next_tok H nsat t2 N2 L2 B2. rewrite B2 in H.
  destruct (nsat_spec nsat (skipn (S (length nsat)) (tk_buf t1)) L2) as (ok & v & E & S).
  rewrite E in H. destruct ok; [|discriminate]. simpl negb in H. cbv iota zeta in H.
  destruct S as (n & DT & V & RV).
  next_tok H f3 t3 N3 L3 B3. next_tok H f4 t4 N4 L4 B4. next_tok H f5 t5 N5 L5 B5.
  next_tok H f6 t6 N6 L6 B6. next_tok H f7 t7 N7 L7 B7.
  eapply tok_opt_true in H; [|eassumption]. subst g'.
  eexists fx, nsat, _, _, _, _, _, _, n, pf. split; [reflexivity|].
  repeat split; auto; try (repeat (apply Forall_cons; [assumption|]); apply Forall_nil); try apply D.
  f_equal. rewrite <- V. symmetry. apply Z.mod_small. apply RV. assumption.
Qed.

Lemma lon_sound : forall t fs g g', at_fields t fs -> decodeLon d t g = Some (true, g') ->
  exists lon ew fx nsat hdop alt altu geo geou rest n pf la c,
    fs = [lon; ew; fx; nsat; hdop; alt; altu; geo; geou] ++ rest /\
    (1 <= length lon <= 10)%nat /\ cstr la = cstr lon /\ hd_error ew = Some c /\ In c (str "EW") /\
    hd_error fx = Some (dig pf) /\ is_dig pf /\ nsat <> [] /\ dec_text nsat n /\
    Forall (fun f => f <> []) [hdop; alt; altu; geo; geou] /\
    g' = gg_nsat (gg_fix (gg_ew (gg_lon g la) c) pf) (n mod 256).
Proof.
  intros t fs g g' A H. unfold decodeLon in H.
  next_tok H lon t1 N1 L1 B1. rewrite Z.gtb_ltb in H.
  destruct (Z.ltb_spec 11 (Z.of_nat (length lon) + 1)); [discriminate|]. rewrite B1 in H.
  destruct (strncpy _ _ _) as [la|] eqn:S; [|discriminate]. apply strncpy_inv in S as [S _].
  cbv zeta in H. next_tok H ew t2 N2 L2 B2. rewrite B2 in H.
  destruct (rd_hd_inv ew (skipn (Datatypes.S (length ew)) (tk_buf t1)) N2) as (c & HC & R). rewrite R in H.
  destruct (negb (c =? 69) && negb (c =? 87)) eqn:E; [discriminate|]. apply one_of in E.
  eapply tail_sound in H; [|eassumption].
  destruct H as (fx & nsat & hdop & alt & altu & geo & geou & rest & n & pf & -> & H).
  exists lon, ew, fx, nsat, hdop, alt, altu, geo, geou, rest, n, pf, la, c.
  split; [reflexivity|]. split; [destruct lon; [congruence|simpl in *; lia]|]. auto.
Qed.

Lemma lat_sound : forall t fs g g', at_fields t fs -> decodeLat d t g = Some (true, g') ->
  exists lat ns lon ew fx nsat hdop alt altu geo geou rest n pf la c lo e,
    fs = [lat; ns; lon; ew; fx; nsat; hdop; alt; altu; geo; geou] ++ rest /\
    (1 <= length lat <= 10)%nat /\ cstr la = cstr lat /\ hd_error ns = Some c /\ In c (str "NS") /\
    (1 <= length lon <= 10)%nat /\ cstr lo = cstr lon /\ hd_error ew = Some e /\ In e (str "EW") /\
    hd_error fx = Some (dig pf) /\ is_dig pf /\ nsat <> [] /\ dec_text nsat n /\
    Forall (fun f => f <> []) [hdop; alt; altu; geo; geou] /\
    g' = gg_nsat (gg_fix (gg_ew (gg_lon (gg_ns (gg_lat g la) c) lo) e) pf) (n mod 256).
Proof.
  intros t fs g g' A H. unfold decodeLat in H.
  next_tok H lat t1 N1 L1 B1. rewrite Z.gtb_ltb in H.
  destruct (Z.ltb_spec 11 (Z.of_nat (length lat) + 1)); [discriminate|]. rewrite B1 in H.
  destruct (strncpy _ _ _) as [la|] eqn:S; [|discriminate]. apply strncpy_inv in S as [S _].
  cbv zeta in H. next_tok H ns t2 N2 L2 B2. rewrite B2 in H.
  destruct (rd_hd_inv ns (skipn (Datatypes.S (length ns)) (tk_buf t1)) N2) as (c & HC & R). rewrite R in H.
  destruct (negb (c =? 78) && negb (c =? 83)) eqn:E; [discriminate|]. apply one_of in E.
  eapply lon_sound in H; [|eassumption].
  destruct H as (lon & ew & fx & nsat & hdop & alt & altu & geo & geou & rest & n & pf & lo & e & -> & H).
  exists lat, ns, lon, ew, fx, nsat, hdop, alt, altu, geo, geou, rest, n, pf, la, c, lo, e.
  split; [reflexivity|]. split; [destruct lat; [congruence|simpl in *; lia]|]. auto.
Qed.

Lemma at_start : at_fields (mkToken b len 0 (repeat 0 128)) (fields p).
Proof.
  split; [reflexivity|]. split; [reflexivity|]. split; [apply repeat_length|]. right.
  exists [], p. repeat split.
Qed.

(** A time in a zeroed token buffer. *)
Lemma time_buf : forall f u, (length f < 128)%nat -> 
  (NmeaCharToUTCTime (f ++ 0 :: skipn (S (length f)) (repeat 0 128)) = Some (Some u) <->
   nth 10 f 0 = 0 /\ time_text (cstr f) u) /\
  NmeaCharToUTCTime (f ++ 0 :: skipn (S (length f)) (repeat 0 128)) <> None.
Proof.
  intros f u L. 
  assert (SR : forall n k, skipn k (repeat 0 n) = repeat 0 (n - k)).
  { clear. induction n; intros [|k]; simpl; auto. }
  assert (RP : 0 :: skipn (S (length f)) (repeat 0 128) = repeat 0 (128 - length f)).
  { rewrite SR. replace (128 - length f)%nat with (S (128 - S (length f))) by lia. reflexivity. }
  destruct (utc_exact (f ++ 0 :: skipn (S (length f)) (repeat 0 128)) u) as [E N].
  { rewrite RP, app_length, repeat_length. lia. }
  split; [|exact N]. rewrite E. clear E N. rewrite RP.
  assert (C : forall n, cstr (f ++ repeat 0 n) = cstr f).
  { clear. induction f as [|c f IH]; intros n; simpl; [destruct n; reflexivity|].
    destruct (c =? 0); [reflexivity|]. now rewrite IH. }
  rewrite C. destruct (Nat.ltb_spec 10 (length f)).
  - rewrite app_nth1 by assumption. rewrite (nth_indep f 1 0) by assumption. tauto.
  - rewrite (nth_overflow f 0) by lia. rewrite app_nth2 by lia.
    assert (NR : forall n k, (k < n)%nat -> nth k (repeat 0 n) 1 = 0).
    { clear. induction n; intros [|k] K; simpl; try lia. apply IHn. lia. }
    rewrite NR by lia. tauto.
Qed.

Lemma len_u16 : u16 (b + len - b) = len.
Proof. rewrite Z.add_simpl_l. apply u16_small. unfold len. lia. Qed.

Lemma payload_sound : forall g g', payloadDecodeGPGGA d b (b + len) g = Some (true, g') -> gga_payload p g'.
Proof.
  intros g g' H. unfold payloadDecodeGPGGA in H. rewrite len_u16 in H.
  pose proof at_start as A. cbv zeta in H.
  eapply tok_true in H as (time & fs & t1 & E & NE & L & [A1 B] & H); [|eassumption].
  cbn [tk_buf] in B. rewrite B in H.
  destruct (NmeaCharToUTCTime _) as [[u|]|] eqn:T; try discriminate.
  apply (proj1 (time_buf time u L)) in T as [T1 T2].
  eapply lat_sound in H; [|eassumption].
  destruct H as (lat & ns & lon & ew & fx & nsat & hdop & alt & altu & geo & geou & rest & n & pf & la & c & lo & e & -> & H).
  destruct H as (H1 & H2 & H3 & H4 & H5 & H6 & H7 & H8 & H9 & H10 & H11 & H12 & H13 & ->).
  exists time, lat, ns, lon, ew, fx, nsat, hdop, alt, altu, geo, geou, rest, n.
  split; [exact E|]. cbn. auto 30.
Qed.

Ltac fwd f t1 A B R :=
  match goal with A0 : at_fields _ (f :: _) |- _ =>
    destruct (tok_fwd _ _ _ A0) as (t1 & [A B] & R); [try assumption|try assumption|]; clear A0 end.

Lemma payload_complete : forall g gf, gga_payload p gf -> gps_arrays g ->
  Forall (fun f => (length f < 128)%nat) (fields p) ->
  exists g', payloadDecodeGPGGA d b (b + len) g = Some (true, g').
Proof.
  intros g gf G [GA1 GA2] S.
  destruct G as (time & lat & ns & lon & ew & fx & nsat & hdop & alt & altu & geo & geou & rest & n & E &
    T1 & T2 & La & La2 & Ns & Ns2 & Lo & Lo2 & Ew & Ew2 & Fx & Fx2 & Nn & Nd & Nm & FF).
  pose proof at_start as A. unfold payloadDecodeGPGGA. rewrite len_u16. cbv zeta.
  rewrite E in A, S. cbn [app] in A, S.
  do 12 (match type of S with Forall _ (?f :: _) => apply Forall_cons_iff in S as [? S]; cbv beta in * end).
  do 5 (apply Forall_cons_iff in FF as [? FF]).
  fwd time t1 A1 B1 R1.
  { intros ->. inversion T2. }
  cbn [tk_buf] in B1. rewrite R1, B1.
  rewrite (proj2 (proj1 (time_buf time (g_utcTime gf) ltac:(assumption))) (conj T1 T2)).
  unfold decodeLat.
  fwd lat t2 A2 B2 R2; [intros ->; simpl in *; lia|]. rewrite R2, B2. rewrite Z.gtb_ltb.
  destruct (Z.ltb_spec 11 (Z.of_nat (length lat) + 1)); [lia|].
  match goal with |- context[strncpy ?a ?s ?k] => destruct (strncpy_ok a s k) as (la & LA); [exact GA1|lia|rewrite LA] end.
  cbv zeta. fwd ns t3 A3 B3 R3; [intros ->; discriminate|]. rewrite R3, B3.
  rewrite (rd_hd _ _ _ Ns). rewrite (proj2 (one_of (g_ns gf) 78 83) Ns2). cbv iota.
  unfold decodeLon.
  fwd lon t4 A4 B4 R4; [intros ->; simpl in *; lia|]. rewrite R4, B4. rewrite Z.gtb_ltb.
  destruct (Z.ltb_spec 11 (Z.of_nat (length lon) + 1)); [lia|].
  match goal with |- context[strncpy ?a ?s ?k] => destruct (strncpy_ok a s k) as (lo & LO); [exact GA2|lia|rewrite LO] end.
  cbv zeta. fwd ew t5 A5 B5 R5; [intros ->; discriminate|]. rewrite R5, B5.
  rewrite (rd_hd _ _ _ Ew). rewrite (proj2 (one_of (g_ew gf) 69 87) Ew2). cbv iota.
  unfold decodeTail.
  fwd fx t6 A6 B6 R6; [intros ->; discriminate|]. rewrite R6, B6.
  rewrite (rd_hd _ _ _ Fx), dec_dig by assumption. cbv zeta.
  fwd nsat t7 A7 B7 R7. rewrite R7, B7.
  destruct (nsat_spec nsat (skipn (Datatypes.S (length nsat)) (tk_buf t6)) ltac:(assumption)) as (ok & v & EN & SN).
  rewrite EN. destruct ok; [|exfalso; exact (SN _ Nd)]. simpl negb. cbv iota zeta.
  fwd hdop t8 A8 B8 R8. rewrite R8. fwd alt t9 A9 B9 R9. rewrite R9.
  fwd altu t10 A10 B10 R10. rewrite R10. fwd geo t11 A11 B11 R11. rewrite R11.
  fwd geou t12 A12 B12 R12. rewrite R12.
  match goal with A0 : at_fields ?t rest |- context[tok 1 d ?t ?g ?k] =>
    destruct (tok_opt t rest g k A0 S) as (c & t' & Q) end.
  rewrite Q. eauto.
Qed.

Lemma safe_ret : forall ok g, gps_arrays g -> safe (Some (ok, g)).
Proof. intros. exists ok, g. auto. Qed.

Ltac tsafe f t L M A B :=
  match goal with S : Forall _ _ |- _ =>
    eapply tok_safe; [eassumption|lia|try assumption|exact S|intros; try lia|]; [..|
    clear S; intros f ? t ? L M [A B] S] end.

Lemma tail_safe : forall t fs g, at_fields t fs -> gps_arrays g ->
  Forall (fun f => (length f < 128)%nat) fs -> safe (decodeTail d t g).
Proof.
  intros t fs g A GA S. unfold decodeTail.
  tsafe fx t1 L1 M1 A1 B1. rewrite B1.
  destruct (rd_hd_inv fx (skipn (Datatypes.S (length fx)) (tk_buf t))) as (c & _ & ->);
    [intros ->; simpl in L1; lia|].
  destruct (charToUIntDec c) as [pf|]; [|now apply safe_ret]. cbv zeta.
  tsafe ns t2 L2 M2 A2 B2. rewrite B2.
  destruct (nsat_spec ns (skipn (Datatypes.S (length ns)) (tk_buf t1)) M2) as (ok & v & -> & _).
  destruct ok; [|now apply safe_ret]. simpl negb. cbv iota.
  tsafe f3 t3 L3 M3 A3 B3. tsafe f4 t4 L4 M4 A4 B4. tsafe f5 t5 L5 M5 A5 B5.
  tsafe f6 t6 L6 M6 A6 B6. tsafe f7 t7 L7 M7 A7 B7. tsafe f8 t8 L8 M8 A8 B8; now apply safe_ret.
Qed.

Lemma lon_safe : forall t fs g, at_fields t fs -> gps_arrays g ->
  Forall (fun f => (length f < 128)%nat) fs -> safe (decodeLon d t g).
Proof.
  intros t fs g A GA S. unfold decodeLon.
  tsafe lon t1 L1 M1 A1 B1. rewrite Z.gtb_ltb.
  destruct (Z.ltb_spec 11 (Z.of_nat (length lon) + 1)); [now apply safe_ret|].
  rewrite B1.
  match goal with |- context[strncpy ?a ?s ?k] => destruct (strncpy_ok a s k) as (lo & LO); [apply GA|lia|rewrite LO] end.
  apply strncpy_inv in LO as [_ LO]. cbv zeta.
  assert (GA' : gps_arrays (gg_lon g lo)) by (split; cbn; [apply GA|rewrite LO; apply GA]).
  tsafe ew t2 L2 M2 A2 B2. rewrite B2.
  destruct (rd_hd_inv ew (skipn (Datatypes.S (length ew)) (tk_buf t1))) as (c & _ & ->);
    [intros ->; simpl in L2; lia|].
  destruct (negb _ && negb _); [now apply safe_ret|]. eapply tail_safe; eauto.
Qed.

Lemma lat_safe : forall t fs g, at_fields t fs -> gps_arrays g ->
  Forall (fun f => (length f < 128)%nat) fs -> safe (decodeLat d t g).
Proof.
  intros t fs g A GA S. unfold decodeLat.
  tsafe lat t1 L1 M1 A1 B1. rewrite Z.gtb_ltb.
  destruct (Z.ltb_spec 11 (Z.of_nat (length lat) + 1)); [now apply safe_ret|].
  rewrite B1.
  match goal with |- context[strncpy ?a ?s ?k] => destruct (strncpy_ok a s k) as (lo & LO); [apply GA|lia|rewrite LO] end.
  apply strncpy_inv in LO as [_ LO]. cbv zeta.
  assert (GA' : gps_arrays (gg_lat g lo)) by (split; cbn; [rewrite LO; apply GA|apply GA]).
  tsafe ns t2 L2 M2 A2 B2. rewrite B2.
  destruct (rd_hd_inv ns (skipn (Datatypes.S (length ns)) (tk_buf t1))) as (c & _ & ->);
    [intros ->; simpl in L2; lia|].
  destruct (negb _ && negb _); [now apply safe_ret|]. eapply lon_safe; eauto.
Qed.

Lemma payload_safe : forall g, gps_arrays g -> Forall (fun f => (length f < 128)%nat) (fields p) ->
  safe (payloadDecodeGPGGA d b (b + len) g).
Proof.
  intros g GA S. pose proof at_start as A. unfold payloadDecodeGPGGA. rewrite len_u16. cbv zeta.
  tsafe time t L M A1 B. cbn [tk_buf] in B. rewrite B.
  destruct (NmeaCharToUTCTime _) as [[u|]|] eqn:T.
  - eapply lat_safe; eauto.
  - now apply safe_ret.
  - exfalso. exact (proj2 (time_buf time (mkUtc 0 0 0 0) M) T).
Qed.

(** A first field of 128 characters or more is written past the token buffer. *)
Lemma payload_long : forall g f fs, fields p = f :: fs -> (128 <= length f)%nat ->
  payloadDecodeGPGGA d b (b + len) g = None.
Proof.
  intros g f fs E L. pose proof at_start as A. unfold payloadDecodeGPGGA. rewrite len_u16. cbv zeta.
  rewrite E in A. eapply tok_long; eassumption.
Qed.
End Payload.

(** ** One sentence *)

Lemma bytes_eqb_eq : forall a b, bytes_eqb a b = true <-> a = b.
Proof.
  induction a as [|x a IH]; intros [|y b]; simpl; split; try discriminate; auto.
  - intros H. apply andb_prop in H as [H1 H2]. apply Z.eqb_eq in H1 as ->. apply IH in H2 as ->. reflexivity.
  - intros [= -> ->]. rewrite Z.eqb_refl. now apply IH.
Qed.

Lemma hex_inv : forall c v, charToUInt16Hex c = Some v <-> hex_digit c v.
Proof.
  intros c v. unfold charToUInt16Hex, hex_digit. rewrite !Z.geb_leb.
  destruct (Z.leb_spec 48 c), (Z.leb_spec c 57); cbn [andb]; 
  destruct (Z.leb_spec 65 c), (Z.leb_spec c 70); cbn [andb];
  destruct (Z.leb_spec 97 c), (Z.leb_spec c 102); cbn [andb]; try lia;
  (split; [intros [= <-]; lia|intros H9; try (exfalso; lia); f_equal; lia]) || (split; [discriminate|lia]).
Qed.

Lemma star_found : forall d p n i t, view d i (p ++ 42 :: t) -> ~ In 42 p -> (length p < n)%nat ->
  Z.of_nat (length d) < 65536 -> starLoop d n i = Some (Some (i + Z.of_nat (length p))).
Proof.
  induction p as [|c p IH]; intros n i t V NI L LD; destruct n; cbn [length] in *; try lia.
  - cbn [app] in V. apply view_cons in V as (V & _ & _). cbn [starLoop]. rewrite V. simpl. now rewrite Z.add_0_r.
  - cbn [app] in V. pose proof V as V0. apply view_cons in V as (V & V' & B). cbn [starLoop]. rewrite V.
    destruct (Z.eqb_spec c 42) as [->|]; [exfalso; apply NI; now left|].
    destruct V0 as [P _]. rewrite u16_small by lia. rewrite (IH n (i + 1) t); auto; try lia.
    + do 2 f_equal. lia.
    + intros A. apply NI. now right.
Qed.

Lemma star_inv : forall d n i e, 0 <= i -> Z.of_nat (length d) < 65536 -> starLoop d n i = Some (Some e) ->
  exists p t, view d i (p ++ 42 :: t) /\ ~ In 42 p /\ e = i + Z.of_nat (length p) /\ (length p < n)%nat.
Proof.
  induction n; intros i e P LD H; cbn [starLoop] in H; [discriminate|].
  destruct (rd d i) as [c|] eqn:R; [|discriminate]. apply view_rd in R as (t & V); [|exact P].
  destruct (Z.eqb_spec c 42) as [->|N].
  - injection H as <-. exists [], t. split; [exact V|]. repeat split; [tauto|cbn; lia|cbn; lia].
  - pose proof V as V0. apply view_cons in V as (_ & V & B). rewrite u16_small in H by lia.
    apply IHn in H as (p & t' & V2 & NI & E & L); try lia.
    pose proof (view_fun _ _ _ _ V V2). subst t.
    exists (c :: p), t'. split; [exact V0|]. split; [intros [->|?]; tauto|]. cbn [length]. lia.
Qed.

Lemma star_none : forall d p n i t, view d i (p ++ t) -> ~ In 42 p -> length p = n ->
  i + Z.of_nat n <= Z.of_nat (length d) -> Z.of_nat (length d) < 65536 -> starLoop d n i = Some None.
Proof.
  induction p as [|c p IH]; intros n i t V NI L LD LD2; destruct n; cbn [length] in *; try lia; [reflexivity|].
  cbn [app] in V. pose proof V as V0. apply view_cons in V as (V & V' & B). cbn [starLoop]. rewrite V.
  destruct (Z.eqb_spec c 42) as [->|]; [exfalso; apply NI; now left|].
  destruct V0 as [P _]. rewrite u16_small by lia. apply (IH n (i + 1) t); auto; try lia.
  intros A. apply NI. now right.
Qed.

Lemma star_total : forall d n i, 0 <= i -> i + Z.of_nat n <= Z.of_nat (length d) -> Z.of_nat (length d) < 65536 ->
  starLoop d n i <> None.
Proof.
  induction n; intros i P L LD; cbn [starLoop]; [discriminate|].
  destruct (rd_some Z d i) as (c & ->); [lia|]. destruct (c =? 42); [discriminate|].
  rewrite u16_small by lia. apply IHn; lia.
Qed.

Lemma xor_view : forall d q j acc t, view d j (q ++ t) -> j + Z.of_nat (length q) <= Z.of_nat (length d) ->
  Z.of_nat (length d) < 65536 -> xorLoop d (length q) j acc = Some (fold_left Z.lxor q acc).
Proof.
  induction q as [|c q IH]; intros j acc t V L LD; [reflexivity|]. cbn [length] in *.
  cbn [app] in V. pose proof V as V0. apply view_cons in V as (V & V' & B). cbn [xorLoop]. rewrite V.
  destruct V0 as [P _]. rewrite u16_small by lia. rewrite (IH _ _ t); auto; lia.
Qed.

(** The layout the decoder looks for, with any identifier. *)
Definition layout (id p : list Z) (h1 h0 : Z) (post : list Z) : list Z :=
  36 :: id ++ 44 :: p ++ 42 :: h1 :: h0 :: 13 :: 10 :: post.

Lemma sentence_layout : forall p h1 h0 post, sentence p h1 h0 ++ post = layout (str "GPGGA") p h1 h0 post.
Proof. intros. unfold sentence, layout. rewrite <- !app_assoc. reflexivity. Qed.

Lemma sentence_length : forall p h1 h0, length (sentence p h1 h0) = (length p + 12)%nat.
Proof. intros. unfold sentence. rewrite !app_length. simpl. lia. Qed.

Section Sentence.
Variables (d id p : list Z) (s h1 h0 : Z) (post : list Z).
Hypothesis V : view d s (layout id p h1 h0 post).
Hypothesis LI : length id = 5%nat.
Hypothesis LD : (length d <= Z.to_nat 1024)%nat.

Lemma lay_views :
  rd d s = Some 36 /\ rd_block d (s + 1) 5 = Some id /\ rd d (s + 6) = Some 44 /\
  view d (s + 1) ((id ++ 44 :: p) ++ 42 :: h1 :: h0 :: 13 :: 10 :: post) /\
  view d (s + 7) (p ++ 42 :: h1 :: h0 :: 13 :: 10 :: post) /\
  (let e := s + 7 + Z.of_nat (length p) in
   rd d (e + 1) = Some h1 /\ rd d (e + 2) = Some h0 /\ rd d (e + 3) = Some 13 /\ rd d (e + 4) = Some 10 /\
   e + 5 <= Z.of_nat (length d)) /\ 0 <= s.
Proof.
  pose proof V as W. unfold layout in W.
  assert (P : 0 <= s) by apply W.
  apply view_cons in W as (R0 & W & _). pose proof W as W1.
  apply view_app in W. rewrite LI in W. change (Z.of_nat 5) with 5 in W.
  pose proof W as W6. apply view_cons in W as (R6 & W & B6).
  replace (s + 1 + 5) with (s + 6) in * by lia. replace (s + 6 + 1) with (s + 7) in * by lia.
  pose proof W as W7. apply view_app in W.
  apply view_cons in W as (_ & W & _). apply view_cons in W as (Q1 & W & _).
  apply view_cons in W as (Q2 & W & _). apply view_cons in W as (Q3 & W & _).
  apply view_cons in W as (Q4 & W & B).
  split; [exact R0|]. split; [|split; [exact R6|split; [|split; [exact W7|split; [|exact P]]]]].
  - change 5 with (Z.of_nat 5). rewrite <- LI. apply view_block with (t := 44 :: p ++ 42 :: h1 :: h0 :: 13 :: 10 :: post); [exact W1|].
    rewrite LI. lia.
  - rewrite <- app_assoc. exact W1.
  - cbv zeta. set (e := s + 7 + Z.of_nat (length p)) in *.
    replace (e + 1 + 1 + 1 + 1) with (e + 4) in * by lia. replace (e + 1 + 1 + 1) with (e + 3) in * by lia.
    replace (e + 1 + 1) with (e + 2) in * by lia. repeat split; try assumption. lia.
Qed.

Lemma checksum_spec : 
  exists good, verifyChecksum d s (s + 7) (s + 7 + Z.of_nat (length p)) h1 h0 = Some good /\
    (good = true <-> (2 <= length p)%nat /\ exists v1 v0, hex_digit h1 v1 /\ hex_digit h0 v0 /\
       fold_left Z.lxor (id ++ 44 :: p) 0 = 16 * v1 + v0).
Proof.
  destruct lay_views as (_ & _ & _ & W1 & _ & Q & P). cbv zeta in Q. destruct Q as (_ & _ & _ & _ & B). unfold verifyChecksum.
  destruct (Z.ltb_spec (s + 7 + Z.of_nat (length p)) (s + 7 + 2)).
  { exists false. split; [reflexivity|]. split; [discriminate|]. intros [? _]. lia. }
  destruct (charToUInt16Hex h1) as [v1|] eqn:E1.
  2:{ exists false. split; [reflexivity|]. split; [discriminate|]. intros (_ & v1 & v0 & H1 & _).
      apply hex_inv in H1. congruence. }
  destruct (charToUInt16Hex h0) as [v0|] eqn:E0.
  2:{ exists false. split; [reflexivity|]. split; [discriminate|]. intros (_ & w1 & v0 & _ & H1 & _).
      apply hex_inv in H1. congruence. }
  rewrite (u16_small (s + 1)) by lia.
  replace (Z.to_nat (s + 7 + Z.of_nat (length p) - (s + 1))) with (length (id ++ 44 :: p))
    by (rewrite app_length, LI; cbn [length]; lia).
  rewrite (xor_view d (id ++ 44 :: p) (s + 1) 0 _ W1);
    [|rewrite app_length, LI; cbn [length]; lia|lia].
  eexists. split; [reflexivity|]. apply hex_inv in E1, E0.
  assert (U : u16 (u16 (v1 * 16) + v0) = 16 * v1 + v0).
  { destruct E1 as [E1 _], E0 as [E0 _]. rewrite (u16_small (v1 * 16)) by lia. rewrite u16_small by lia. lia. }
  rewrite U. split.
  - intros E. apply Z.eqb_eq in E. split; [lia|]. eauto.
  - intros (_ & w1 & w0 & A1 & A0 & A). apply hex_inv in A1, A0, E1, E0.
    assert (w1 = v1) by congruence. assert (w0 = v0) by congruence. subst. now apply Z.eqb_eq.
Qed.

(** tryDecode on this layout, '*' at most at index end. *)
Lemma tryDecode_layout : forall n o,
  n_data n = d -> n_start n = s -> ~ In 42 p -> s + 13 <= n_end n -> n_end n < 65000 ->
  s + 7 + Z.of_nat (length p) <= n_end n ->
  (s + 12 + Z.of_nat (length p) <= n_end n \/ s + 7 + Z.of_nat (length p) = n_end n) ->
  exists good, 
    (good = true <-> (2 <= length p)%nat /\ exists v1 v0, hex_digit h1 v1 /\ hex_digit h0 v0 /\
       fold_left Z.lxor (id ++ 44 :: p) 0 = 16 * v1 + v0) /\
  tryDecode n o =
  if negb good then Some (0, mkFields NMEA_NULL (f_gga o)) else
  ' (ok, o') <- tryDecodePayload d id (s + 7) (s + 7 + Z.of_nat (length p)) (mkFields NMEA_NULL (f_gga o)) ;;
  if ok then Some (s + Z.of_nat (length p) + 12, o') else Some (0, o').
Proof.
  intros n o ED ES NS E13 EE SE TE.
  destruct lay_views as (R0 & RB & R6 & W1 & W7 & (Q1 & Q2 & Q3 & Q4 & B) & P).
  destruct checksum_spec as (good & VC & G). exists good. split; [exact G|].
  unfold tryDecode. rewrite ES, ED.
  destruct (Z.eqb_spec (n_end n) s); [lia|].
  rewrite (u16_small (n_end n - s)) by lia. destruct (Z.ltb_spec (n_end n - s) 13); [lia|].
  rewrite R0. rewrite (proj2 (Z.eqb_eq 36 36) eq_refl). cbn [negb].
  rewrite (u16_small (s + 1)) by lia. rewrite RB.
  rewrite (u16_small (s + 1 + 5)) by lia. replace (s + 1 + 5) with (s + 6) by lia. rewrite R6.
  rewrite (proj2 (Z.eqb_eq 44 44) eq_refl). cbn [negb].
  rewrite (u16_small (s + 1 + 6)) by lia. replace (s + 1 + 6) with (s + 7) by lia.
  rewrite (star_found d p _ (s + 7) _ W7 NS) by lia.
  unfold locateMsgEnd. set (e := s + 7 + Z.of_nat (length p)) in *.
  rewrite (u16_small (e + 1)) by lia.
  assert (RM : 4 <= u16 (n_end n - (e + 1))).
  { destruct TE as [TE|TE].
    - rewrite u16_small by lia. lia.
    - replace (n_end n - (e + 1)) with (-1) by lia. unfold u16. change (-1 mod 2 ^ 16) with 65535. lia. }
  destruct (Z.ltb_spec (u16 (n_end n - (e + 1))) 4); [lia|].
  rewrite Q1. rewrite (u16_small (e + 1 + 1)) by lia. replace (e + 1 + 1) with (e + 2) by lia. rewrite Q2.
  rewrite (u16_small (e + 1 + 2)) by lia. replace (e + 1 + 2) with (e + 3) by lia. rewrite Q3.
  rewrite (proj2 (Z.eqb_eq 13 13) eq_refl). cbn [negb].
  rewrite (u16_small (e + 1 + 3)) by lia. replace (e + 1 + 3) with (e + 4) by lia. rewrite Q4.
  rewrite (proj2 (Z.eqb_eq 10 10) eq_refl). cbn [negb].
  rewrite (u16_small (e + 1 + 4)) by lia. rewrite VC.
  destruct good; cbn [negb]; [|reflexivity].
  replace (e + 1 + 4) with (s + Z.of_nat (length p) + 12) by lia. reflexivity.
Qed.
End Sentence.

Lemma rd_bound : forall (d : list Z) i x, rd d i = Some x -> 0 <= i < Z.of_nat (length d).
Proof.
  intros d i x. unfold rd, get. destruct (Z.ltb_spec i (Z.of_nat (length d))); [|discriminate].
  destruct (Z.ltb_spec i 0); [discriminate|lia].
Qed.

Lemma view_app_inv : forall d i a t u, view d i (a ++ t) -> view d (i + Z.of_nat (length a)) u -> t = u.
Proof. intros d i a t u A B. apply view_app in A. exact (view_fun _ _ _ _ A B). Qed.

Lemma tryDecode_sound : forall n o len o',
  (length (n_data n) <= Z.to_nat 1024)%nat -> tryDecode n o = Some (len, o') -> len <> 0 ->
  exists p h1 h0 post,
    view (n_data n) (n_start n) (sentence p h1 h0 ++ post) /\ ~ In 42 p /\ good_checksum p h1 h0 /\
    gga_payload p (f_gga o') /\ f_type o' = NMEA_GPGGA /\
    len = n_start n + Z.of_nat (length (sentence p h1 h0)) /\
    n_start n + 7 + Z.of_nat (length p) <= n_end n /\
    4 <= u16 (n_end n - (n_start n + 7 + Z.of_nat (length p) + 1)).
Proof.
  intros n o len o' LD H NZ. unfold tryDecode in H.
  destruct (n_end n =? n_start n); [injection H as <- <-; congruence|].
  destruct (_ <? 13); [injection H as <- <-; congruence|].
  set (d := n_data n) in *. set (s := n_start n) in *.
  destruct (rd d s) as [c|] eqn:R0; [|discriminate].
  destruct (Z.eqb_spec c 36) as [->|]; cbn [negb] in H; [|injection H as <- <-; congruence].
  pose proof (rd_bound _ _ _ R0) as B0. rewrite (u16_small (s + 1)) in H by lia.
  destruct (rd_block d (s + 1) 5) as [id|] eqn:RB; [|discriminate].
  rewrite (u16_small (s + 1 + 5)) in H by lia.
  destruct (rd d (s + 1 + 5)) as [c|] eqn:R6; [|discriminate].
  destruct (Z.eqb_spec c 44) as [->|]; cbn [negb] in H; [|injection H as <- <-; congruence].
  pose proof (rd_bound _ _ _ R6) as B6. rewrite (u16_small (s + 1 + 6)) in H by lia.
  replace (s + 1 + 6) with (s + 7) in H by lia.
  destruct (starLoop _ _ _) as [[pEnd|]|] eqn:ST; [|injection H as <- <-; congruence|discriminate].
  apply star_inv in ST as (p & t & V7 & NS & -> & LP); [|lia|lia].
  pose proof (view_len_le _ _ _ _ _ V7) as BE.
  set (e := s + 7 + Z.of_nat (length p)) in *.
  rewrite (u16_small (e + 1)) in H by lia.
  destruct (locateMsgEnd d (n_end n) (e + 1)) as [[[[h1 h0] i]|]|] eqn:LM; [|injection H as <- <-; congruence|discriminate].
  unfold locateMsgEnd in LM. destruct (Z.ltb_spec (u16 (n_end n - (e + 1))) 4) as [|RM]; [discriminate|].
  destruct (rd d (e + 1)) as [c1|] eqn:Q1; [|discriminate]. pose proof (rd_bound _ _ _ Q1) as BQ1.
  rewrite (u16_small (e + 1 + 1)) in LM by lia.
  destruct (rd d (e + 1 + 1)) as [c2|] eqn:Q2; [|discriminate]. pose proof (rd_bound _ _ _ Q2) as BQ2.
  rewrite (u16_small (e + 1 + 2)) in LM by lia.
  destruct (rd d (e + 1 + 2)) as [c3|] eqn:Q3; [|discriminate]. pose proof (rd_bound _ _ _ Q3) as BQ3.
  destruct (Z.eqb_spec c3 13) as [->|]; cbn [negb] in LM; [|discriminate].
  rewrite (u16_small (e + 1 + 3)) in LM by lia.
  destruct (rd d (e + 1 + 3)) as [c4|] eqn:Q4; [|discriminate]. pose proof (rd_bound _ _ _ Q4) as BQ4.
  destruct (Z.eqb_spec c4 10) as [->|]; cbn [negb] in LM; [|discriminate].
  rewrite (u16_small (e + 1 + 4)) in LM by lia. injection LM as -> -> <-.
  (* assemble the layout *)
  apply view_rd in R0 as (t0 & V0); [|lia]. pose proof V0 as V0'. apply view_cons in V0' as (_ & V1 & _).
  apply view_rd_block in RB as (t1 & VB & LI). pose proof (view_fun _ _ _ _ V1 VB). subst t0.
  apply view_rd in R6 as (t2 & V6); [|lia]. pose proof V6 as V6'. apply view_cons in V6' as (_ & V7' & _).
  replace (s + 1 + 5 + 1) with (s + 7) in V7' by lia.
  pose proof (view_fun _ _ _ _ V7 V7'). subst t2.
  assert (t1 = 44 :: p ++ 42 :: t) by (eapply view_app_inv; [exact VB|rewrite LI; exact V6]). subst t1.
  pose proof V7 as V8. apply view_app in V8. fold e in V8. apply view_cons in V8 as (_ & V8 & _).
  apply view_rd in Q1 as (u1 & W1); [|lia]. apply view_rd in Q2 as (u2 & W2); [|lia].
  apply view_rd in Q3 as (u3 & W3); [|lia]. apply view_rd in Q4 as (u4 & W4); [|lia].
  pose proof (view_fun _ _ _ _ V8 W1). subst t. apply view_cons in W1 as (_ & W1 & _).
  pose proof (view_fun _ _ _ _ W1 W2). subst u1. apply view_cons in W2 as (_ & W2 & _).
  replace (e + 1 + 1 + 1) with (e + 1 + 2) in W2 by lia.
  pose proof (view_fun _ _ _ _ W2 W3). subst u2. apply view_cons in W3 as (_ & W3 & _).
  replace (e + 1 + 2 + 1) with (e + 1 + 3) in W3 by lia.
  pose proof (view_fun _ _ _ _ W3 W4). subst u3. 
  assert (VL : view d s (layout id p h1 h0 u4)) by exact V0.
  assert (LI' : length id = 5%nat) by lia.
  destruct (checksum_spec d id p s h1 h0 u4 VL LI' LD) as (good & VC & G). fold e in VC. rewrite VC in H.
  destruct good; cbn [negb] in H; [|injection H as <- <-; congruence].
  destruct (proj1 G eq_refl) as (P2 & v1 & v0 & X1 & X0 & CS).
  unfold tryDecodePayload in H. destruct (bytes_eqb id (str "GPGGA")) eqn:EB; [|injection H as <- <-; congruence].
  apply bytes_eqb_eq in EB. subst id. cbn [f_gga] in H.
  destruct (payloadDecodeGPGGA _ _ _ _) as [[ok g]|] eqn:PD; [|discriminate].
  destruct ok; [|injection H as <- <-; congruence]. injection H as <- <-.
  exists p, h1, h0, u4. rewrite sentence_layout, sentence_length. repeat split; auto; try apply VL; try lia.
  - exists v1, v0. repeat split; auto; try apply X1; try apply X0.
  - cbn [f_gga]. eapply payload_sound; [exact V7|lia|exact PD].
Qed.

Lemma sentence_short : forall p, (forall f, In f (fields p) -> (length f < 128)%nat) ->
  Forall (fun f => (length f < 128)%nat) (fields p).
Proof. intros p H. now apply Forall_forall. Qed.

(** Every field is a piece of the payload. *)
Lemma field_infix : forall p f, In f (fields p) -> ~ In 44 f /\ exists a b, p = a ++ f ++ b.
Proof.
  intros p. remember (fields p) as fs eqn:E. symmetry in E. revert p E.
  induction fs as [|f0 fs IH]; intros p E f I; [destruct I|].
  apply fields_split in E as (NC & E). destruct I as [->|I].
  - split; [exact NC|]. destruct E as [[_ ->]|(q & -> & _)].
    + exists [], []. now rewrite app_nil_r.
    + exists [], (44 :: q). reflexivity.
  - destruct E as [[-> _]|(q & -> & Q)]; [destruct I|].
    destruct (IH q Q f I) as (A & a & b & ->). split; [exact A|].
    exists (f0 ++ 44 :: a), b. now rewrite <- app_assoc.
Qed.

Lemma short_fields_all : forall m a p b, m = a ++ p ++ b -> short_fields m ->
  Forall (fun f => (length f < 128)%nat) (fields p).
Proof.
  intros m a p b -> S. apply Forall_forall. intros f I. apply field_infix in I as (NC & u & v & ->).
  apply (S (a ++ u) f (v ++ b)); [|exact NC]. now rewrite <- !app_assoc.
Qed.

Lemma short_infix : forall m a p b, m = a ++ p ++ b -> short_fields m -> short_fields p.
Proof. intros m a p b -> S u f v -> NC. apply (S (a ++ u) f (v ++ b)); [|exact NC]. now rewrite <- !app_assoc. Qed.

Lemma gga_long : forall p g, gga_payload p g -> (11 <= length p)%nat.
Proof.
  intros p g (time & lat & ns & lon & ew & fx & nsat & hdop & alt & altu & geo & geou & rest & n & E & _).
  assert (L : forall q, (length (fields q) <= S (length q))%nat).
  { induction q as [|c q IH]; simpl; [lia|]. destruct (c =? 44); [simpl; lia|].
    destruct (fields q); simpl in *; lia. }
  specialize (L p). rewrite E in L. cbn [app length] in L. lia.
Qed.

(** A valid sentence at the cursor is decoded, whether its checksum has been
    received or lies just behind the end. *)
Lemma tryDecode_complete : forall n o p h1 h0 post gf,
  (length (n_data n) <= Z.to_nat 1024)%nat ->
  view (n_data n) (n_start n) (sentence p h1 h0 ++ post) -> ~ In 42 p -> good_checksum p h1 h0 ->
  gga_payload p gf -> gps_arrays (f_gga o) -> short_fields p -> n_end n < 65000 ->
  (n_start n + Z.of_nat (length (sentence p h1 h0)) <= n_end n \/ n_start n + 7 + Z.of_nat (length p) = n_end n) ->
  exists g', tryDecode n o = Some (n_start n + Z.of_nat (length (sentence p h1 h0)), mkFields NMEA_GPGGA g') /\
    gga_payload p g' /\ gps_arrays g'.
Proof.
  intros n o p h1 h0 post gf LD V NS (v1 & v0 & X1 & X0 & CS) G GA SH EE TE.
  rewrite sentence_layout in V. rewrite sentence_length in *. pose proof (gga_long _ _ G) as P12.
  assert (LI : length (str "GPGGA") = 5%nat) by reflexivity.
  pose proof (lay_views _ _ _ _ _ _ _ V LI LD) as LV. cbv zeta in LV.
  destruct LV as (R0 & RB & R6 & W1 & W7 & (_ & _ & _ & _ & B) & P).
  pose proof (tryDecode_layout (n_data n) (str "GPGGA") p (n_start n) h1 h0 post V LI LD n o eq_refl eq_refl NS) as TL.
  do 4 (specialize (TL ltac:(lia))). destruct TL as (good & GG & T).
  rewrite T. assert (good = true) as ->. { apply GG. split; [lia|]. exists v1, v0. auto. }
  cbn [negb]. unfold tryDecodePayload. rewrite (proj2 (bytes_eqb_eq _ _) eq_refl). cbn [f_gga].
  destruct (payload_complete (n_data n) (n_start n + 7) p h1 (h0 :: 13 :: 10 :: post) W7) with (g := f_gga o) (gf := gf)
    as (g' & PD); auto; try lia.
  { apply (short_fields_all p [] p []); [now rewrite app_nil_r|exact SH]. }
  rewrite PD. exists g'. split; [do 2 f_equal; lia|]. split.
  - eapply payload_sound; [exact W7|lia|exact PD].
  - destruct (payload_safe (n_data n) (n_start n + 7) p h1 (h0 :: 13 :: 10 :: post) W7 ltac:(lia) (f_gga o) GA)
      as (ok & g2 & E2 & A2).
    { apply (short_fields_all p [] p []); [now rewrite app_nil_r|exact SH]. }
    rewrite PD in E2. now injection E2 as <- <-.
Qed.

Lemma tryDecode_not_dollar : forall n o c, rd (n_data n) (n_start n) = Some c -> c <> 36 ->
  tryDecode n o = Some (0, mkFields NMEA_NULL (f_gga o)).
Proof.
  intros n o c R N. unfold tryDecode. destruct (_ =? _); [reflexivity|]. destruct (_ <? _); [reflexivity|].
  rewrite R. destruct (Z.eqb_spec c 36); [congruence|reflexivity].
Qed.
