(** The ring of stream_buffer.c behaves as a queue. *)
From Verif.Spec Require Export StreamRingSpec.
From Coq Require Import ZifyBool ZifyNat.

Lemma u32_small z : 0 <= z < 2 ^ 32 -> u32 z = z.
Proof. intros H. unfold u32. now apply Z.mod_small. Qed.

Lemma len_upd {A} (l : list A) i x : length (upd l i x) = length l.
Proof. revert i. induction l as [|h t IH]; intros [|i]; cbn [upd length]; auto. Qed.

Lemma nth_upd_same {A} (l : list A) i x d : (i < length l)%nat -> nth i (upd l i x) d = x.
Proof.
  revert i. induction l as [|h t IH]; intros [|i] H; cbn [length] in H; cbn [upd nth]; try lia; auto.
  apply IH. lia.
Qed.

Lemma nth_upd_other {A} (l : list A) i j x d : i <> j -> nth j (upd l i x) d = nth j l d.
Proof.
  revert i j. induction l as [|h t IH]; intros [|i] [|j] H; cbn [upd nth]; try congruence; auto.
Qed.

(** ** Index arithmetic *)
Definition ring_ok (r : ring) : Prop :=
  4 < rb_len r < 2 ^ 31 /\ 0 <= rb_head r < rb_len r /\ 0 <= rb_tail r < rb_len r.

Lemma wrap_range len x : 0 <= x < 2 * len -> 0 <= wrap len x < len.
Proof. unfold wrap. destruct (x <? len) eqn:E; lia. Qed.

Lemma held_count_range r : ring_ok r -> 0 <= held_count r < rb_len r.
Proof. unfold ring_ok, held_count. destruct (rb_tail r <=? rb_head r) eqn:E; lia. Qed.

Lemma spaces_spec len tail head :
  4 < len < 2 ^ 31 -> 0 <= head < len -> 0 <= tail < len ->
  SpacesAvailable len tail head =
  len - 1 - (if tail <=? head then head - tail else head + len - tail).
Proof.
  intros. unfold SpacesAvailable. rewrite (u32_small (len + tail)) by lia.
  rewrite (u32_small (len + tail - head)) by lia. rewrite (u32_small (len + tail - head - 1)) by lia.
  destruct (len <=? len + tail - head - 1) eqn:E, (tail <=? head) eqn:F; rewrite ?u32_small by lia; lia.
Qed.

Lemma bytes_spec len head tail :
  4 < len < 2 ^ 31 -> 0 <= head < len -> 0 <= tail < len ->
  BytesInBuffer len head tail = if tail <=? head then head - tail else head + len - tail.
Proof.
  intros. unfold BytesInBuffer. rewrite (u32_small (len + head)) by lia.
  rewrite (u32_small (len + head - tail)) by lia.
  destruct (len <=? len + head - tail) eqn:E, (tail <=? head) eqn:F; rewrite ?u32_small by lia; lia.
Qed.

Lemma slot_spec len start count k :
  0 <= start < len -> 0 <= k < count -> count < len -> slot len start count k = wrap len (start + k).
Proof. intros. unfold slot, wrap. destruct (k <? _) eqn:E, (start + k <? len) eqn:F; lia. Qed.

Lemma advance_spec len start count :
  4 < len < 2 ^ 31 -> 0 <= start < len -> 0 <= count < len -> advance len start count = wrap len (start + count).
Proof.
  intros. unfold advance, wrap. rewrite (u32_small (start + count)) by lia.
  destruct (len <=? start + count) eqn:E, (start + count <? len) eqn:F; rewrite ?u32_small by lia; lia.
Qed.

Lemma length_held r : length (held r) = Z.to_nat (held_count r).
Proof. unfold held. now rewrite map_length, seq_length. Qed.

Lemma nth_held r i : (i < length (held r))%nat -> nth i (held r) 0 = held_byte r i.
Proof.
  intros H. pose proof H as H'. rewrite length_held in H'. unfold held.
  rewrite (nth_indep _ 0 (held_byte r 0)) by (now rewrite map_length, seq_length).
  rewrite map_nth. f_equal. rewrite seq_nth; lia.
Qed.

(** ** Effect of the three kinds of store *)

(** A byte stored in a free place does not change what is held. *)
Lemma held_store r k b :
  ring_ok r -> 0 <= k < rb_len r - held_count r ->
  held (mkRing (upd (rb_buf r) (Z.to_nat (wrap (rb_len r) (rb_head r + k))) b) (rb_head r) (rb_tail r)) = held r.
Proof.
  intros R K. pose proof (held_count_range r R) as C.
  unfold held, held_count, rb_len in *. cbn [rb_buf rb_head rb_tail]. rewrite len_upd. unfold ring_ok, rb_len in R.
  apply map_ext_in. intros i I%in_seq. unfold held_byte, rb_len. cbn [rb_buf rb_head rb_tail]. rewrite len_upd.
  apply nth_upd_other. unfold wrap.
  destruct (rb_tail r <=? rb_head r) eqn:E;
  destruct (rb_head r + k <? Z.of_nat (length (rb_buf r))) eqn:F;
  destruct (rb_tail r + Z.of_nat i <? Z.of_nat (length (rb_buf r))) eqn:G; lia.
Qed.

(** Moving the head adds the bytes stored behind it. *)
Lemma held_commit r d :
  ring_ok r -> Z.of_nat (length d) < rb_len r - held_count r ->
  (forall i, (i < length d)%nat -> nth (Z.to_nat (wrap (rb_len r) (rb_head r + Z.of_nat i))) (rb_buf r) 0 = nth i d 0) ->
  held (mkRing (rb_buf r) (wrap (rb_len r) (rb_head r + Z.of_nat (length d))) (rb_tail r)) = held r ++ d.
Proof.
  intros R D B. pose proof (held_count_range r R) as C. pose proof R as R0. unfold ring_ok in R0.
  set (r' := mkRing (rb_buf r) (wrap (rb_len r) (rb_head r + Z.of_nat (length d))) (rb_tail r)).
  assert (N : held_count r' = held_count r + Z.of_nat (length d)).
  { unfold held_count, r'. cbn [rb_head rb_tail rb_buf]. unfold held_count in D, C. unfold wrap.
    change (rb_len (mkRing _ _ _)) with (rb_len r).
    destruct (rb_head r + Z.of_nat (length d) <? rb_len r) eqn:F; destruct (rb_tail r <=? rb_head r) eqn:E;
    match goal with |- context [?a <=? ?b] => destruct (a <=? b) eqn:G end; lia. }
  assert (LEN : length (held r') = (length (held r) + length d)%nat).
  { rewrite !length_held, N. lia. }
  apply (nth_ext _ _ 0 0).
  - now rewrite app_length.
  - intros i I. rewrite nth_held by exact I.
    destruct (Nat.lt_ge_cases i (length (held r))) as [L|L].
    + rewrite app_nth1 by exact L. rewrite nth_held by exact L. reflexivity.
    + rewrite app_nth2 by exact L. rewrite <- B by lia. unfold held_byte, r'. cbn [rb_tail rb_buf].
      change (rb_len (mkRing _ _ _)) with (rb_len r). f_equal. rewrite length_held in L |- *.
      rewrite LEN, length_held in I. unfold wrap, held_count in *.
      destruct (rb_tail r <=? rb_head r) eqn:E;
      destruct (rb_tail r + Z.of_nat i <? rb_len r) eqn:F;
      match goal with |- context [if ?a <? ?b then _ else _] => destruct (a <? b) eqn:G end; lia.
Qed.

(** Moving the tail removes the oldest bytes. *)
Lemma held_remove r c :
  ring_ok r -> 0 <= c <= held_count r ->
  held (mkRing (rb_buf r) (rb_head r) (wrap (rb_len r) (rb_tail r + c))) = skipn (Z.to_nat c) (held r).
Proof.
  intros R D. pose proof (held_count_range r R) as C. pose proof R as R0. unfold ring_ok in R0.
  set (r' := mkRing (rb_buf r) (rb_head r) (wrap (rb_len r) (rb_tail r + c))).
  assert (N : held_count r' = held_count r - c).
  { unfold held_count, r'. cbn [rb_head rb_tail rb_buf]. unfold held_count in D, C. unfold wrap.
    change (rb_len (mkRing _ _ _)) with (rb_len r).
    destruct (rb_tail r + c <? rb_len r) eqn:F; destruct (rb_tail r <=? rb_head r) eqn:E;
    match goal with |- context [?a <=? ?b] => destruct (a <=? b) eqn:G end; lia. }
  apply (nth_ext _ _ 0 0).
  - rewrite skipn_length, !length_held, N. lia.
  - intros i I. rewrite nth_held by exact I. rewrite length_held, N in I.
    assert (X : nth i (skipn (Z.to_nat c) (held r)) 0 = nth (Z.to_nat c + i) (held r) 0).
    { rewrite <- (firstn_skipn (Z.to_nat c) (held r)) at 2. rewrite app_nth2; rewrite firstn_length, length_held; [f_equal|]; lia. }
    rewrite X, nth_held by (rewrite length_held; lia).
    unfold held_byte, r'. cbn [rb_tail rb_buf]. change (rb_len (mkRing _ _ _)) with (rb_len r). f_equal.
    unfold wrap. unfold held_count in *.
    destruct (rb_tail r <=? rb_head r) eqn:E;
    destruct (rb_tail r + c <? rb_len r) eqn:F;
    destruct (rb_tail r + Z.of_nat (Z.to_nat c + i) <? rb_len r) eqn:G;
    match goal with |- context [if ?a <? ?b then _ else _] => destruct (a <? b) eqn:H end; lia.
Qed.

(** ** The invariant of one sender and one receiver *)
Definition cnt (len head tail : Z) : Z := if tail <=? head then head - tail else head + len - tail.

Definition snd_ok (r : ring) (w : sender) : Prop :=
  match w with
  | SIdle | STail _ => True
  | SHead d t => 0 <= t < rb_len r /\ held_count r <= cnt (rb_len r) (rb_head r) t
  | SStart d => Z.of_nat (length d) < rb_len r - held_count r
  | SCopy d start k =>
      start = rb_head r /\ 0 <= k <= Z.of_nat (length d) /\ Z.of_nat (length d) < rb_len r - held_count r /\
      forall i, Z.of_nat i < k ->
        nth (Z.to_nat (wrap (rb_len r) (rb_head r + Z.of_nat i))) (rb_buf r) 0 = nth i d 0
  end.

Definition rcv_ok (r : ring) (v : receiver) : Prop :=
  match v with
  | RIdle | RHead _ => True
  | RTail n h => 0 <= h < rb_len r /\ cnt (rb_len r) h (rb_tail r) <= held_count r
  | RStart c => 0 < c <= held_count r
  | RCopy c start k got =>
      start = rb_tail r /\ 0 <= k <= c /\ 0 < c <= held_count r /\ got = firstn (Z.to_nat k) (held r)
  end.

Record inv (size : nat) (s : stream1) : Prop := {
  i_ring : ring_ok (st_ring s);
  i_size : length (rb_buf (st_ring s)) = size;
  i_snd : snd_ok (st_ring s) (st_snd s);
  i_rcv : rcv_ok (st_ring s) (st_rcv s);
  i_data : st_sent s = st_got s ++ held (st_ring s) }.

Lemma inv_new size : size_ok size -> inv size (stream1_new size).
Proof.
  intros H. unfold size_ok in H. constructor; cbn; auto.
  - unfold ring_ok, rb_len. cbn. rewrite repeat_length. lia.
  - apply repeat_length.
Qed.

Lemma rd_nth (l : list Z) k : 0 <= k < Z.of_nat (length l) -> rd l k = Some (nth (Z.to_nat k) l 0).
Proof.
  intros H. unfold rd, get. replace (k <? Z.of_nat (length l)) with true by lia.
  replace (k <? 0) with false by lia. apply nth_error_nth'. lia.
Qed.

Lemma wr_upd (l : list Z) k x : 0 <= k < Z.of_nat (length l) -> wr l k x = Some (upd l (Z.to_nat k) x).
Proof. intros H. unfold wr. replace ((0 <=? k) && (k <? Z.of_nat (length l))) with true by lia. reflexivity. Qed.

Lemma firstn_snoc (l : list Z) k : (k < length l)%nat -> firstn k l ++ [nth k l 0] = firstn (S k) l.
Proof.
  revert k. induction l as [|h t IH]; intros k H; cbn [length] in H; [lia|].
  destruct k as [|k]; [reflexivity|]. cbn [firstn nth app]. f_equal. apply IH. lia.
Qed.

(** A store by the sender keeps what the receiver relies on, and the other way
    round. *)
Lemma rcv_store r v k b :
  ring_ok r -> 0 <= k < rb_len r - held_count r -> rcv_ok r v ->
  rcv_ok (mkRing (upd (rb_buf r) (Z.to_nat (wrap (rb_len r) (rb_head r + k))) b) (rb_head r) (rb_tail r)) v.
Proof.
  intros R K V. pose proof (held_store r k b R K) as H.
  assert (L : rb_len (mkRing (upd (rb_buf r) (Z.to_nat (wrap (rb_len r) (rb_head r + k))) b) (rb_head r) (rb_tail r)) = rb_len r)
    by (unfold rb_len; cbn [rb_buf]; now rewrite len_upd).
  assert (C : held_count (mkRing (upd (rb_buf r) (Z.to_nat (wrap (rb_len r) (rb_head r + k))) b) (rb_head r) (rb_tail r)) = held_count r)
    by (unfold held_count; rewrite L; reflexivity).
  destruct v as [|n|n h|c|c st j got]; cbn [rcv_ok] in V |- *; auto; rewrite ?L, ?C, ?H; cbn [rb_tail]; exact V.
Qed.

Lemma rcv_commit r v d :
  ring_ok r -> Z.of_nat (length d) < rb_len r - held_count r ->
  held_count (mkRing (rb_buf r) (wrap (rb_len r) (rb_head r + Z.of_nat (length d))) (rb_tail r)) = held_count r + Z.of_nat (length d) ->
  held (mkRing (rb_buf r) (wrap (rb_len r) (rb_head r + Z.of_nat (length d))) (rb_tail r)) = held r ++ d ->
  rcv_ok r v ->
  rcv_ok (mkRing (rb_buf r) (wrap (rb_len r) (rb_head r + Z.of_nat (length d))) (rb_tail r)) v.
Proof.
  intros R D C H V. pose proof (held_count_range r R).
  destruct v as [|n|n h|c|c st j got]; cbn [rcv_ok] in V |- *; auto; rewrite ?C, ?H; cbn [rb_tail];
    change (rb_len (mkRing (rb_buf r) ?a ?b)) with (rb_len r); try lia.
  - destruct V as (V1 & V2 & V3 & V4). repeat split; try lia. rewrite V4.
    rewrite firstn_app, length_held. replace (Z.to_nat j - Z.to_nat (held_count r))%nat with 0%nat by lia.
    now rewrite app_nil_r.
Qed.

Lemma count_commit r n :
  ring_ok r -> 0 <= n < rb_len r - held_count r ->
  held_count (mkRing (rb_buf r) (wrap (rb_len r) (rb_head r + n)) (rb_tail r)) = held_count r + n.
Proof.
  intros R D. pose proof (held_count_range r R) as C. unfold ring_ok in R. unfold held_count in *.
  cbn [rb_head rb_tail rb_buf]. unfold wrap. change (rb_len (mkRing _ _ _)) with (rb_len r).
  destruct (rb_head r + n <? rb_len r) eqn:F; destruct (rb_tail r <=? rb_head r) eqn:E;
    match goal with |- context [?a <=? ?b] => destruct (a <=? b) eqn:G end; lia.
Qed.

Lemma count_remove r c :
  ring_ok r -> 0 <= c <= held_count r ->
  held_count (mkRing (rb_buf r) (rb_head r) (wrap (rb_len r) (rb_tail r + c))) = held_count r - c.
Proof.
  intros R D. pose proof (held_count_range r R) as C. unfold ring_ok in R. unfold held_count in *.
  cbn [rb_head rb_tail rb_buf]. unfold wrap. change (rb_len (mkRing _ _ _)) with (rb_len r).
  destruct (rb_tail r + c <? rb_len r) eqn:F; destruct (rb_tail r <=? rb_head r) eqn:E;
    match goal with |- context [?a <=? ?b] => destruct (a <=? b) eqn:G end; lia.
Qed.

Lemma snd_remove r w c :
  ring_ok r -> 0 <= c <= held_count r -> snd_ok r w ->
  snd_ok (mkRing (rb_buf r) (rb_head r) (wrap (rb_len r) (rb_tail r + c))) w.
Proof.
  intros R D W. pose proof (count_remove r c R D) as C.
  destruct w as [|d|d t|d|d st k]; cbn [snd_ok] in W |- *; auto; rewrite C; cbn [rb_head rb_buf];
    change (rb_len (mkRing (rb_buf r) ?a ?b)) with (rb_len r); try lia.
  destruct W as (W1 & W2 & W3 & W4). split; [auto|split; [auto|split; [lia|exact W4]]].
Qed.

Lemma cnt_held r : held_count r = cnt (rb_len r) (rb_head r) (rb_tail r).
Proof. reflexivity. Qed.

(** ** Steps of the sender *)
Lemma sender_inv size s :
  inv size s ->
  match stream1_step s ESndStep with
  | Some s' => inv size s'
  | None => st_snd s = SStart []
  end.
Proof.
  intros [R Z0 W V D]. destruct s as [r w v sent got]. cbn [st_ring st_snd st_rcv st_sent st_got] in *.
  pose proof (held_count_range r R) as C. pose proof R as R0. unfold ring_ok in R0.
  cbn [stream1_step st_ring st_snd st_rcv st_sent st_got].
  destruct w as [|d|d t|d|d start k]; cbn [sender_step reported]; cbn [snd_ok] in W.
  - rewrite app_nil_r. constructor; cbn [st_ring st_snd st_rcv st_sent st_got snd_ok]; auto.
  - rewrite app_nil_r. constructor; cbn [st_ring st_snd st_rcv st_sent st_got snd_ok]; auto.
    rewrite cnt_held. lia.
  - rewrite spaces_spec by lia. fold (cnt (rb_len r) (rb_head r) t).
    destruct (_ =? 0) eqn:E; rewrite app_nil_r; constructor; cbn [st_ring st_snd st_rcv st_sent st_got snd_ok]; auto.
    rewrite firstn_length. lia.
  - destruct (0 <? Z.of_nat (length d)) eqn:E.
    + assert (X : ((rb_head r + Z.min (rb_len r - rb_head r) (Z.of_nat (length d)) <=? rb_len r) &&
         (Z.of_nat (length d) - Z.min (rb_len r - rb_head r) (Z.of_nat (length d)) <=? rb_len r)) = true) by lia.
      rewrite X, app_nil_r. constructor; cbn [st_ring st_snd st_rcv st_sent st_got snd_ok]; auto.
      repeat split; try lia.
    + destruct d; [reflexivity|cbn [length] in E; lia].
  - destruct W as (-> & K & L & B). destruct (k <? Z.of_nat (length d)) eqn:E.
    + rewrite slot_spec by lia. rewrite rd_nth by lia.
      pose proof (wrap_range (rb_len r) (rb_head r + k) ltac:(lia)) as WR.
      rewrite wr_upd by (unfold rb_len in WR |- *; exact WR).
      rewrite app_nil_r. assert (LL : forall x, rb_len (mkRing (upd (rb_buf r) (Z.to_nat (wrap (rb_len r) (rb_head r + k))) x) (rb_head r) (rb_tail r)) = rb_len r)
        by (intros; unfold rb_len; cbn [rb_buf]; now rewrite len_upd).
      assert (LC : forall x, held_count (mkRing (upd (rb_buf r) (Z.to_nat (wrap (rb_len r) (rb_head r + k))) x) (rb_head r) (rb_tail r)) = held_count r)
        by (intros; unfold held_count; rewrite LL; reflexivity).
      constructor; cbn [st_ring st_snd st_rcv st_sent st_got].
      * unfold ring_ok. rewrite LL. exact R.
      * cbn [rb_buf]. now rewrite len_upd.
      * cbn [snd_ok]. rewrite LL, LC. cbn [rb_head rb_buf]. split; [reflexivity|]. split; [lia|]. split; [lia|].
        intros i I. destruct (Z.eq_dec (Z.of_nat i) k) as [<-|NE].
        -- rewrite nth_upd_same by (pose proof (eq_refl : rb_len r = Z.of_nat (length (rb_buf r))); lia). now rewrite Nat2Z.id.
        -- rewrite nth_upd_other; [apply B; lia|]. unfold wrap in *.
           destruct (rb_head r + Z.of_nat i <? rb_len r) eqn:E1, (rb_head r + k <? rb_len r) eqn:E2; lia.
      * apply rcv_store; auto. lia.
      * rewrite held_store by (auto; lia). exact D.
    + rewrite advance_spec by lia. assert (K2 : k = Z.of_nat (length d)) by lia.
      rewrite Nat2Z.id, firstn_all.
      assert (HC : held (mkRing (rb_buf r) (wrap (rb_len r) (rb_head r + Z.of_nat (length d))) (rb_tail r)) = held r ++ d).
      { apply held_commit; auto. intros i I. apply B. lia. }
      pose proof (wrap_range (rb_len r) (rb_head r + Z.of_nat (length d)) ltac:(lia)).
      constructor; cbn [st_ring st_snd st_rcv st_sent st_got].
      * unfold ring_ok. cbn [rb_head rb_tail]. unfold rb_len in *. cbn [rb_buf]. lia.
      * exact Z0.
      * exact I.
      * apply rcv_commit; auto. apply count_commit; auto. lia.
      * rewrite HC, D, app_assoc. reflexivity.
Qed.

(** ** Steps of the receiver *)
Lemma receiver_inv size s :
  inv size s -> exists s', stream1_step s ERcvStep = Some s' /\ inv size s'.
Proof.
  intros [R Z0 W V D]. destruct s as [r w v sent got]. cbn [st_ring st_snd st_rcv st_sent st_got] in *.
  pose proof (held_count_range r R) as C. pose proof R as R0. unfold ring_ok in R0.
  cbn [stream1_step st_ring st_snd st_rcv st_sent st_got].
  destruct v as [|n|n h|c|c start k l]; cbn [receiver_step]; cbn [rcv_ok] in V.
  - eexists; split; [reflexivity|]. rewrite app_nil_r. constructor; auto.
  - eexists; split; [reflexivity|]. rewrite app_nil_r. constructor; cbn [st_ring st_snd st_rcv st_sent st_got rcv_ok]; auto.
    rewrite cnt_held. lia.
  - rewrite bytes_spec by lia. fold (cnt (rb_len r) h (rb_tail r)).
    destruct (0 <? _) eqn:E; (eexists; split; [reflexivity|]); rewrite app_nil_r;
      constructor; cbn [st_ring st_snd st_rcv st_sent st_got rcv_ok]; auto. lia.
  - replace (_ <=? rb_len r) with true by lia. eexists; split; [reflexivity|]. rewrite app_nil_r.
    constructor; cbn [st_ring st_snd st_rcv st_sent st_got rcv_ok]; auto. repeat split; try lia.
  - destruct V as (-> & K & L & G). destruct (k <? c) eqn:E.
    + rewrite slot_spec by lia.
      pose proof (wrap_range (rb_len r) (rb_tail r + k) ltac:(lia)) as WR.
      rewrite rd_nth by (unfold rb_len in WR |- *; exact WR).
      eexists; split; [reflexivity|]. rewrite app_nil_r.
      constructor; cbn [st_ring st_snd st_rcv st_sent st_got rcv_ok]; auto. repeat split; try lia.
      rewrite G. replace (Z.to_nat (k + 1)) with (S (Z.to_nat k)) by lia.
      rewrite <- firstn_snoc by (rewrite length_held; lia). f_equal. f_equal.
      rewrite nth_held by (rewrite length_held; lia). unfold held_byte. do 3 f_equal. lia.
    + rewrite advance_spec by lia. eexists; split; [reflexivity|].
      assert (K2 : k = c) by lia. subst k.
      pose proof (wrap_range (rb_len r) (rb_tail r + c) ltac:(lia)).
      constructor; cbn [st_ring st_snd st_rcv st_sent st_got].
      * unfold ring_ok. cbn [rb_head rb_tail]. unfold rb_len in *. cbn [rb_buf]. lia.
      * exact Z0.
      * apply snd_remove; auto. lia.
      * exact I.
      * rewrite held_remove by (auto; lia). rewrite D, G, <- app_assoc, firstn_skipn. reflexivity.
Qed.

Lemma step_inv size s e :
  inv size s ->
  match stream1_step s e with
  | Some s' => inv size s'
  | None => st_snd s = SStart []
  end.
Proof.
  intros H. destruct e.
  - cbn [stream1_step]. destruct (st_snd s) eqn:E; auto. destruct H. constructor; cbn; auto.
  - cbn [stream1_step]. destruct (st_rcv s) eqn:E; auto. destruct H. constructor; cbn; auto.
  - now apply sender_inv.
  - destruct (receiver_inv size s H) as (s' & -> & H'). exact H'.
Qed.

Lemma run_inv size es : forall s s', inv size s -> stream1_run s es = Some s' -> inv size s'.
Proof.
  induction es as [|e es IH]; intros s s' H R; cbn [stream1_run] in R.
  - congruence.
  - pose proof (step_inv size s e H) as X. destruct (stream1_step s e) as [s1|]; [|discriminate]. eauto.
Qed.

Lemma reach_inv size s : size_ok size -> stream_reach size s -> inv size s.
Proof. intros Z0 (es & R). exact (run_inv size es _ _ (inv_new size Z0) R). Qed.

(** ** No stop as long as every send has data *)
Definition has_data (w : sender) : Prop :=
  match w with SIdle => True | STail d | SHead d _ | SStart d => d <> [] | SCopy _ _ _ => True end.

Lemma step_has_data size s e s' :
  inv size s -> has_data (st_snd s) -> e <> ESend [] -> stream1_step s e = Some s' -> has_data (st_snd s').
Proof.
  intros [R Z0 W V D] H NE. destruct s as [r w v sent got]. cbn [st_ring st_snd st_rcv] in *. destruct e; cbn [stream1_step st_ring st_snd st_rcv].
  - intros [= <-]. destruct w; cbn [st_snd has_data] in *; auto. congruence.
  - intros [= <-]. destruct v; cbn [st_snd has_data] in *; auto.
  - unfold ring_ok in R. destruct w as [|d|d t|d|d st k]; cbn [sender_step has_data snd_ok] in *.
    + intros [= <-]. exact I.
    + intros [= <-]. exact H.
    + destruct (_ =? 0) eqn:E; intros [= <-]; cbn [st_snd has_data]; [exact I|].
      rewrite spaces_spec in E |- * by lia. fold (cnt (rb_len r) (rb_head r) t) in *.
      pose proof (held_count_range r R). destruct d as [|b d]; [congruence|].
      destruct (Z.to_nat (rb_len r - 1 - cnt (rb_len r) (rb_head r) t)) eqn:F; [|discriminate].
      unfold cnt in *. destruct (t <=? rb_head r) eqn:G; lia.
    + destruct (0 <? _); [|discriminate]. destruct (_ && _); [|discriminate]. intros [= <-]. exact I.
    + destruct (k <? _); [|intros [= <-]; exact I]. destruct (rd d k); [|discriminate].
      destruct (wr _ _ _); [|discriminate]. intros [= <-]. exact I.
  - destruct (receiver_step r v) as [[[r' v'] res]|]; [|discriminate]. intros [= <-]. exact H.
Qed.

Lemma run_safe size es : forall s,
  inv size s -> has_data (st_snd s) -> nonempty_sends es -> exists s', stream1_run s es = Some s'.
Proof.
  unfold nonempty_sends. induction es as [|e es IH]; intros s H P NE; cbn [stream1_run].
  - eauto.
  - pose proof (step_inv size s e H) as X. cbn [In] in NE.
    destruct (stream1_step s e) as [s1|] eqn:E.
    + apply IH; auto. apply (step_has_data size s e s1); auto.
    + rewrite X in P. cbn in P. congruence.
Qed.

(** ** A call ends after a bounded number of its own accesses *)
Definition snd_left (w : sender) : nat :=
  match w with
  | SIdle => 0
  | STail d => length d + 4
  | SHead d _ => length d + 3
  | SStart d => length d + 2
  | SCopy d _ k => Z.to_nat (Z.of_nat (length d) - k) + 1
  end.

Lemma snd_left_step size s s' :
  inv size s -> stream1_step s ESndStep = Some s' -> (snd_left (st_snd s') <= snd_left (st_snd s) - 1)%nat.
Proof.
  intros [R Z0 W V D]. destruct s as [r w v sent got]. cbn [st_ring st_snd st_rcv stream1_step] in *.
  destruct w as [|d|d t|d|d st k]; cbn [sender_step snd_ok] in *.
  - intros [= <-]. cbn. lia.
  - intros [= <-]. cbn [st_snd snd_left]. lia.
  - destruct (_ =? 0); intros [= <-]; cbn [st_snd snd_left]; [lia|]. rewrite firstn_length. lia.
  - destruct (0 <? _); [|discriminate]. destruct (_ && _); [|discriminate]. intros [= <-]. cbn [st_snd snd_left]. lia.
  - destruct (k <? _) eqn:E; [|intros [= <-]; cbn [st_snd snd_left]; lia]. destruct (rd d k); [|discriminate].
    destruct (wr _ _ _); [|discriminate]. intros [= <-]. cbn [st_snd snd_left]. lia.
Qed.

Lemma snd_other s e s' :
  stream1_step s e = Some s' -> e <> ESndStep -> (forall d, e <> ESend d) ->
  st_snd s' = st_snd s /\ st_sent s' = st_sent s.
Proof.
  destruct e; intros H A B; try congruence; cbn [stream1_step] in H.
  - injection H as <-. destruct (st_rcv s); cbn; auto.
  - destruct (receiver_step _ _) as [[[r v] res]|]; [|discriminate]. injection H as <-. cbn; auto.
Qed.

Lemma no_send_cons e es : no_send (e :: es) -> (forall d, e <> ESend d) /\ no_send es.
Proof. unfold no_send. cbn [In]. intros H. split; intros d K; apply (H d); auto. Qed.

Lemma snd_finishes size es : forall s s',
  inv size s -> no_send es -> stream1_run s es = Some s' -> (snd_left (st_snd s) <= snd_steps es)%nat ->
  st_snd s' = SIdle.
Proof.
  induction es as [|e es IH]; intros s s' H N R L; cbn [stream1_run snd_steps] in *.
  - injection R as <-. destruct (st_snd s); cbn [snd_left] in L; try lia; auto.
  - destruct (no_send_cons _ _ N) as [N1 N2].
    pose proof (step_inv size s e H) as X. destruct (stream1_step s e) as [s1|] eqn:E; [|discriminate].
    apply (IH s1 s'); auto. destruct e; try (destruct (snd_other s _ s1 E) as [-> _]; [congruence|auto|exact L]).
    pose proof (snd_left_step size s s1 H E). lia.
Qed.

Definition rcv_left (size : nat) (v : receiver) : nat :=
  match v with
  | RIdle => 0
  | RHead _ => size + 4
  | RTail _ _ => size + 3
  | RStart _ => size + 2
  | RCopy c _ k _ => Z.to_nat (c - k) + 1
  end.

Lemma rcv_left_step size s s' :
  inv size s -> stream1_step s ERcvStep = Some s' -> (rcv_left size (st_rcv s') <= rcv_left size (st_rcv s) - 1)%nat.
Proof.
  intros [R Z0 W V D]. destruct s as [r w v sent got]. cbn [st_ring st_snd st_rcv stream1_step] in *.
  pose proof (held_count_range r R). unfold rb_len in *.
  destruct v as [|n|n h|c|c st k g]; cbn [receiver_step rcv_ok] in *.
  - intros [= <-]. cbn. lia.
  - intros [= <-]. cbn [st_rcv rcv_left]. lia.
  - destruct (0 <? _); intros [= <-]; cbn [st_rcv rcv_left]; lia.
  - destruct (_ <=? _); [|discriminate]. intros [= <-]. cbn [st_rcv rcv_left]. lia.
  - destruct (k <? _) eqn:E; [|intros [= <-]; cbn [st_rcv rcv_left]; lia].
    destruct (rd _ _); [|discriminate]. intros [= <-]. cbn [st_rcv rcv_left]. lia.
Qed.

Lemma rcv_other s e s' :
  stream1_step s e = Some s' -> e <> ERcvStep -> (forall n, e <> ERecv n) ->
  st_rcv s' = st_rcv s /\ st_got s' = st_got s.
Proof.
  destruct e; intros H A B; try congruence; cbn [stream1_step] in H.
  - injection H as <-. destruct (st_snd s); cbn; auto.
  - destruct (sender_step _ _) as [[[r v] res]|]; [|discriminate]. injection H as <-. cbn; auto.
Qed.

Lemma no_recv_cons e es : no_recv (e :: es) -> (forall n, e <> ERecv n) /\ no_recv es.
Proof. unfold no_recv. cbn [In]. intros H. split; intros d K; apply (H d); auto. Qed.

Lemma rcv_finishes size es : forall s s',
  inv size s -> no_recv es -> stream1_run s es = Some s' -> (rcv_left size (st_rcv s) <= rcv_steps es)%nat ->
  st_rcv s' = RIdle.
Proof.
  induction es as [|e es IH]; intros s s' H N R L; cbn [stream1_run rcv_steps] in *.
  - injection R as <-. destruct (st_rcv s); cbn [rcv_left] in L; try lia; auto.
  - destruct (no_recv_cons _ _ N) as [N1 N2].
    pose proof (step_inv size s e H) as X. destruct (stream1_step s e) as [s1|] eqn:E; [|discriminate].
    apply (IH s1 s'); auto. destruct e; try (destruct (rcv_other s _ s1 E) as [-> _]; [congruence|auto|exact L]).
    pose proof (rcv_left_step size s s1 H E). lia.
Qed.

(** ** How much a call to send stores *)

(** The amount held only falls while the sender stores nothing. *)
Lemma rcv_count size s e s' :
  inv size s -> stream1_step s e = Some s' -> e <> ESndStep -> held_count (st_ring s') <= held_count (st_ring s).
Proof.
  intros [R Z0 W V D] H NE. destruct s as [r w v sent got]. cbn [st_ring st_snd st_rcv] in *.
  unfold ring_ok in R. destruct e; try congruence; cbn [stream1_step st_ring st_snd st_rcv] in H.
  - injection H as <-. destruct w; cbn; lia.
  - injection H as <-. destruct v; cbn; lia.
  - destruct v as [|n|n h|c|c st k g]; cbn [receiver_step] in H.
    + injection H as <-. cbn. lia.
    + injection H as <-. cbn. lia.
    + destruct (0 <? _); injection H as <-; cbn; lia.
    + destruct (_ <=? _); [|discriminate]. injection H as <-. cbn. lia.
    + cbn [rcv_ok] in V. destruct V as (-> & K & L & G). destruct (k <? c).
      * destruct (rd _ _); [|discriminate]. injection H as <-. cbn. lia.
      * injection H as <-. cbn [st_ring]. rewrite advance_spec by (pose proof (held_count_range r R); lia).
        rewrite count_remove by (auto; lia). lia.
Qed.

(** The sender is at some point of a call with [d], started with [free] bytes of
    room when [before] had been stored. *)
Definition sending (d before : list Z) (free : nat) (s : stream1) : Prop :=
  match st_snd s with
  | SIdle => exists c, (Nat.min (length d) free <= c)%nat /\ st_sent s = before ++ firstn c d
  | STail d' => d' = d /\ st_sent s = before /\ (free <= room (st_ring s))%nat
  | SHead d' t => d' = d /\ st_sent s = before /\ Z.of_nat free <= rb_len (st_ring s) - 1 - cnt (rb_len (st_ring s)) (rb_head (st_ring s)) t
  | SStart d' | SCopy d' _ _ => exists c, (Nat.min (length d) free <= c)%nat /\ d' = firstn c d /\ st_sent s = before
  end.

Lemma ring_head_len s e s' :
  stream1_step s e = Some s' -> e <> ESndStep ->
  rb_len (st_ring s') = rb_len (st_ring s) /\ rb_head (st_ring s') = rb_head (st_ring s).
Proof.
  destruct s as [r w v sent got]. intros H NE. destruct e; try congruence; cbn [stream1_step st_ring st_snd st_rcv] in H.
  - injection H as <-. destruct w; cbn; auto.
  - injection H as <-. destruct v; cbn; auto.
  - destruct v as [|n|n h|c|c st k g]; cbn [receiver_step] in H.
    + injection H as <-. auto.
    + injection H as <-. auto.
    + destruct (0 <? _); injection H as <-; auto.
    + destruct (_ <=? _); [|discriminate]. injection H as <-. auto.
    + destruct (k <? c).
      * destruct (rd _ _); [|discriminate]. injection H as <-. auto.
      * injection H as <-. auto.
Qed.

Lemma sending_step size d before free s e s' :
  inv size s -> sending d before free s -> (forall d, e <> ESend d) ->
  stream1_step s e = Some s' -> sending d before free s'.
Proof.
  intros H J N E. assert (DEC : e = ESndStep \/ e <> ESndStep) by (destruct e; auto; right; congruence).
  destruct DEC as [->|NE].
  - destruct H as [R Z0 W V D]. destruct s as [r w v sent got]. cbn [st_ring st_snd st_rcv stream1_step] in *.
    unfold sending in J. cbn [st_snd st_sent st_ring] in J. pose proof (held_count_range r R) as C. unfold ring_ok in R.
    destruct w as [|d0|d0 t|d0|d0 st k]; cbn [sender_step snd_ok] in *.
    + injection E as <-. unfold sending. cbn [st_snd st_sent]. cbn [reported]. rewrite app_nil_r. exact J.
    + injection E as <-. destruct J as (-> & -> & F). unfold sending. cbn [st_snd st_sent st_ring reported]. rewrite app_nil_r.
      split; [reflexivity|]. split; [reflexivity|]. unfold room in F. rewrite length_held in F. rewrite <- cnt_held. lia.
    + destruct J as (-> & -> & F). rewrite spaces_spec in E by lia. fold (cnt (rb_len r) (rb_head r) t) in E.
      destruct (_ =? 0) eqn:Q; injection E as <-; unfold sending; cbn [st_snd st_sent reported]; rewrite app_nil_r.
      * exists 0%nat. split; [lia|]. cbn [firstn]. now rewrite app_nil_r.
      * eexists. split; [|split; reflexivity]. lia.
    + destruct (0 <? _); [|discriminate]. destruct (_ && _); [|discriminate]. injection E as <-.
      unfold sending; cbn [st_snd st_sent reported]. rewrite app_nil_r. exact J.
    + destruct (k <? _).
      * destruct (rd d0 k); [|discriminate]. destruct (wr _ _ _); [|discriminate]. injection E as <-.
        unfold sending; cbn [st_snd st_sent reported]. rewrite app_nil_r. exact J.
      * injection E as <-. unfold sending; cbn [st_snd st_sent reported]. rewrite Nat2Z.id, firstn_all.
        destruct J as (c & J1 & -> & ->). eauto.
  - destruct (snd_other s e s' E NE N) as [W S]. destruct (ring_head_len s e s' E NE) as [L HD].
    pose proof (rcv_count size s e s' H E NE) as C. unfold sending in *. rewrite W, S, L, HD.
    destruct (st_snd s); auto. destruct J as (J1 & J2 & J3). split; [auto|]. split; [auto|].
    unfold room in *. rewrite length_held in *. rewrite L. lia.
Qed.

Lemma sending_run size es : forall d before free s s',
  inv size s -> sending d before free s -> no_send es -> stream1_run s es = Some s' ->
  sending d before free s'.
Proof.
  induction es as [|e es IH]; intros d before free s s' H J N R; cbn [stream1_run] in R.
  - congruence.
  - destruct (no_send_cons _ _ N) as [N1 N2]. pose proof (step_inv size s e H) as X.
    destruct (stream1_step s e) as [s1|] eqn:E; [|discriminate].
    apply (IH d before free s1 s'); auto. apply (sending_step size d before free s e s1); auto.
Qed.

(** ** How much a call to receive returns *)
Lemma snd_count size s e s' :
  inv size s -> stream1_step s e = Some s' -> e <> ERcvStep -> held_count (st_ring s) <= held_count (st_ring s').
Proof.
  intros [R Z0 W V D] H NE. destruct s as [r w v sent got]. cbn [st_ring st_snd st_rcv] in *.
  pose proof (held_count_range r R) as C. pose proof R as R0. unfold ring_ok in R0.
  destruct e; try congruence; cbn [stream1_step st_ring st_snd st_rcv] in H.
  - injection H as <-. destruct w; cbn; lia.
  - injection H as <-. destruct v; cbn; lia.
  - destruct w as [|d|d t|d|d st k]; cbn [sender_step] in H.
    + injection H as <-. cbn. lia.
    + injection H as <-. cbn. lia.
    + destruct (_ =? 0); injection H as <-; cbn; lia.
    + destruct (0 <? _); [|discriminate]. destruct (_ && _); [|discriminate]. injection H as <-. cbn. lia.
    + cbn [snd_ok] in W. destruct W as (-> & K & L & G). destruct (k <? _).
      * destruct (rd _ _); [|discriminate]. destruct (wr _ _ _) as [b|] eqn:B; [|discriminate]. injection H as <-.
        cbn [st_ring]. unfold wr in B. destruct (_ && _); [|discriminate]. injection B as <-.
        unfold held_count, rb_len. cbn [rb_buf rb_head rb_tail]. rewrite len_upd. lia.
      * injection H as <-. cbn [st_ring]. rewrite advance_spec by lia.
        rewrite count_commit by (auto; lia). lia.
Qed.

Lemma ring_tail_len s e s' :
  stream1_step s e = Some s' -> e <> ERcvStep ->
  rb_len (st_ring s') = rb_len (st_ring s) /\ rb_tail (st_ring s') = rb_tail (st_ring s).
Proof.
  destruct s as [r w v sent got]. intros H NE. destruct e; try congruence; cbn [stream1_step st_ring st_snd st_rcv] in H.
  - injection H as <-. destruct w; cbn; auto.
  - injection H as <-. destruct v; cbn; auto.
  - destruct w as [|d|d t|d|d st k]; cbn [sender_step] in H.
    + injection H as <-. auto.
    + injection H as <-. auto.
    + destruct (_ =? 0); injection H as <-; auto.
    + destruct (0 <? _); [|discriminate]. destruct (_ && _); [|discriminate]. injection H as <-. auto.
    + destruct (k <? _).
      * destruct (rd _ _); [|discriminate]. destruct (wr _ _ _) as [b|] eqn:B; [|discriminate]. injection H as <-.
        cbn [st_ring]. unfold wr in B. destruct (_ && _); [|discriminate]. injection B as <-.
        unfold rb_len. cbn [rb_buf rb_tail]. rewrite len_upd. auto.
      * injection H as <-. auto.
Qed.

Definition receiving (n : Z) (before : list Z) (avail : nat) (s : stream1) : Prop :=
  match st_rcv s with
  | RIdle => exists l, st_got s = before ++ l /\ Z.min n (Z.of_nat avail) <= Z.of_nat (length l) <= n
  | RHead n' => n' = n /\ st_got s = before /\ Z.of_nat avail <= held_count (st_ring s)
  | RTail n' h => n' = n /\ st_got s = before /\ Z.of_nat avail <= cnt (rb_len (st_ring s)) h (rb_tail (st_ring s))
  | RStart c | RCopy c _ _ _ => Z.min n (Z.of_nat avail) <= c <= n /\ st_got s = before
  end.

Lemma receiving_step size n before avail s e s' :
  0 <= n -> inv size s -> receiving n before avail s -> (forall n, e <> ERecv n) ->
  stream1_step s e = Some s' -> receiving n before avail s'.
Proof.
  intros N0 H J N E. assert (DEC : e = ERcvStep \/ e <> ERcvStep) by (destruct e; auto; right; congruence).
  destruct DEC as [->|NE].
  - destruct H as [R Z0 W V D]. destruct s as [r w v sent got]. cbn [st_ring st_snd st_rcv stream1_step] in *.
    unfold receiving in J. cbn [st_rcv st_got st_ring] in J. pose proof (held_count_range r R) as C. unfold ring_ok in R.
    destruct v as [|n0|n0 h|c|c st k g]; cbn [receiver_step rcv_ok] in *.
    + injection E as <-. unfold receiving. cbn [st_rcv st_got]. rewrite app_nil_r. exact J.
    + injection E as <-. destruct J as (-> & -> & F). unfold receiving. cbn [st_rcv st_got st_ring]. rewrite app_nil_r.
      split; [reflexivity|]. split; [reflexivity|]. rewrite <- cnt_held. lia.
    + destruct J as (-> & -> & F). rewrite bytes_spec in E by lia. fold (cnt (rb_len r) h (rb_tail r)) in E.
      destruct (0 <? _) eqn:Q; injection E as <-; unfold receiving; cbn [st_rcv st_got]; rewrite app_nil_r.
      * split; [lia|reflexivity].
      * exists []. rewrite app_nil_r. split; [reflexivity|]. cbn [length]. lia.
    + destruct (_ <=? _); [|discriminate]. injection E as <-.
      unfold receiving; cbn [st_rcv st_got]. rewrite app_nil_r. exact J.
    + destruct (k <? c) eqn:Q.
      * destruct (rd _ _); [|discriminate]. injection E as <-.
        unfold receiving; cbn [st_rcv st_got]. rewrite app_nil_r. exact J.
      * injection E as <-. unfold receiving; cbn [st_rcv st_got]. destruct J as (J1 & ->).
        exists g. split; [reflexivity|]. destruct V as (_ & K & L & ->). rewrite firstn_length, length_held. lia.
  - destruct (rcv_other s e s' E NE N) as [W S]. destruct (ring_tail_len s e s' E NE) as [L HD].
    pose proof (snd_count size s e s' H E NE) as C. unfold receiving in *. rewrite W, S, L, HD.
    destruct (st_rcv s); auto. destruct J as (J1 & J2 & J3). split; [auto|]. split; [auto|]. lia.
Qed.

Lemma receiving_run size es : forall n before avail s s',
  0 <= n -> inv size s -> receiving n before avail s -> no_recv es -> stream1_run s es = Some s' ->
  receiving n before avail s'.
Proof.
  induction es as [|e es IH]; intros n before avail s s' N0 H J N R; cbn [stream1_run] in R.
  - congruence.
  - destruct (no_recv_cons _ _ N) as [N1 N2]. pose proof (step_inv size s e H) as X.
    destruct (stream1_step s e) as [s1|] eqn:E; [|discriminate].
    apply (IH n before avail s1 s'); auto. apply (receiving_step size n before avail s e s1); auto.
Qed.

(** ** A call that is not interrupted *)
Lemma no_send_repeat k : no_send (repeat ESndStep k).
Proof. intros d H%repeat_spec. discriminate. Qed.
Lemma no_recv_repeat k : no_recv (repeat ERcvStep k).
Proof. intros d H%repeat_spec. discriminate. Qed.
Lemma snd_steps_repeat k : snd_steps (repeat ESndStep k) = k.
Proof. induction k; cbn; auto. Qed.
Lemma rcv_steps_repeat k : rcv_steps (repeat ERcvStep k) = k.
Proof. induction k; cbn; auto. Qed.
Lemma rcv_steps_only k : forall s s', stream1_run s (repeat ESndStep k) = Some s' -> st_got s' = st_got s /\ st_rcv s' = st_rcv s.
Proof.
  induction k as [|k IH]; intros s s' R; cbn [repeat stream1_run] in R.
  - injection R as <-. auto.
  - destruct (stream1_step s ESndStep) as [s1|] eqn:E; [|discriminate].
    destruct (IH s1 s' R) as [A B]. destruct (rcv_other s ESndStep s1 E) as [C D]; [discriminate|discriminate|]. split; congruence.
Qed.
Lemma snd_steps_only k : forall s s', stream1_run s (repeat ERcvStep k) = Some s' -> st_sent s' = st_sent s /\ st_snd s' = st_snd s.
Proof.
  induction k as [|k IH]; intros s s' R; cbn [repeat stream1_run] in R.
  - injection R as <-. auto.
  - destruct (stream1_step s ERcvStep) as [s1|] eqn:E; [|discriminate].
    destruct (IH s1 s' R) as [A B]. destruct (snd_other s ERcvStep s1 E) as [C D]; [discriminate|discriminate|]. split; congruence.
Qed.

(** At most the room: the held bytes never exceed the capacity. *)
Lemma held_cap size s : inv size s -> (length (held (st_ring s)) <= size - 1)%nat.
Proof.
  intros [R Z0 _ _ _]. pose proof (held_count_range _ R). rewrite length_held. unfold rb_len in *. lia.
Qed.

(** ** Two senders that do not overlap *)
Lemma merge_app_a a b l x : merge a b l -> merge (a ++ x) b (l ++ x).
Proof.
  induction 1; cbn [app]; try (constructor; assumption).
  induction x; cbn [app]; constructor; auto.
Qed.
Lemma merge_app_b a b l x : merge a b l -> merge a (b ++ x) (l ++ x).
Proof.
  induction 1; cbn [app]; try (constructor; assumption).
  induction x; cbn [app]; constructor; auto.
Qed.

Definition as_one (e : stream2_event) : stream_event :=
  match e with
  | ESendA d | ESendB d => ESend d
  | EStepA | EStepB => ESndStep
  | ERecv2 n => ERecv n
  | EStepRcv => ERcvStep
  end.

Record same (s : stream2) (t : stream1) : Prop := {
  m_ring : s2_ring s = st_ring t;
  m_rcv : s2_rcv s = st_rcv t;
  m_got : s2_got s = st_got t;
  m_snd : s2_a s = SIdle /\ st_snd t = s2_b s \/ s2_b s = SIdle /\ st_snd t = s2_a s;
  m_sent : merge (s2_sent_a s) (s2_sent_b s) (st_sent t) }.

Lemma idle_eq w : (match w with SIdle => true | _ => false end) = true -> w = SIdle.
Proof. destruct w; congruence. Qed.

Lemma same_step s t e s' :
  same s t -> no_overlap s e = true -> stream2_step s e = Some s' ->
  exists t', stream1_step t (as_one e) = Some t' /\ same s' t'.
Proof.
  intros [M1 M2 M3 M4 M5] N E. destruct s as [r a b v sa sb g]. destruct t as [r1 w v1 st g1].
  cbn [s2_ring s2_a s2_b s2_rcv s2_sent_a s2_sent_b s2_got st_ring st_snd st_rcv st_sent st_got] in *. subst r1 v1 g1.
  destruct e; cbn [no_overlap s2_a s2_b] in N; cbn [stream2_step s2_ring s2_a s2_b s2_rcv s2_sent_a s2_sent_b s2_got as_one stream1_step
    st_ring st_snd st_rcv st_sent st_got] in *.
  - apply idle_eq in N. subst b. assert (w = a) by (destruct M4 as [[-> ->]|[_ ->]]; reflexivity). subst w.
    injection E as <-. eexists. split; [reflexivity|]. destruct a; constructor; cbn; auto.
  - apply idle_eq in N. subst a. assert (w = b) by (destruct M4 as [[_ ->]|[-> ->]]; reflexivity). subst w.
    injection E as <-. eexists. split; [reflexivity|]. destruct b; constructor; cbn; auto.
  - injection E as <-. eexists. split; [reflexivity|]. destruct v; constructor; cbn; auto.
  - apply idle_eq in N. subst b. assert (w = a) by (destruct M4 as [[-> ->]|[_ ->]]; reflexivity). subst w.
    destruct (sender_step r a) as [[[r' w'] res]|]; [|discriminate]. injection E as <-.
    eexists. split; [reflexivity|]. constructor; cbn [s2_ring s2_a s2_b s2_rcv s2_sent_a s2_sent_b s2_got st_ring st_snd st_rcv st_sent st_got]; auto.
    now apply merge_app_a.
  - apply idle_eq in N. subst a. assert (w = b) by (destruct M4 as [[_ ->]|[-> ->]]; reflexivity). subst w.
    destruct (sender_step r b) as [[[r' w'] res]|]; [|discriminate]. injection E as <-.
    eexists. split; [reflexivity|]. constructor; cbn [s2_ring s2_a s2_b s2_rcv s2_sent_a s2_sent_b s2_got st_ring st_snd st_rcv st_sent st_got]; auto.
    now apply merge_app_b.
  - destruct (receiver_step r v) as [[[r' v'] res]|]; [|discriminate]. injection E as <-.
    eexists. split; [reflexivity|]. constructor; cbn [s2_ring s2_a s2_b s2_rcv s2_sent_a s2_sent_b s2_got st_ring st_snd st_rcv st_sent st_got]; auto.
Qed.

Lemma same_run es : forall s t s',
  same s t -> schedule no_overlap s es = true -> stream2_run s es = Some s' ->
  exists t', stream1_run t (map as_one es) = Some t' /\ same s' t'.
Proof.
  induction es as [|e es IH]; intros s t s' M N R; cbn [stream2_run schedule map stream1_run] in *.
  - injection R as <-. eauto.
  - apply andb_prop in N as [N1 N2]. destruct (stream2_step s e) as [s1|] eqn:E; [|discriminate].
    destruct (same_step s t e s1 M N1 E) as (t1 & -> & M1). eauto.
Qed.

Lemma same_new size : same (stream2_new size) (stream1_new size).
Proof. constructor; cbn; auto. constructor. Qed.
