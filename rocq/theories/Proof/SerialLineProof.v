From Verif.Model Require Import SerialLine.
From Verif.Spec Require Import SerialLineSpec.
From Coq Require Import Lia ZifyBool.
Ltac Zify.zify_post_hook ::= Z.div_mod_to_equations.

(** Where a sample falls. *)
Lemma sample_in btx brx d k j :
  close btx brx -> 0 <= d <= brx / 16 -> 0 <= k <= 9 -> 7 <= j <= 9 ->
  k * btx <= d + (16 * k + j) * brx / 16 < (k + 1) * btx.
Proof.
  intros (P & B & C) D K J.
  assert (K' : k = 0 \/ k = 1 \/ k = 2 \/ k = 3 \/ k = 4 \/ k = 5 \/ k = 6 \/ k = 7 \/ k = 8 \/ k = 9) by lia.
  assert (J' : j = 7 \/ j = 8 \/ j = 9) by lia. clear K J.
  repeat destruct K' as [-> | K']; try subst k; repeat destruct J' as [-> | J']; try subst j; lia.
Qed.

Lemma find_first bit s b cs t :
  s <= t < s + 10 * bit -> line bit ((s, b) :: cs) t = char_bit b ((t - s) / bit).
Proof.
  intros H. unfold line. cbn [find fst]. replace (s <=? t) with true by lia.
  replace (t <? s + 10 * bit) with true by lia. reflexivity.
Qed.

(** Looking only at times from [t0] on, characters that ended before play no part. *)
Lemma line_skip bit s b cs t : s + 10 * bit <= t -> line bit ((s, b) :: cs) t = line bit cs t.
Proof. intros H. unfold line. cbn [find fst]. replace (t <? s + 10 * bit) with false by lia. now rewrite Bool.andb_false_r. Qed.

Lemma find_none (bit t0 : Z) : 0 < bit -> forall (cs : list (Z * Z)) t x, sent_from bit t cs ->
  match cs with [] => True | (s, _) :: _ => x < s end ->
  find (fun c => (fst c <=? x) && (x <? fst c + 10 * bit)) cs = None.
Proof.
  intros B. induction cs as [|[s b] cs IH]; intros t x F N; [reflexivity|]. cbn [find fst].
  replace (s <=? x) with false by lia. cbn [andb]. destruct F as (_ & _ & F).
  apply (IH (s + 10 * bit)); [exact F|]. destruct cs as [|[s' b'] cs]; [exact Logic.I|]. cbn in F. lia.
Qed.

Lemma line_before bit t cs x : 0 < bit -> sent_from bit t cs ->
  match cs with [] => True | (s, _) :: _ => x < s end -> line bit cs x = true.
Proof. intros B F N. unfold line. now rewrite (find_none bit 0 B cs t x F N). Qed.

Lemma line_at btx s b cs k x :
  0 < btx -> 0 <= k <= 9 -> s + k * btx <= x < s + (k + 1) * btx -> line btx ((s, b) :: cs) x = char_bit b k.
Proof.
  intros B K X. rewrite find_first by nia. f_equal. symmetry.
  apply (Z.div_unique_pos (x - s) btx k (x - s - k * btx)); nia.
Qed.

Lemma rx_bit_ok btx brx s b cs d k :
  close btx brx -> 0 <= d <= brx / 16 -> 0 <= k <= 9 ->
  rx_bit (line btx ((s, b) :: cs)) brx (s + d) k = char_bit b k.
Proof.
  intros C D K.
  assert (S : forall j, 7 <= j <= 9 -> sample (line btx ((s, b) :: cs)) brx (s + d) k j = char_bit b k).
  { intros j J. unfold sample. pose proof (sample_in btx brx d k j C D K J). apply line_at; [apply C|exact K|].
    rewrite <- Z.add_assoc. generalize ((16 * k + j) * brx / 16) H. intros z HZ. nia. }
  unfold rx_bit. rewrite !S by lia. unfold majority. destruct (char_bit b k); reflexivity.
Qed.

Lemma byte_bits b : 0 <= b < 256 ->
  fold_left (fun a k => a + (if Z.testbit b k then 2 ^ k else 0)) [0; 1; 2; 3; 4; 5; 6; 7] 0 = b.
Proof.
  intros B. cbn [fold_left].
  assert (E : forall k, 0 <= k -> (if Z.testbit b k then 2 ^ k else 0) = (b / 2 ^ k) mod 2 * 2 ^ k).
  { intros k K. rewrite Z.testbit_odd, Z.shiftr_div_pow2 by exact K. rewrite Zmod_odd.
    destruct (Z.odd (b / 2 ^ k)); lia. }
  rewrite !E by lia.
  change (2 ^ 0) with 1; change (2 ^ 1) with 2; change (2 ^ 2) with 4; change (2 ^ 3) with 8;
  change (2 ^ 4) with 16; change (2 ^ 5) with 32; change (2 ^ 6) with 64; change (2 ^ 7) with 128.
  lia.
Qed.

Lemma rx_char_ok btx brx s b cs d :
  close btx brx -> 0 <= d <= brx / 16 -> 0 <= b < 256 ->
  rx_char (line btx ((s, b) :: cs)) brx (s + d) = Some b.
Proof.
  intros C D B. unfold rx_char. rewrite !(rx_bit_ok btx brx s b cs d) by (auto; lia).
  change (negb (char_bit b 0) && char_bit b 9) with true. cbv iota. f_equal.
  etransitivity; [|exact (byte_bits b B)]. cbn [fold_left].
  rewrite !(rx_bit_ok btx brx s b cs d) by (auto; lia). reflexivity.
Qed.

Lemma rx_char_ext l l' brx t : 0 <= brx -> (forall x, t <= x -> l x = l' x) -> rx_char l brx t = rx_char l' brx t.
Proof.
  intros B E.
  assert (S : forall k j, 0 <= k -> 0 <= j -> sample l brx t k j = sample l' brx t k j).
  { intros k j K J. unfold sample. apply E. assert (0 <= (16 * k + j) * brx / 16); [|lia].
    apply Z.div_pos; [nia|lia]. }
  assert (R : forall k, 0 <= k -> rx_bit l brx t k = rx_bit l' brx t k).
  { intros k K. unfold rx_bit. now rewrite !S by lia. }
  unfold rx_char. cbn [fold_left]. now rewrite !R by lia.
Qed.

Definition agree (l : Z -> bool) (btx : Z) (cs : list (Z * Z)) (t : Z) : Prop :=
  forall x, t <= x -> l x = line btx cs x.

(** After a character. *)
Lemma after_char btx brx s b cs d l t :
  close btx brx -> 0 <= d <= brx / 16 -> t <= s -> sent_from btx t ((s, b) :: cs) -> agree l btx ((s, b) :: cs) t ->
  sent_from btx (rx_end brx (s + d)) cs /\ agree l btx cs (rx_end brx (s + d)).
Proof.
  intros C D T F A. cbn [sent_from] in F. destruct F as (_ & HB & F).
  pose proof (sample_in btx brx d 9 9 C D ltac:(lia) ltac:(lia)) as E. change (16 * 9 + 9) with 153 in E.
  unfold rx_end. set (z := 153 * brx / 16) in *. assert (BP : 0 < btx) by apply C. split.
  - destruct cs as [|[s' b'] cs]; [exact Logic.I|]. cbn [sent_from] in *. destruct F as (F1 & F2 & F3). split; [lia|auto].
  - intros x X. rewrite A by lia. destruct (Z.lt_ge_cases x (s + 10 * btx)) as [L|L].
    + rewrite (line_at btx s b cs 9 x BP ltac:(lia) ltac:(lia)).
      rewrite (line_before btx (s + 10 * btx) cs x BP F); [reflexivity|].
      destruct cs as [|[s' b'] cs]; [exact Logic.I|]. cbn [sent_from] in F. lia.
    + now apply line_skip.
Qed.

Lemma run_prefix btx brx : close btx brx -> forall l t out, rx_run l brx t out ->
  forall cs, sent_from btx t cs -> agree l btx cs t ->
  out = map Some (firstn (length out) (map snd cs)).
Proof.
  intros C l t out R. induction R as [t|t e d out T H L D R IH]; intros cs F A; [reflexivity|].
  assert (BP : 0 < btx) by apply C.
  destruct cs as [|[s b] cs]; [rewrite A in L by exact T; discriminate|].
  assert (e = s) as ->.
  { assert (F' := F). cbn [sent_from] in F'. destruct F' as (TS & _ & _).
    destruct (Z.lt_trichotomy e s) as [X|[X|X]]; [|exact X|]; exfalso.
    - rewrite A, (line_before btx t ((s, b) :: cs) e BP F X) in L by exact T. discriminate.
    - specialize (H s ltac:(lia)). rewrite A in H by exact TS.
      rewrite (line_at btx s b cs 0 s BP ltac:(lia) ltac:(lia)) in H. discriminate. }
  destruct (after_char btx brx s b cs d l t C D T F A) as [F' A'].
  cbn [length map firstn snd]. f_equal.
  - rewrite (rx_char_ext l (line btx ((s, b) :: cs)) brx (s + d)).
    + apply rx_char_ok; auto. cbn [sent_from] in F. tauto.
    + destruct C as (_ & B & _). lia.
    + intros x X. apply A. lia.
  - exact (IH cs F' A').
Qed.

Lemma run_exists btx brx : close btx brx -> forall cs l t, sent_from btx t cs -> agree l btx cs t ->
  rx_run l brx t (map Some (map snd cs)).
Proof.
  intros C. assert (BP : 0 < btx) by apply C. assert (BR : 16 <= brx) by apply C.
  induction cs as [|[s b] cs IH]; intros l t F A; [apply RxIdle|].
  assert (F0 := F). cbn [sent_from] in F0. destruct F0 as (TS & B & _). cbn [map snd].
  assert (D : 0 <= 0 <= brx / 16) by lia.
  destruct (after_char btx brx s b cs 0 l t C D TS F A) as [F' A'].
  replace (Some b) with (rx_char l brx (s + 0)).
  - apply RxChar; [exact TS| | |exact D|exact (IH l _ F' A')].
    + intros x X. rewrite A by lia. apply (line_before btx t _ x BP F). lia.
    + rewrite A by exact TS. now rewrite (line_at btx s b cs 0 s BP ltac:(lia) ltac:(lia)).
  - rewrite (rx_char_ext l (line btx ((s, b) :: cs)) brx (s + 0)).
    + apply rx_char_ok; auto.
    + lia.
    + intros x X. apply A. lia.
Qed.
