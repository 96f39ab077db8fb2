From Coq Require Import String.
From Verif.Model Require Import GpsText.
From Coq Require Import Lia ZifyBool ZifyNat.

Definition SIZE : nat := Z.to_nat (2 * GPS_RECV).

(** A buffer that holds a text and zeros. *)
Definition holds (buf text : list Z) : Prop :=
  (List.length text < SIZE)%nat /\ buf = text ++ repeat 0 (SIZE - List.length text).

Lemma repeat_split n k : (k <= n)%nat -> repeat 0 n = repeat 0 k ++ repeat 0 (n - k).
Proof. intros H. rewrite <- repeat_app. f_equal. lia. Qed.

Lemma snprintf_holds buf text add : holds buf text -> (List.length text + List.length add < SIZE)%nat ->
  Z.of_nat (List.length add) < GPS_RECV ->
  exists buf', snprintf_at buf (Z.of_nat (List.length text)) GPS_RECV add = Some (buf', Z.of_nat (List.length add)) /\ holds buf' (text ++ add).
Proof.
  intros [L ->] LA A. set (k := List.length add) in *.
  assert (F : firstn (Z.to_nat (GPS_RECV - 1)) add = add) by (apply firstn_all2; fold k; lia).
  unfold snprintf_at. rewrite F. unfold wr_block.
  assert (LB : Z.of_nat (List.length (text ++ repeat 0 (SIZE - List.length text))) = Z.of_nat SIZE)
    by (rewrite app_length, repeat_length; lia).
  rewrite LB. rewrite app_length. fold k. cbn [List.length].
  match goal with |- context [if ?c then _ else _] => replace c with true by lia end.
  eexists. split; [reflexivity|]. split; [rewrite app_length; exact LA|].
  rewrite Nat2Z.id. rewrite firstn_app, Nat.sub_diag, firstn_all, firstn_O, app_nil_r.
  replace (Z.to_nat (Z.of_nat (List.length text) + Z.of_nat (k + 1))) with (List.length text + (k + 1))%nat by lia.
  rewrite skipn_app, skipn_all2 by lia.
  replace (List.length text + (k + 1) - List.length text)%nat with (k + 1)%nat by lia.
  rewrite (repeat_split (SIZE - List.length text) (k + 1)) by lia.
  rewrite skipn_app, skipn_all2 by (rewrite repeat_length; lia). rewrite repeat_length, Nat.sub_diag. cbn [skipn app].
  rewrite app_length. fold k.
  replace (SIZE - (List.length text + k))%nat with (S (SIZE - List.length text - (k + 1)))%nat by lia.
  cbn [repeat]. rewrite <- !app_assoc. reflexivity.
Qed.

Lemma put_chars_holds bytes : forall buf text, holds buf text -> (List.length text + List.length bytes < SIZE)%nat ->
  exists buf', put_chars buf (Z.of_nat (List.length text)) bytes = Some (buf', Z.of_nat (List.length (text ++ bytes))) /\ holds buf' (text ++ bytes).
Proof.
  induction bytes as [|c r IH]; intros buf text H L; cbn [put_chars].
  - exists buf. rewrite app_nil_r. auto.
  - cbn [List.length] in L. destruct (snprintf_holds buf text [c] H) as (b1 & E & H1); [cbn [List.length]; lia|reflexivity|].
    rewrite E. cbn [fst snd List.length]. destruct (IH b1 (text ++ [c]) H1) as (b2 & E2 & H2); [rewrite app_length; cbn [List.length]; lia|].
    replace (Z.of_nat (List.length text) + Z.of_nat 1) with (Z.of_nat (List.length (text ++ [c]))) by (rewrite app_length; cbn [List.length]; lia).
    rewrite E2. rewrite <- app_assoc in *. exists b2. auto.
Qed.

Lemma gps_text_ok bytes : Z.of_nat (List.length bytes) <= GPS_RECV ->
  exists buf, gps_text bytes = Some (buf, 24 + Z.of_nat (List.length bytes)) /\
    holds buf (str "GPS received sentence: " ++ bytes ++ [10]).
Proof.
  intros L. unfold gps_text. fold SIZE.
  assert (S0 : SIZE = Z.to_nat 4096) by reflexivity. unfold GPS_RECV in L.
  destruct (snprintf_holds (repeat 0 SIZE) [] (str "GPS received sentence: ")) as (b0 & E0 & H0).
  { split; [cbn [List.length]; lia|]. cbn [List.length app]. now rewrite Nat.sub_0_r. }
  { change (List.length (str "GPS received sentence: ")) with 23%nat. cbn [List.length]. lia. }
  { reflexivity. }
  cbn [List.length] in E0. change (Z.of_nat 0) with 0 in E0. rewrite E0. cbn [fst snd app] in *.
  destruct (put_chars_holds bytes b0 _ H0) as (b1 & E1 & H1).
  { change (List.length (str "GPS received sentence: ")) with 23%nat. lia. }
  rewrite E1. cbn [fst snd].
  destruct (snprintf_holds b1 _ [10] H1) as (b2 & E2 & H2).
  { rewrite app_length. change (List.length (str "GPS received sentence: ")) with 23%nat. cbn [List.length]. lia. }
  { reflexivity. }
  rewrite E2. cbn [fst snd]. exists b2. split.
  - f_equal. f_equal. rewrite app_length. change (List.length (str "GPS received sentence: ")) with 23%nat. cbn [List.length]. lia.
  - now rewrite <- app_assoc in H2.
Qed.
