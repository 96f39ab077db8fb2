From Verif.Model Require Import CanFilter.
From Verif.Spec Require Import CanFilterSpec.
From Coq Require Import Lia.

Definition accept_all : bank := mkBank true false false 0 0.

Lemma accept_match w : bank_match accept_all w = true.
Proof. unfold bank_match, accept_all. cbn [bk_active bk_list bk_fr1 bk_fr2 andb]. now rewrite !Z.land_0_r. Qed.

(** The registers after a sequence of calls. *)
Definition last_shared (l : list can_dev) : option can_dev :=
  fold_left (fun o d => match d with DEV3 => o | _ => Some d end) l None.
Definition has (l : list can_dev) (d : can_dev) : bool := existsb (can_dev_beq d) l.

Lemma beq_true a b : can_dev_beq a b = true <-> a = b.
Proof. destruct a, b; cbn; split; congruence. Qed.
Lemma has_in l d : has l d = true <-> In d l.
Proof.
  unfold has. rewrite existsb_exists. split.
  - intros (x & I & E). apply beq_true in E. now subst.
  - intros I. exists d. split; [exact I|]. now apply beq_true.
Qed.

Definition regs (l : list can_dev) (s : cells) : Prop :=
  (forall d, ce_started s d = has l d) /\
  (forall i, fl_banks (ce_shared s) i =
     if ((i =? 0) && has l DEV1) || ((i =? 1) && has l DEV2) then accept_all else bank_reset) /\
  (forall i, fl_banks (ce_own3 s) i = if (i =? 2) && has l DEV3 then accept_all else bank_reset) /\
  fl_sb (ce_shared s) = match last_shared l with Some DEV1 => 0 | Some DEV2 => 1 | _ => 14 end.

Lemma has_snoc l d x : has (l ++ [d]) x = has l x || can_dev_beq x d.
Proof. unfold has. rewrite existsb_app. cbn. now rewrite Bool.orb_false_r. Qed.
Lemma last_snoc l d : last_shared (l ++ [d]) = match d with DEV3 => last_shared l | _ => Some d end.
Proof. unfold last_shared. rewrite fold_left_app. reflexivity. Qed.

Lemma config_regs l : regs l (config_all l).
Proof.
  induction l as [|d l IH] using rev_ind.
  - repeat split; intros; cbn; rewrite ?Bool.andb_false_r; reflexivity.
  - unfold config_all in *. rewrite fold_left_app. cbn [fold_left].
    set (s := fold_left _ l cells_reset) in *. destruct IH as (ST & SH & OW & SB).
    assert (ST' : forall s' x, (forall y, ce_started s' y = ce_started s y) ->
       ce_started (fst (HAL_CAN_Start s' d)) x = has (l ++ [d]) x).
    { intros s' x E. unfold HAL_CAN_Start. rewrite E, has_snoc.
      destruct (ce_started s d) eqn:D; cbn [fst ce_started].
      - rewrite E, ST. destruct (can_dev_beq x d) eqn:B; [|now rewrite Bool.orb_false_r].
        apply beq_true in B. subst x. rewrite <- ST, D. reflexivity.
      - rewrite E, ST. destruct (can_dev_beq x d); [now rewrite Bool.orb_true_r|now rewrite Bool.orb_false_r]. }
    assert (FI : forall s' , ce_shared (fst (HAL_CAN_Start s' d)) = ce_shared s' /\
                             ce_own3 (fst (HAL_CAN_Start s' d)) = ce_own3 s').
    { intros s'. unfold HAL_CAN_Start. destruct (ce_started s' d); split; reflexivity. }
    unfold regs, CAN_Config. set (s' := HAL_CAN_ConfigFilter s d (filter_of d)).
    destruct (FI s') as [F1 F2]. rewrite F1, F2.
    assert (SS : forall y, ce_started s' y = ce_started s y) by (intros y; unfold s'; destruct d; reflexivity).
    split; [intros x; now apply ST'|]. rewrite !has_snoc, last_snoc.
    unfold s'; destruct d; cbn [HAL_CAN_ConfigFilter ce_shared ce_own3 put_bank fl_banks fl_sb filter_of
        fc_bank dev_num fc_slave fc_fifo1 fc_id fc_mask can_dev_beq]; rewrite ?Bool.orb_false_r, ?Bool.orb_true_r;
      (split; [|split]); try (intros i); try exact SB; try (rewrite OW; reflexivity); try (rewrite SH; reflexivity);
      try reflexivity.
    + rewrite SH. destruct (i =? 0); reflexivity.
    + rewrite SH. destruct (i =? 1), (i =? 0), (has l DEV1); reflexivity.
    + rewrite OW. destruct (i =? 2); reflexivity.
Qed.

Lemma find_accept w (l : list bank) :
  (forall b, In b l -> b = accept_all \/ b = bank_reset) ->
  find (fun b => bank_match b w) l = if existsb bk_active l then Some accept_all else None.
Proof.
  induction l as [|b l IH]; intros H; [reflexivity|]. cbn [find existsb].
  destruct (H b (or_introl eq_refl)) as [-> | ->].
  - now rewrite accept_match.
  - cbn. apply IH. intros x X. apply H. now right.
Qed.

Lemma hears l d f :
  to_fifo0 (config_all l) d f =
  match d with
  | DEV1 => has l DEV1 && match last_shared l with Some DEV2 => true | _ => false end
  | DEV2 => has l DEV2
  | DEV3 => has l DEV3
  end.
Proof.
  destruct (config_regs l) as (ST & SH & OW & SB). unfold to_fifo0. rewrite ST.
  assert (LB : last_shared l = None -> has l DEV1 = false /\ has l DEV2 = false).
  { clear. induction l as [|x l IH] using rev_ind; [split; reflexivity|]. rewrite last_snoc, !has_snoc.
    destruct x; try discriminate. intros H. destruct (IH H) as [-> ->]. split; reflexivity. }
  assert (LS : forall x, last_shared l = Some x -> x <> DEV3 /\ has l x = true).
  { clear. induction l as [|y l IH] using rev_ind; [discriminate|]. intros x. rewrite last_snoc, has_snoc.
    destruct y.
    - intros [= <-]. rewrite Bool.orb_true_r. split; [discriminate|reflexivity].
    - intros [= <-]. rewrite Bool.orb_true_r. split; [discriminate|reflexivity].
    - intros H. destruct (IH x H) as [N ->]. split; [exact N|reflexivity]. }
  rewrite find_accept.
  - assert (E : forall g, (existsb bk_active (map (fun i => fl_banks g (Z.of_nat i)) [])) = false) by reflexivity.
    destruct d; cbn [own_banks].
    + rewrite SB. destruct (last_shared l) as [[]|] eqn:L.
      * cbn [Z.to_nat Nat.sub seq map existsb]. destruct (has l DEV1); reflexivity.
      * change (Z.to_nat 1 - 0)%nat with 1%nat. cbn [seq map existsb]. rewrite SH. cbn [Z.of_nat Z.eqb andb orb].
        destruct (has l DEV1); reflexivity.
      * destruct (LS DEV3 eq_refl) as [N _]. now elim N.
      * destruct (LB eq_refl) as [-> _]. reflexivity.
    + rewrite SB. destruct (has l DEV2) eqn:H2; [|reflexivity]. destruct (last_shared l) as [[]|] eqn:L.
      * change (28 - Z.to_nat 0)%nat with 28%nat. change (Z.to_nat 0) with 0%nat.
        change (seq 0 28) with (0%nat :: 1%nat :: seq 2 26). cbn [map existsb]. rewrite !SH. cbn [Z.of_nat Z.eqb andb orb].
        rewrite ?H2. destruct (LS DEV1 eq_refl) as [_ ->]. reflexivity.
      * change (28 - Z.to_nat 1)%nat with 27%nat. change (Z.to_nat 1) with 1%nat.
        change (seq 1 27) with (1%nat :: seq 2 26). cbn [map existsb]. rewrite SH, ?H2. reflexivity.
      * destruct (LS DEV3 eq_refl) as [N _]. now elim N.
      * destruct (LB eq_refl) as [_ X]. congruence.
    + destruct (has l DEV3) eqn:H3; [|reflexivity].
      change (14 - 0)%nat with 14%nat. change (seq 0 14) with (0%nat :: 1%nat :: 2%nat :: seq 3 11).
      cbn [map existsb]. rewrite !OW. rewrite ?H3. reflexivity.
  - intros b I. destruct d; cbn [own_banks] in I; apply in_map_iff in I; destruct I as (i & <- & _);
      rewrite ?SH, ?OW; match goal with |- context[if ?c then _ else _] => destruct c end; auto.
Qed.

Lemma last_can2 l : last_shared l = Some DEV2 <-> can2_last l.
Proof.
  split.
  - induction l as [|x l IH] using rev_ind; [discriminate|]. rewrite last_snoc. destruct x.
    + discriminate.
    + intros _. exists l, []. split; [reflexivity|intros []].
    + intros H. destruct (IH H) as (a & b & -> & N). exists a, (b ++ [DEV3]).
      split; [now rewrite <- app_assoc|]. intros I. apply in_app_or in I. destruct I as [I|[I|[]]]; [auto|discriminate].
  - intros (a & b & -> & N). induction b as [|x b IH] using rev_ind.
    + now rewrite last_snoc.
    + replace (a ++ DEV2 :: b ++ [x]) with ((a ++ DEV2 :: b) ++ [x]) by (now rewrite <- app_assoc).
      rewrite last_snoc. destruct x.
      * elim N. apply in_or_app. right. now left.
      * reflexivity.
      * apply IH. intros I. apply N, in_or_app. now left.
Qed.
