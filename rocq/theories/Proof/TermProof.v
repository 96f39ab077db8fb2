(** Proofs about the debug terminal. *)
From Coq Require Import String.
From Coq Require Import List ZifyBool ZifyNat.
From Verif.Base Require Import Mem Text.
From Verif.Model Require Import DebugTerm.
From Verif.Spec Require Import TermSpec FrameSpec.
From Verif.Proof Require Import MemFacts FrameProof.
Ltac Zify.zify_post_hook ::= Z.div_mod_to_equations.

Lemma bytes_eqb_eq : forall a b, bytes_eqb a b = true <-> a = b.
Proof.
  induction a as [|x a IH]; intros [|y b]; simpl; split; intros H; try discriminate; auto.
  - apply andb_prop in H. destruct H as [H1 H2]. apply Z.eqb_eq in H1. apply IH in H2. congruence.
  - injection H as -> ->. rewrite Z.eqb_refl. simpl. now apply IH.
Qed.

Lemma bytes_eqb_refl : forall a, bytes_eqb a a = true.
Proof. intros a. now apply bytes_eqb_eq. Qed.

Definition no_nul (l : list Z) : Prop := Forall (fun c => c <> 0) l.
Definition no_nl (l : list Z) : Prop := Forall (fun c => c <> NL) l.

Lemma cstr_no_nul : forall l, no_nul (cstr l).
Proof.
  induction l as [|c l IH]; simpl; [constructor|]. destruct (Z.eqb_spec c 0); [constructor|].
  constructor; auto.
Qed.

Lemma cstr_app0 : forall l t, no_nul l -> cstr (l ++ 0 :: t) = l.
Proof.
  induction l as [|c l IH]; intros t H; simpl; [reflexivity|]. inversion H; subst.
  destruct (Z.eqb_spec c 0); [easy|]. now rewrite IH.
Qed.

(** ** The argument table *)

Lemma cstr_pad : forall w, no_nul w -> (length w <= 64)%nat -> cstr (pad w) = w.
Proof.
  intros w H L. unfold pad. replace (65 - length w)%nat with (S (64 - length w)) by lia.
  simpl repeat. now apply cstr_app0.
Qed.

Definition tab (D : list (list Z)) (cur : list Z) : list (list Z) :=
  map pad D ++ pad cur :: repeat (pad []) (7 - length D).

Lemma tab_put : forall D cur c, (length D <= 7)%nat -> (length cur <= 64)%nat ->
  exists row row', rd (tab D cur) (Z.of_nat (length D)) = Some row /\
    wr row (Z.of_nat (length cur)) c = Some row' /\
    wr (tab D cur) (Z.of_nat (length D)) row' = Some (tab D (cur ++ [c])).
Proof.
  intros D cur c LD LC. exists (pad cur), (pad (cur ++ [c])). unfold tab. split; [|split].
  - apply rd_mid. now rewrite map_length.
  - unfold pad. replace (length (cur ++ [c])) with (S (length cur)) by (rewrite app_length; simpl length; lia).
    replace (65 - length cur)%nat with (S (65 - S (length cur))) by lia. cbn [repeat].
    rewrite wr_mid by reflexivity. now rewrite <- app_assoc.
  - apply wr_mid. now rewrite map_length.
Qed.

Lemma tab_next : forall D cur, (length D <= 6)%nat -> tab D cur = tab (D ++ [cur]) [].
Proof.
  intros D cur L. unfold tab. rewrite map_app, app_length, <- app_assoc. cbn [map length app].
  replace (7 - length D)%nat with (S (7 - (length D + 1))) by lia. reflexivity.
Qed.

Lemma words_nonempty : forall s cur, Forall (fun w => w <> []) (words_from cur s).
Proof.
  induction s as [|c s IH]; intros cur; cbn [words_from].
  - destruct cur; constructor; [easy|constructor].
  - destruct (blank c); [|apply IH]. destruct cur; [apply IH|]. constructor; [easy|apply IH].
Qed.

Lemma words_some : forall s cur, (forall c t, s = t ++ [c] -> blank c = false) -> cur <> [] \/ s <> [] ->
  words_from cur s <> [].
Proof.
  induction s as [|c s IH]; intros cur HE HN; cbn [words_from].
  - destruct cur; [destruct HN; congruence|discriminate].
  - assert (HE' : forall c0 t, s = t ++ [c0] -> blank c0 = false).
    { intros c0 t ->. apply (HE c0 (c :: t)). reflexivity. }
    destruct (blank c) eqn:B.
    + destruct cur; [|discriminate]. apply IH; auto. right. intros ->.
      rewrite (HE c []) in B by reflexivity. discriminate.
    + apply IH; auto. left. now destruct cur.
Qed.

Lemma tokenize_words : forall s D cur ws,
  no_nl s ->
  (forall c t, s = t ++ [c] -> blank c = false) ->
  (if ws : bool then cur = [] /\ s <> [] else cur <> [] \/ (exists c t, s = c :: t /\ blank c = false)) ->
  (length cur + length s <= 64)%nat ->
  (length D + length (words_from cur s) <= 8)%nat ->
  let W := D ++ words_from cur s in
  tokenize (s ++ [NL]) (tab D cur) (Z.of_nat (length D)) (Z.of_nat (length cur)) ws
  = Some (map pad (W ++ repeat [] (8 - length W)), Z.of_nat (length W)).
Proof.
  induction s as [|c s IH]; intros D cur ws HN HE HW HL HD W.
  - destruct ws; [now destruct HW|]. destruct HW as [HW|(c & t & ? & _)]; [|discriminate].
    cbn [app tokenize]. change (is_blank NL) with false. change (NL =? NL) with true. cbv iota.
    subst W. cbn [words_from] in *. destruct cur as [|z cur]; [easy|]. cbn [length] in HD.
    rewrite app_length. cbn [length]. unfold u16. rewrite Z.mod_small by lia.
    f_equal. f_equal; [|lia]. unfold tab. rewrite !map_app. rewrite <- app_assoc. cbn [map app].
    do 2 f_equal. replace (8 - (length D + 1))%nat with (7 - length D)%nat by lia.
    clear. induction (7 - length D)%nat; [reflexivity|]. simpl. now rewrite IHn.
  - inversion HN as [|? ? Hc HN']; subst.
    assert (HE' : forall c0 t, s = t ++ [c0] -> blank c0 = false).
    { intros c0 t ->. apply (HE c0 (c :: t)). reflexivity. }
    cbn [app tokenize]. change (is_blank c) with (blank c).
    cbn [words_from] in *. cbn [length] in HL.
    destruct (blank c) eqn:B.
    + assert (SN : s <> []).
      { intros ->. rewrite (HE c []) in B by reflexivity. discriminate. }
      assert (WN : words_from [] s <> []) by (apply words_some; auto).
      assert (WL : (1 <= length (words_from [] s))%nat)
        by (destruct (words_from [] s); [easy|simpl; lia]).
      destruct ws.
      * destruct HW as [-> _]. subst W. apply IH; auto. simpl length in *. lia.
      * destruct HW as [HW|(c0 & t0 & E & Bc)]; [|injection E as <- <-; congruence].
        destruct cur as [|z cur]; [easy|]. set (cu := z :: cur) in *.
        cbn [length] in HD. unfold u16. rewrite Z.mod_small by lia.
        rewrite tab_next by lia. subst W.
        replace (Z.of_nat (length D) + 1) with (Z.of_nat (length (D ++ [cu])))
          by (rewrite app_length; simpl length; lia).
        replace (D ++ cu :: words_from [] s) with ((D ++ [cu]) ++ words_from [] s)
          by now rewrite <- app_assoc.
        apply (IH (D ++ [cu]) [] true); auto; simpl length; [lia|].
        rewrite app_length. simpl length. lia.
    + destruct (Z.eqb_spec c NL); [easy|].
      assert (WN : words_from (cur ++ [c]) s <> [])
        by (apply words_some; auto; left; destruct cur; discriminate).
      assert (WL : (1 <= length (words_from (cur ++ [c]) s))%nat)
        by (destruct (words_from (cur ++ [c]) s); [easy|simpl; lia]).
      destruct (tab_put D cur c) as (row & row' & E1 & E2 & E3); [lia|lia|].
      rewrite E1, E2, E3. unfold u16. rewrite Z.mod_small by lia.
      replace (Z.of_nat (length cur) + 1) with (Z.of_nat (length (cur ++ [c])))
        by (rewrite app_length; simpl length; lia).
      apply IH; auto.
      * left. destruct cur; discriminate.
      * rewrite app_length. simpl length. lia.
Qed.

Lemma empty_args_tab : empty_args = tab [] [].
Proof. reflexivity. Qed.

(** ** Commands *)
Lemma seq_out_app : forall a b oa ob, seq_out a = Some oa -> seq_out b = Some ob ->
  seq_out (a ++ b) = Some (oa ++ ob).
Proof.
  induction a as [|x a IH]; intros b oa ob HA HB; cbn [seq_out app] in *.
  - injection HA as <-. exact HB.
  - destruct x; [|discriminate]. destruct (seq_out a) eqn:E; [|discriminate]. injection HA as <-.
    rewrite (IH b l0 ob eq_refl HB). now rewrite app_assoc.
Qed.

Lemma calls_app : forall a b, calls (a ++ b) = calls a ++ calls b.
Proof. intros. unfold calls. now rewrite flat_map_app. Qed.
Lemma prints_app : forall a b, prints (a ++ b) = prints a ++ prints b.
Proof. intros. unfold prints. now rewrite flat_map_app. Qed.

Lemma pdm_outputs_calls : forall l i, exists o, seq_out (pdm_outputs i l) = Some o /\ calls o = number i l.
Proof.
  induction l as [|b l IH]; intros i; cbn [pdm_outputs seq_out number].
  - exists []. auto.
  - destruct (IH (i + 1)) as (o & -> & E).
    change (say (str "  PDM channel " ++ [48 + i] ++ str ": " ++ [digit b; NL]))
      with (Some [Print (str "  PDM channel " ++ [48 + i] ++ str ": " ++ [digit b; NL])]).
    cbv iota. eexists. split; [reflexivity|]. cbn [app calls flat_map]. fold (calls o). now rewrite E.
Qed.

(** Parameters: what [parse01] reads from the table is [flags] of the words. *)
Lemma rd_map_pad : forall (W : list (list Z)) i, (i < length W)%nat ->
  rd (map pad W) (Z.of_nat i) = Some (pad (nth i W [])).
Proof.
  intros W i H. rewrite (rd_nth _ _ _ (pad [])) by (rewrite map_length; lia).
  rewrite Nat2Z.id. now rewrite map_nth.
Qed.

Lemma parse01_flags : forall n i T, (i + n < length T)%nat ->
  parse01 n (Z.of_nat i) (map pad T) = Some (flags (firstn n (skipn (S i) T))).
Proof.
  induction n as [|n IH]; intros i T H; [reflexivity|]. cbn [parse01].
  replace (Z.of_nat i + 1) with (Z.of_nat (S i)) by lia.
  rewrite rd_map_pad by lia.
  assert (SK : skipn (S i) T = nth (S i) T [] :: skipn (S (S i)) T).
  { assert (H2 : (S i < length T)%nat) by lia. clear -H2. revert T H2. induction (S i) as [|k IHk]; intros T H2.
    - destruct T; [simpl in H2; lia|reflexivity].
    - destruct T; [simpl in H2; lia|]. simpl in *. apply IHk. lia. }
  rewrite SK. cbn [firstn flags].
  destruct (nth (S i) T []) as [|c w].
  - change (rd (pad []) 0) with (Some 0). cbv iota.
    change (0 =? 48) with false. change (0 =? 49) with false. reflexivity.
  - assert (RD : rd (pad (c :: w)) 0 = Some c).
    { unfold pad. rewrite (rd_nth _ _ _ 0). reflexivity. rewrite app_length. simpl length. lia. }
    rewrite RD. rewrite IH by lia. cbn [flag].
    destruct (c =? 48); [destruct (flags _); reflexivity|].
    destruct (c =? 49); [destruct (flags _); reflexivity|reflexivity].
Qed.

Lemma nth_table : forall (W : list (list Z)) i, nth i (W ++ repeat [] (8 - length W)) [] = nth i W [].
Proof.
  intros W i. destruct (Nat.lt_ge_cases i (length W)).
  - now apply app_nth1.
  - rewrite app_nth2, nth_repeat, nth_overflow; auto.
Qed.


Lemma table_length : forall (W : list (list Z)), (length W <= 8)%nat -> length (W ++ repeat [] (8 - length W)) = 8%nat.
Proof. intros W H. rewrite app_length, repeat_length. lia. Qed.

(** setpdm and setsdc on any words: the two possible outcomes. *)

Lemma setpdm_outcome : forall name args, (length args <= 7)%nat ->
  exists o, cmd_setpdm (Z.of_nat (length (name :: args))) (table (name :: args)) = Some o /\
    ((length args = 6%nat /\ exists l, flags args = Some l /\ calls o = number 0 l) \/
     (~ (length args = 6%nat /\ exists l, flags args = Some l) /\ calls o = [] /\
      (prints o = [PARAM_COUNT] \/ prints o = [PARAM_VALUE]))).
Proof.
  intros name args L. unfold cmd_setpdm.
  destruct (Z.eqb_spec (Z.of_nat (length (name :: args))) 7) as [E|E]; cbn [negb].
  - cbn [length] in E. assert (L6 : length args = 6%nat) by lia.
    unfold table. change 0 with (Z.of_nat 0) at 1.
    rewrite parse01_flags by (rewrite table_length; simpl length; lia).
    assert (FA : firstn 6 (skipn 1 ((name :: args) ++ repeat [] (8 - length (name :: args)))) = args).
    { cbn [app skipn]. now apply firstn_exact. }
    rewrite FA. destruct (flags args) as [l|] eqn:FL.
    + destruct (pdm_outputs_calls l 0) as (o & EO & CO). cbn [seq_out].
      change (say (line "Test command executed: set PDM states to"))
        with (Some [Print (line "Test command executed: set PDM states to")]). cbv iota.
      rewrite EO. eexists. split; [reflexivity|]. left. split; [exact L6|].
      exists l. split; [reflexivity|]. exact CO.
    + change (say (line "Param must be 0 or 1")) with (Some [Print PARAM_VALUE]).
      eexists. split; [reflexivity|]. right. split; [intros (_ & l & ?); congruence|].
      split; [reflexivity|]. right. reflexivity.
  - change (say (line "Unexpected number of params")) with (Some [Print PARAM_COUNT]).
    eexists. split; [reflexivity|]. right. split; [intros (H & _); cbn [length] in E; lia|].
    split; [reflexivity|]. left. reflexivity.
Qed.

Lemma setsdc_outcome : forall name args, (length args <= 7)%nat ->
  exists o, cmd_setsdc (Z.of_nat (length (name :: args))) (table (name :: args)) = Some o /\
    ((exists a b, args = [a] /\ flag a = Some b /\ calls o = [SetECUError b]) \/
     (~ (exists a b, args = [a] /\ flag a = Some b) /\ calls o = [] /\
      (prints o = [PARAM_COUNT] \/ prints o = [PARAM_VALUE]))).
Proof.
  intros name args L. unfold cmd_setsdc.
  destruct (Z.eqb_spec (Z.of_nat (length (name :: args))) 2) as [E|E]; cbn [negb].
  - cbn [length] in E. destruct args as [|a [|? ?]]; try (simpl in E; lia).
    unfold table. change 0 with (Z.of_nat 0) at 1.
    rewrite parse01_flags by (rewrite table_length; simpl length; lia).
    cbn [app skipn firstn flags]. destruct (flag a) as [b|] eqn:FL.
    + change (say (str "  SDC output set to: " ++ [digit b; NL]))
        with (Some [Print (str "  SDC output set to: " ++ [digit b; NL])]). cbn [seq_out].
      eexists. split; [reflexivity|]. left. exists a, b. auto.
    + change (say (line "Param must be 0 or 1")) with (Some [Print PARAM_VALUE]).
      eexists. split; [reflexivity|]. right. split; [intros (a' & b & [= <-] & ?); congruence|].
      split; [reflexivity|]. right. reflexivity.
  - change (say (line "Unexpected number of params")) with (Some [Print PARAM_COUNT]).
    eexists. split; [reflexivity|]. right.
    split; [intros (a & b & -> & _); cbn [length] in E; lia|].
    split; [reflexivity|]. left. reflexivity.
Qed.

Lemma help_outcome : forall name args, (length args <= 7)%nat ->
  Forall no_nul args -> Forall (fun w => (length w <= 64)%nat) args ->
  (forall x, args = [x] -> x = str "help" \/ x = str "setpdm" \/ x = str "setsdc") ->
  exists o, cmd_help (Z.of_nat (length (name :: args))) (table (name :: args)) = Some o /\ calls o = [].
Proof.
  intros name args L HN HL HK. unfold cmd_help.
  destruct args as [|a [|b args]].
  - cbn [length]. change (Z.of_nat 1 =? 1) with true. cbv iota. eexists. split; [vm_compute; reflexivity|reflexivity].
  - cbn [length]. change (Z.of_nat 2 =? 1) with false. change (Z.of_nat 2 =? 2) with true. cbv iota.
    unfold table. change 1 with (Z.of_nat 1) at 1.
    rewrite rd_map_pad by (rewrite table_length; simpl length; lia).
    cbn [app nth]. inversion HN; inversion HL; subst. rewrite cstr_pad by assumption.
    destruct (HK a eq_refl) as [-> | [-> | ->]]; eexists; (split; [vm_compute; reflexivity|reflexivity]).
  - destruct (Z.eqb_spec (Z.of_nat (length (name :: a :: b :: args))) 1); [simpl length in *; lia|].
    destruct (Z.eqb_spec (Z.of_nat (length (name :: a :: b :: args))) 2); [simpl length in *; lia|].
    eexists. split; [vm_compute; reflexivity|reflexivity].
Qed.

Lemma command_names : forall name,
  (name = str "help" \/ name = str "setpdm" \/ name = str "setsdc" \/
   forall c, bytes_eqb name (cmd_name c) = false).
Proof.
  intros name.
  destruct (bytes_eqb name (str "help")) eqn:E1; [left; now apply bytes_eqb_eq|].
  destruct (bytes_eqb name (str "setpdm")) eqn:E2; [right; left; now apply bytes_eqb_eq|].
  destruct (bytes_eqb name (str "setsdc")) eqn:E3; [right; right; left; now apply bytes_eqb_eq|].
  right. right. right. intros []; assumption.
Qed.

Lemma process_words : forall W, (1 <= length W <= 8)%nat ->
  Forall no_nul W -> Forall (fun w => (length w <= 64)%nat) W -> known_help W ->
  exists o, processCommand (Z.of_nat (length W)) (table W) = Some o /\ calls o = line_calls W.
Proof.
  intros W LW HN HL HK. destruct W as [|name args]; [simpl in LW; lia|].
  inversion HN; inversion HL; subst. unfold processCommand.
  assert (R0 : rd (table (name :: args)) 0 = Some (pad name)).
  { unfold table. change 0 with (Z.of_nat 0). rewrite rd_map_pad by (rewrite table_length; simpl length in *; lia).
    reflexivity. }
  rewrite R0, cstr_pad by assumption.
  assert (L7 : (length args <= 7)%nat) by (simpl length in LW; lia).
  destruct (command_names name) as [-> | [-> | [-> | NM]]]; cbn [commands map seq_out].
  - change (bytes_eqb (str "help") (cmd_name CmdHelp)) with true.
    change (bytes_eqb (str "help") (cmd_name CmdSetpdm)) with false.
    change (bytes_eqb (str "help") (cmd_name CmdSetsdc)) with false. cbn [exec].
    destruct (help_outcome (str "help") args) as (o & -> & CO); auto.
    { intros x ->. unfold known_help in HK. auto. }
    cbv iota. eexists. split; [reflexivity|]. rewrite app_nil_r. exact CO.
  - change (bytes_eqb (str "setpdm") (cmd_name CmdHelp)) with false.
    change (bytes_eqb (str "setpdm") (cmd_name CmdSetpdm)) with true.
    change (bytes_eqb (str "setpdm") (cmd_name CmdSetsdc)) with false. cbn [exec].
    destruct (setpdm_outcome (str "setpdm") args L7) as (o & -> & CO).
    cbv iota. eexists. split; [reflexivity|]. rewrite app_nil_r. cbn [app].
    unfold line_calls. change (bytes_eqb (str "setpdm") (str "setpdm")) with true. cbv iota.
    destruct CO as [(L6 & l & FL & CO)|(NO & CO & _)].
    + rewrite CO. do 6 (destruct args as [|? args]; [discriminate|]). destruct args; [|discriminate].
      rewrite FL. reflexivity.
    + rewrite CO.
      do 6 (destruct args as [|? args]; [reflexivity|]). destruct args; [|reflexivity].
      destruct (flags _) eqn:FL; [|reflexivity]. exfalso. apply NO. split; [reflexivity|]. eauto.
  - change (bytes_eqb (str "setsdc") (cmd_name CmdHelp)) with false.
    change (bytes_eqb (str "setsdc") (cmd_name CmdSetpdm)) with false.
    change (bytes_eqb (str "setsdc") (cmd_name CmdSetsdc)) with true. cbn [exec].
    destruct (setsdc_outcome (str "setsdc") args L7) as (o & -> & CO).
    cbv iota. eexists. split; [reflexivity|]. rewrite app_nil_r. cbn [app].
    unfold line_calls. change (bytes_eqb (str "setsdc") (str "setpdm")) with false.
    change (bytes_eqb (str "setsdc") (str "setsdc")) with true. cbv iota.
    destruct CO as [(a & b & -> & FL & CO)|(NO & CO & _)].
    + rewrite FL. exact CO.
    + rewrite CO. destruct args as [|a [|? ?]]; try reflexivity.
      destruct (flag a) eqn:FL; [|reflexivity]. exfalso. apply NO. eauto.
  - rewrite (NM CmdHelp), (NM CmdSetpdm), (NM CmdSetsdc). cbv iota. eexists. split; [reflexivity|].
    unfold line_calls. rewrite (NM CmdSetpdm : bytes_eqb name (str "setpdm") = false).
    rewrite (NM CmdSetsdc : bytes_eqb name (str "setsdc") = false). reflexivity.
Qed.

(** Words of a text consist of its characters. *)
Lemma words_forall : forall (P : Z -> Prop) s cur, Forall P cur -> Forall P s ->
  Forall (Forall P) (words_from cur s).
Proof.
  intros P. induction s as [|c s IH]; intros cur HC HS; cbn [words_from].
  - destruct cur; constructor; [assumption|constructor].
  - inversion HS; subst. destruct (blank c).
    + destruct cur; [apply IH; auto|]. constructor; [assumption|]. apply IH; auto.
    + apply IH; auto. apply Forall_app. auto.
Qed.
Lemma words_len : forall s cur, Forall (fun w => (length w <= length cur + length s)%nat) (words_from cur s).
Proof.
  induction s as [|c s IH]; intros cur; cbn [words_from].
  - destruct cur; constructor; [simpl; lia|constructor].
  - assert (M : forall k cu, (k <= length cur + length (c :: s))%nat -> (length cu + length s <= k)%nat ->
              Forall (fun w => (length w <= length cur + length (c :: s))%nat) (words_from cu s)).
    { intros k cu K1 K2. eapply Forall_impl; [|apply IH]. cbv beta. intros; lia. }
    destruct (blank c).
    + destruct cur; [apply (M (length s)); simpl length; lia|].
      constructor; [simpl; lia|]. apply (M (length s)); simpl length; lia.
    + apply (M (length cur + 1 + length s)%nat); [simpl; lia|]. rewrite app_length. simpl length. lia.
Qed.

Lemma plain_line : forall s, plain s -> no_nul s -> no_nl s -> (length s <= 63)%nat ->
  exists o, processCommandStr (s ++ [NL]) = Some o /\ calls o = line_calls (words s).
Proof.
  intros s (P1 & P2 & P3 & P4) HN HL L. destruct s as [|c s].
  - exists []. split; [vm_compute; reflexivity|reflexivity].
  - unfold processCommandStr. rewrite empty_args_tab.
    pose proof (tokenize_words (c :: s) [] [] false) as TK. cbn [length] in TK.
    change (Z.of_nat 0) with 0 in TK. rewrite TK; auto; clear TK.
    + cbn [app]. fold (words (c :: s)). fold (table (words (c :: s))). cbv iota.
      apply process_words; auto.
      * split; [|exact P3]. assert (words (c :: s) <> []) by (apply words_some; auto; right; discriminate).
        destruct (words (c :: s)); [easy|simpl; lia].
      * apply words_forall; [constructor|exact HN].
      * eapply Forall_impl; [|apply words_len]. cbv beta. simpl length in *. intros; lia.
    + right. exists c, s. split; [reflexivity|]. eapply P1. reflexivity.
Qed.

(** ** The line buffer *)
Lemma scan_skip_line : forall x pre post z n full begin,
  no_nl x -> (length z = length x + length (skipn (length x) z))%nat -> (length x <= length z)%nat ->
  scan_lines (length x + n) (Z.of_nat (length pre)) (pre ++ x ++ post) (pre ++ z)
     (Z.of_nat (length pre)) full begin
  = scan_lines n (Z.of_nat (length (pre ++ x))) ((pre ++ x) ++ post) ((pre ++ x) ++ skipn (length x) z)
     (Z.of_nat (length (pre ++ x))) full begin.
Proof.
  induction x as [|c x IH]; intros pre post z n full begin HN _ HL.
  - cbn [length Nat.add app skipn]. now rewrite app_nil_r.
  - inversion HN; subst. destruct z as [|z0 z]; [simpl in HL; lia|].
    cbn [length Nat.add scan_lines app].
    rewrite rd_mid by reflexivity. rewrite wr_mid by reflexivity.
    destruct (Z.eqb_spec c NL); [easy|].
    replace (Z.of_nat (length pre) + 1) with (Z.of_nat (length (pre ++ [c])))
      by (rewrite app_length; simpl length; lia).
    replace (pre ++ c :: x ++ post) with ((pre ++ [c]) ++ x ++ post) by now rewrite <- app_assoc.
    replace (pre ++ c :: z) with ((pre ++ [c]) ++ z) by now rewrite <- app_assoc.
    rewrite IH.
    + cbn [skipn]. now rewrite <- !app_assoc.
    + assumption.
    + rewrite skipn_length. simpl length in HL. lia.
    + simpl length in HL. lia.
Qed.

Lemma scan_no_line : forall x post z full begin, no_nl x -> (length x <= length z)%nat ->
  scan_lines (length x) 0 (x ++ post) z 0 full begin = Some ([], full, begin).
Proof.
  intros x post z full begin HN HL.
  pose proof (scan_skip_line x [] post z 0 full begin HN) as E.
  rewrite Nat.add_0_r in E. cbn [app length] in E.
  change (Z.of_nat 0) with 0 in E. rewrite E; [reflexivity| |exact HL].
  rewrite skipn_length. lia.
Qed.

Lemma shift_buf_down : forall n j begin buf,
  shift_buf n (j + begin) begin buf = shift_down n j begin buf.
Proof.
  induction n as [|n IH]; intros j begin buf; [reflexivity|]. cbn [shift_buf shift_down].
  destruct (rd buf (j + begin)); [|reflexivity].
  replace (j + begin - begin) with j by lia. destruct (wr buf j z); [|reflexivity].
  replace (j + begin + 1) with (j + 1 + begin) by lia. apply IH.
Qed.

Lemma shift_buf_0 : forall n pre post, (n <= length post)%nat ->
  shift_buf n (Z.of_nat (length pre)) 0 (pre ++ post) = Some (pre ++ post).
Proof.
  induction n as [|n IH]; intros pre post H; [reflexivity|].
  destruct post as [|x post]; [simpl in H; lia|]. cbn [shift_buf].
  rewrite rd_mid by reflexivity. rewrite wr_mid by lia.
  replace (Z.of_nat (length pre) + 1) with (Z.of_nat (length (pre ++ [x])))
    by (rewrite app_length; simpl length; lia).
  replace (pre ++ x :: post) with ((pre ++ [x]) ++ post) by now rewrite <- app_assoc.
  apply IH. simpl length in H. lia.
Qed.

Record term_ok (t : term) (pend : list Z) : Prop := {
  ok_next : t_next t = Z.of_nat (length pend);
  ok_buf : exists post, t_buf t = pend ++ post /\ (length pend + length post = 64)%nat;
  ok_nul : no_nul pend;
  ok_nl : no_nl pend }.

Lemma strncpyl_spec : forall p pre post k, (length p <= length post)%nat ->
  exists post', strncpyl p (pre ++ post) (Z.of_nat (length pre)) k
    = Some ((pre ++ cstr p) ++ post', k + Z.of_nat (length (cstr p))) /\
    (length (cstr p) + length post' = length post)%nat.
Proof.
  induction p as [|c p IH]; intros pre post k H; cbn [strncpyl cstr].
  - exists post. rewrite app_nil_r. cbn [length]. rewrite Z.add_0_r. auto.
  - destruct (Z.eqb_spec c 0).
    + exists post. rewrite app_nil_r. cbn [length]. rewrite Z.add_0_r. auto.
    + destruct post as [|x post]; [simpl in H; lia|]. rewrite wr_mid by reflexivity.
      destruct (IH (pre ++ [c]) post (k + 1)) as (post' & E & L); [simpl in H; lia|].
      replace (Z.of_nat (length pre) + 1) with (Z.of_nat (length (pre ++ [c])))
        by (rewrite app_length; simpl length; lia).
      replace (pre ++ c :: post) with ((pre ++ [c]) ++ post) by now rewrite <- app_assoc.
      rewrite E. exists post'. split; [|simpl length; lia]. f_equal.
      rewrite <- !app_assoc. f_equal. simpl length. lia.
Qed.

Lemma split_newline : forall s, no_nl s \/ exists a b, s = a ++ NL :: b /\ no_nl a.
Proof.
  induction s as [|c s IH]; [left; constructor|].
  destruct (Z.eq_dec c NL) as [->|N]; [right; exists [], s; split; [reflexivity|constructor]|].
  destruct IH as [H|(a & b & -> & H)]; [left; now constructor|].
  right. exists (c :: a), b. split; [reflexivity|now constructor].
Qed.

Lemma lines_no_nl : forall a cur, no_nl a -> lines_from cur a = ([], cur ++ a).
Proof.
  induction a as [|c a IH]; intros cur H; cbn [lines_from]; [now rewrite app_nil_r|].
  inversion H; subst. destruct (Z.eqb_spec c NL); [easy|]. rewrite IH by assumption. now rewrite <- app_assoc.
Qed.
Lemma lines_one : forall a b cur, no_nl a ->
  lines_from cur (a ++ NL :: b) = ((cur ++ a) :: fst (lines b), snd (lines b)).
Proof.
  induction a as [|c a IH]; intros b cur H; cbn [lines_from app].
  - change (NL =? NL) with true. cbv iota. fold (lines b). destruct (lines b). now rewrite app_nil_r.
  - inversion H; subst. destruct (Z.eqb_spec c NL); [easy|]. rewrite IH by assumption. now rewrite <- app_assoc.
Qed.
Lemma lines_app : forall x y cur,
  fst (lines_from cur (x ++ y)) = fst (lines_from cur x) ++ fst (lines_from (snd (lines_from cur x)) y) /\
  snd (lines_from cur (x ++ y)) = snd (lines_from (snd (lines_from cur x)) y).
Proof.
  induction x as [|c x IH]; intros y cur; cbn [lines_from app]; [auto|].
  destruct (c =? NL); [|apply IH]. destruct (IH y []) as [E1 E2].
  destruct (lines_from [] (x ++ y)) as [l1 r1]. destruct (lines_from [] x) as [l2 r2].
  cbn [fst snd] in *. now rewrite E1, E2.
Qed.

Definition effect (ls : list (list Z)) : list pc_call := concat (map (fun l => line_calls (words l)) ls).

(** One payload with at most one newline. *)
Lemma recv_chunk : forall t pend p, term_ok t pend ->
  (length pend + length p <= 64)%nat ->
  (count_occ Z.eq_dec (text_of p) NL <= 1)%nat ->
  Forall plain (fst (lines_from pend (text_of p))) ->
  exists t' o, DebugTermRecv t p = Some (t', o) /\ term_ok t' (snd (lines_from pend (text_of p))) /\
    calls o = effect (fst (lines_from pend (text_of p))).
Proof.
  intros t pend p [HN (post & HB & HP) HZ HNL] L C PL. unfold text_of in *.
  unfold DebugTermRecv. rewrite HN, HB. unfold DEBUGTERM_BUFLEN.
  destruct (Z.gtb_spec (Z.of_nat (length pend) + Z.of_nat (length p)) 64); [lia|].
  destruct (strncpyl_spec p pend post 0) as (post' & E & LP); [lia|]. rewrite E. cbn [t_next].
  unfold u16. rewrite Z.mod_small by lia.
  pose proof (cstr_no_nul p) as CN. set (x := cstr p) in *.
  replace (Z.of_nat (length pend) + (0 + Z.of_nat (length x))) with (Z.of_nat (length (pend ++ x)))
    by (rewrite app_length; lia).
  destruct (split_newline x) as [NX|(a & b & EX & NA)].
  - rewrite lines_no_nl in * by exact NX. cbn [fst snd] in *.
    assert (NP : no_nl (pend ++ x)) by (apply Forall_app; auto).
    assert (OK : forall tt, t_next tt = Z.of_nat (length (pend ++ x)) -> t_buf tt = (pend ++ x) ++ post' ->
              term_ok tt (pend ++ x)).
    { intros tt H1 H2. constructor; auto.
      - exists post'. split; [exact H2|]. rewrite app_length. lia.
      - apply Forall_app; auto. }
    destruct (Z.eqb_spec (Z.of_nat (length (pend ++ x))) 0).
    + eexists _, []. split; [reflexivity|]. split; [now apply OK|reflexivity].
    + unfold processBuffer. cbn [t_next t_buf]. rewrite Nat2Z.id. unfold DEBUGTERM_BUFLEN.
      rewrite scan_no_line; [|exact NP|rewrite repeat_length, app_length; lia].
      rewrite Z.sub_0_r, Nat2Z.id.
      pose proof (shift_buf_0 (length (pend ++ x)) [] ((pend ++ x) ++ post')) as SB.
      cbn [app length] in SB. change (Z.of_nat 0) with 0 in SB. rewrite SB by (rewrite !app_length; lia).
      unfold u16. rewrite Z.mod_small by (rewrite app_length; lia).
      eexists _, _. split; [reflexivity|]. split; [now apply OK|reflexivity].
  - assert (NB : no_nl b).
    { rewrite EX in C. rewrite count_occ_app in C. cbn [count_occ] in C.
      destruct (Z.eq_dec NL NL); [|easy]. apply Forall_forall. intros z Hz ->.
      apply (count_occ_In Z.eq_dec) in Hz. lia. }
    rewrite EX, lines_one in * by exact NA. unfold lines in *. rewrite lines_no_nl in * by exact NB.
    cbn [fst snd app] in *. inversion PL as [|? ? PA _]; subst.
    pose proof CN as ZA. apply Forall_app in ZA. destruct ZA as [ZA ZB]. inversion ZB as [|? ? _ ZB']; subst.
    rewrite app_length in LP. cbn [length] in LP.
    destruct (Z.eqb_spec (Z.of_nat (length (pend ++ a ++ NL :: b))) 0) as [Z0|_].
    { rewrite !app_length in Z0. simpl length in Z0. lia. }
    unfold processBuffer. cbn [t_next t_buf]. rewrite Nat2Z.id. unfold DEBUGTERM_BUFLEN.
    set (pa := pend ++ a).
    assert (NPA : no_nl pa) by (apply Forall_app; auto).
    assert (LPA : (length pa + 1 + length b + length post' = 64)%nat) by (unfold pa; rewrite app_length; lia).
    replace (length (pend ++ a ++ NL :: b)) with (length pa + S (length b))%nat
      by (unfold pa; rewrite !app_length; simpl length; lia).
    replace ((pend ++ a ++ NL :: b) ++ post') with (pa ++ (NL :: b ++ post'))
      by (unfold pa; now rewrite <- !app_assoc).
    pose proof (scan_skip_line pa [] (NL :: b ++ post') (repeat 0 (Z.to_nat 64)) (S (length b)) false 0 NPA) as SK.
    cbn [app length] in SK. change (Z.of_nat 0) with 0 in SK.
    rewrite SK by (rewrite ?skipn_length, repeat_length; lia). clear SK.
    assert (ZR : exists z0 zr, skipn (length pa) (repeat 0 (Z.to_nat 64)) = z0 :: zr /\ (length b <= length zr)%nat).
    { destruct (skipn (length pa) (repeat 0 (Z.to_nat 64))) as [|z0 zr] eqn:SE.
      - apply (f_equal (@length Z)) in SE. rewrite skipn_length, repeat_length in SE. simpl length in SE. lia.
      - exists z0, zr. split; [reflexivity|]. apply (f_equal (@length Z)) in SE.
        rewrite skipn_length, repeat_length in SE. simpl length in SE. lia. }
    destruct ZR as (z0 & zr & -> & LZ). cbn [scan_lines].
    rewrite rd_mid by reflexivity. rewrite wr_mid by reflexivity. change (NL =? NL) with true. cbv iota.
    assert (RB : rd_block (pa ++ NL :: zr) 0 (Z.of_nat (length pa) + 1) = Some (pa ++ [NL])).
    { replace (pa ++ NL :: zr) with ([] ++ (pa ++ [NL]) ++ zr) by (now rewrite <- app_assoc).
      apply rd_block_mid; [reflexivity|]. rewrite app_length. simpl length. lia. }
    rewrite RB.
    destruct (plain_line pa) as (o & EO & CO); auto.
    { apply Forall_app; auto. } { lia. }
    rewrite EO.
    replace (Z.of_nat (length pa) + 1) with (Z.of_nat (length (pa ++ [NL])))
      by (rewrite app_length; simpl length; lia).
    replace (pa ++ NL :: b ++ post') with ((pa ++ [NL]) ++ b ++ post') by now rewrite <- app_assoc.
    replace (pa ++ NL :: zr) with ((pa ++ [NL]) ++ zr) by now rewrite <- app_assoc.
    pose proof (scan_skip_line b (pa ++ [NL]) post' zr 0 true (Z.of_nat (length (pa ++ [NL]))) NB) as SK.
    rewrite Nat.add_0_r in SK. rewrite SK by (rewrite ?skipn_length; lia). clear SK. cbn [scan_lines].
    set (h := pa ++ [NL]). assert (LH : length h = S (length pa)) by (unfold h; rewrite app_length; simpl length; lia).
    replace (Z.of_nat (length pa + S (length b)) - Z.of_nat (length h)) with (Z.of_nat (length b)) by lia.
    rewrite Nat2Z.id.
    pose proof (shift_buf_down (length b) 0 (Z.of_nat (length h)) (h ++ b ++ post')) as SD.
    rewrite Z.add_0_l in SD. rewrite SD.
    destruct (shift_down_spec (length b) [] h b post' (Z.of_nat (length h)) eq_refl) as (tail & ES & LT);
      [lia|reflexivity|reflexivity|].
    cbn [app length] in ES. change (Z.of_nat 0) with 0 in ES. rewrite ES.
    change (say (str "> ")) with (Some [Print (str "> ")]). cbv iota.
    unfold u16. rewrite Z.mod_small by lia.
    eexists _, _. split; [reflexivity|]. split.
    + constructor; cbn [t_next t_buf]; auto. exists tail. split; [reflexivity|]. lia.
    + rewrite calls_app, app_nil_r. cbn [calls flat_map]. rewrite app_nil_r.
      unfold effect. cbn [map concat]. rewrite app_nil_r. exact CO.
Qed.

(** Buffer space along a sequence of payloads. *)
Lemma run_lines : forall ps t pend, term_ok t pend ->
  fits pend ps -> Forall (fun p => (count_occ Z.eq_dec (text_of p) NL <= 1)%nat) ps ->
  Forall plain (fst (lines_from pend (concat (map text_of ps)))) ->
  exists t' o, term_run t ps = Some (t', o) /\
    term_ok t' (snd (lines_from pend (concat (map text_of ps)))) /\
    calls o = effect (fst (lines_from pend (concat (map text_of ps)))).
Proof.
  induction ps as [|p ps IH]; intros t pend OK F C PL; cbn [map concat term_run] in *.
  - exists t, []. auto.
  - destruct F as [F1 F2]. inversion C; subst.
    destruct (lines_app (text_of p) (concat (map text_of ps)) pend) as [L1 L2].
    rewrite L1 in *. rewrite L2. apply Forall_app in PL. destruct PL as [PL1 PL2].
    destruct (recv_chunk t pend p OK F1) as (t1 & o1 & E1 & OK1 & C1); auto.
    destruct (IH t1 _ OK1 F2) as (t2 & o2 & E2 & OK2 & C2); auto.
    rewrite E1, E2. exists t2, (o1 ++ o2). split; [reflexivity|]. split; [exact OK2|].
    rewrite calls_app, C1, C2. unfold effect. now rewrite map_app, concat_app.
Qed.

(** ** The frames of printed texts *)
Lemma print_frame : forall buffer text, length buffer = 256%nat -> (length text + 13 <= 256)%nat ->
  exists tail, DebugPrint_frame true buffer text
    = Some (encode 2 9 (le16_bytes (Z.of_nat (length text)) ++ text) ++ tail,
            encode 2 9 (le16_bytes (Z.of_nat (length text)) ++ text)) /\
    length (encode 2 9 (le16_bytes (Z.of_nat (length text)) ++ text) ++ tail) = 256%nat.
Proof.
  intros buffer text LB LT. unfold DebugPrint_frame, DEBUGTERM_MAX_MSG_LEN.
  rewrite Z.min_l by lia. destruct (Z.eqb_spec (Z.of_nat (length text)) 256); [lia|].
  unfold u16. rewrite !Z.mod_small by lia.
  set (e := mkEnc _ _ 2 9). set (pl := le16_bytes (Z.of_nat (length text)) ++ text).
  assert (LP : length pl = (2 + length text)%nat) by reflexivity.
  destruct (encoder_builds_in e buffer pl) as (b1 & b2 & tail & E1 & E2 & E3 & E4);
    [unfold e; cbn [e_msgLen e_dataLen]; lia..|].
  cbv zeta. rewrite E1. change (byte 0 (Z.of_nat (length text)) :: byte 1 (Z.of_nat (length text)) :: text) with pl.
  rewrite E2, E3. unfold e in *. cbn [e_msgLen e_address e_function] in *.
  assert (RB : rd_block (encode 2 9 pl ++ tail) 0 (Z.of_nat (length text) + 2 + 11) = Some (encode 2 9 pl)).
  { apply (rd_block_mid _ [] (encode 2 9 pl) tail); [reflexivity|]. rewrite encode_length. lia. }
  rewrite RB. exists tail. split; [reflexivity|]. lia.
Qed.

Lemma wr_block_too_long : forall (l xs : list Z) i, Z.of_nat (length l) < i + Z.of_nat (length xs) ->
  wr_block l i xs = None.
Proof.
  intros l xs i H. unfold wr_block. destruct (Z.leb_spec (i + Z.of_nat (length xs)) (Z.of_nat (length l))); [lia|].
  now rewrite andb_false_r.
Qed.

(** A longer text overruns the frame buffer; [say] is right to be undefined. *)
Lemma print_frame_overrun : forall lock buffer text, length buffer = 256%nat -> (256 < length text + 13)%nat ->
  DebugPrint_frame lock buffer text = None.
Proof.
  intros lock buffer text LB LT. unfold DebugPrint_frame, DEBUGTERM_MAX_MSG_LEN.
  set (n := Z.min (Z.of_nat (length text)) 256). assert (N : 244 <= n <= 256) by lia.
  unfold u16. rewrite !Z.mod_small by lia.
  unfold MsgFrameEncode_InitFrame. cbn [e_msgLen e_dataLen].
  destruct (_ || _); [reflexivity|].
  destruct (wr buffer 0 58) as [b|] eqn:E0; [|reflexivity]. apply wr_length in E0.
  destruct (wr b (n + 2 + 11 - 2) 13) as [b1|] eqn:E1; [|reflexivity]. apply wr_length in E1.
  assert (E2 : wr b1 (n + 2 + 11 - 1) 10 = None).
  { unfold wr. destruct (Z.ltb_spec (n + 2 + 11 - 1) (Z.of_nat (length b1))); [lia|]. now rewrite andb_false_r. }
  rewrite E2. reflexivity.
Qed.

(** ** Safety of the tokenizer and of the line scan *)
Definition table_ok (T : list (list Z)) : Prop := length T = 8%nat /\ Forall (fun r => length r = 65%nat) T.

Lemma upd_forall : forall A (P : A -> Prop) l i x, Forall P l -> P x -> Forall P (upd l i x).
Proof.
  induction l as [|y l IH]; intros i x H HX; [destruct i; constructor|]. inversion H; subst.
  destruct i; simpl; constructor; auto.
Qed.

Lemma table_put : forall T n i c, table_ok T -> 0 <= n <= 7 -> 0 <= i <= 64 ->
  exists row row' T', rd T n = Some row /\ wr row i c = Some row' /\ wr T n row' = Some T' /\ table_ok T'.
Proof.
  intros T n i c [L F] N I. destruct (rd_some _ T n) as (row & E); [lia|].
  assert (LR : length row = 65%nat).
  { rewrite (rd_nth _ _ _ []) in E by lia. injection E as <-.
    apply (proj1 (Forall_forall _ _) F). apply nth_In. lia. }
  exists row, (upd row (Z.to_nat i) c), (upd T (Z.to_nat n) (upd row (Z.to_nat i) c)).
  split; [exact E|]. unfold wr. rewrite LR, L.
  destruct (Z.leb_spec 0 i); [|lia]. destruct (Z.ltb_spec i (Z.of_nat 65)); [|lia].
  destruct (Z.leb_spec 0 n); [|lia]. destruct (Z.ltb_spec n (Z.of_nat 8)); [|lia].
  split; [reflexivity|]. split; [reflexivity|]. split; [now rewrite upd_length|].
  apply upd_forall; [exact F|]. now rewrite upd_length.
Qed.

Lemma tokenize_safe : forall s T n i ws, table_ok T -> 0 <= n -> 0 <= i ->
  n + Z.of_nat (separators s) <= 7 -> i + Z.of_nat (length s) <= 64 ->
  exists T' n', tokenize (s ++ [NL]) T n i ws = Some (T', n') /\ table_ok T' /\
    (1 <= n -> rd T' 0 = rd T 0).
Proof.
  induction s as [|c s IH]; intros T n i ws OK N I NS LS.
  - cbn [app tokenize]. change (is_blank NL) with false. change (NL =? NL) with true. cbv iota. eauto.
  - cbn [app tokenize]. cbn [separators length] in *. change (is_blank c) with (blank c).
    destruct (blank c) eqn:B; cbn [orb] in NS.
    + destruct ws.
      * apply IH; auto; lia.
      * unfold u16. rewrite Z.mod_small by lia.
        destruct (IH T (n + 1) 0 true) as (T' & n' & E & OK' & R); auto; try lia.
        exists T', n'. split; [exact E|]. split; [exact OK'|]. intros. apply R. lia.
    + destruct (Z.eqb_spec c NL) as [EC|EC].
      * unfold u16. rewrite Z.mod_small by lia.
        destruct (IH T (n + 1) 0 ws) as (T' & n' & E & OK' & R); auto; try lia.
        exists T', n'. split; [exact E|]. split; [exact OK'|]. intros. apply R. lia.
      * destruct (table_put T n i c) as (row & row' & T1 & E1 & E2 & E3 & OK1); auto; try lia.
        rewrite E1, E2, E3. unfold u16. rewrite Z.mod_small by lia.
        destruct (IH T1 n (i + 1) false) as (T' & n' & E & OK' & R); auto; try lia.
        exists T', n'. split; [exact E|]. split; [exact OK'|]. intros HN. rewrite R by exact HN.
        clear -E3 HN OK OK1. destruct OK as [L _]. unfold wr in E3. rewrite L in E3.
        destruct (Z.leb_spec 0 n); [|lia]. destruct (Z.ltb_spec n (Z.of_nat 8)); [|discriminate].
        cbn [andb] in E3. injection E3 as <-.
        destruct T as [|r T]; [discriminate|]. destruct (Z.to_nat n) eqn:EN; [lia|]. reflexivity.
Qed.

(** The first argument is what precedes the first separator. *)
Fixpoint first_run (s : list Z) : list Z :=
  match s with
  | [] => []
  | c :: t => if blank c || (c =? NL) then [] else c :: first_run t
  end.

Lemma tokenize_first : forall s cur rest ws, table_ok (pad cur :: rest) ->
  Z.of_nat (separators s) <= 7 -> Z.of_nat (length cur + length s) <= 64 ->
  ws = false ->
  exists T' n', tokenize (s ++ [NL]) (pad cur :: rest) 0 (Z.of_nat (length cur)) ws = Some (T', n') /\
    table_ok T' /\ rd T' 0 = Some (pad (cur ++ first_run s)).
Proof.
  induction s as [|c s IH]; intros cur rest ws OK NS LS ->.
  - cbn [app tokenize first_run]. change (is_blank NL) with false. change (NL =? NL) with true. cbv iota.
    eexists _, _. split; [reflexivity|]. split; [exact OK|]. rewrite app_nil_r.
    apply (rd_mid _ [] (pad cur) rest). reflexivity.
  - cbn [app tokenize first_run]. cbn [separators length] in *. change (is_blank c) with (blank c).
    destruct (blank c) eqn:B; cbn [orb] in *.
    + change (u16 (0 + 1)) with 1.
      destruct (tokenize_safe s (pad cur :: rest) 1 0 true) as (T' & n' & E & OK' & R); auto; try lia.
      rewrite E. exists T', n'. split; [reflexivity|]. split; [exact OK'|]. rewrite R by lia.
      rewrite app_nil_r. apply (rd_mid _ [] (pad cur) rest). reflexivity.
    + destruct (Z.eqb_spec c NL) as [EC|EC].
      * change (u16 (0 + 1)) with 1.
        destruct (tokenize_safe s (pad cur :: rest) 1 0 false) as (T' & n' & E & OK' & R); auto; try lia.
        rewrite E. exists T', n'. split; [reflexivity|]. split; [exact OK'|]. rewrite R by lia.
        rewrite app_nil_r. apply (rd_mid _ [] (pad cur) rest). reflexivity.
      * pose proof (rd_mid _ [] (pad cur) rest 0 eq_refl) as E1. cbn [app] in E1. rewrite E1.
        assert (PC : pad cur = cur ++ 0 :: repeat 0 (65 - S (length cur))).
        { unfold pad. replace (65 - length cur)%nat with (S (65 - S (length cur))) by lia. reflexivity. }
        assert (E2 : wr (pad cur) (Z.of_nat (length cur)) c = Some (cur ++ c :: repeat 0 (65 - S (length cur))))
          by (rewrite PC; now apply wr_mid).
        rewrite E2.
        pose proof (wr_mid _ [] (pad cur) (cur ++ c :: repeat 0 (65 - S (length cur))) rest 0 eq_refl) as E3.
        cbn [app] in E3. rewrite E3.
        assert (PC' : cur ++ c :: repeat 0 (65 - S (length cur)) = pad (cur ++ [c])).
        { unfold pad. rewrite app_length. cbn [length].
          replace (65 - (length cur + 1))%nat with (65 - S (length cur))%nat by lia. now rewrite <- app_assoc. }
        rewrite PC'. unfold u16. rewrite Z.mod_small by lia.
        replace (Z.of_nat (length cur) + 1) with (Z.of_nat (length (cur ++ [c])))
          by (rewrite app_length; simpl length; lia).
        destruct (IH (cur ++ [c]) rest false) as (T' & n' & E & OK' & R); auto.
        { destruct OK as [L F]. split; [exact L|]. inversion F; subst. constructor; auto.
          unfold pad. rewrite app_length, repeat_length, app_length. simpl length. lia. }
        { rewrite app_length. simpl length. lia. }
        exists T', n'. split; [exact E|]. split; [exact OK'|]. rewrite R.
        rewrite <- app_assoc. reflexivity.
Qed.

Lemma parse01_total : forall n i T, table_ok T -> 0 <= i -> i + Z.of_nat n <= 7 ->
  exists r, parse01 n i T = Some r.
Proof.
  induction n as [|n IH]; intros i T OK I H; [eexists; reflexivity|]. cbn [parse01].
  destruct OK as [L F]. rewrite (rd_nth _ _ _ []) by lia.
  assert (LR : length (nth (Z.to_nat (i + 1)) T []) = 65%nat).
  { apply (proj1 (Forall_forall _ _) F). apply nth_In. lia. }
  destruct (rd_some _ (nth (Z.to_nat (i + 1)) T []) 0) as (c & ->); [lia|].
  destruct (IH (i + 1) T) as (r & ->); [split; auto|lia|lia|].
  destruct (c =? 48); [eauto|]. destruct (c =? 49); eauto.
Qed.

Lemma parse01_length : forall n i T l, parse01 n i T = Some (Some l) -> length l = n.
Proof.
  induction n as [|n IH]; intros i T l; cbn [parse01]; [intros [= <-]; reflexivity|].
  destruct (rd T (i + 1)); [|discriminate]. destruct (rd l0 0); [|discriminate].
  destruct (z =? 48), (z =? 49); try discriminate;
  (destruct (parse01 n (i + 1) T) as [[x|]|] eqn:E; try discriminate; intros [= <-];
   simpl; f_equal; eapply IH; eassumption).
Qed.

Lemma exec_safe : forall argc T, table_ok T ->
  (exists o, cmd_setpdm argc T = Some o) /\ (exists o, cmd_setsdc argc T = Some o).
Proof.
  intros argc T OK. unfold cmd_setpdm, cmd_setsdc.
  change (say (line "Unexpected number of params")) with (Some [Print PARAM_COUNT]).
  change (say (line "Param must be 0 or 1")) with (Some [Print PARAM_VALUE]).
  split.
  - destruct (negb _); [eauto|].
    destruct (parse01_total 6 0 T OK) as (r & ->); [lia|lia|]. destruct r as [l|]; [|eauto].
    destruct (pdm_outputs_calls l 0) as (o & EO & _). cbn [seq_out].
    change (say (line "Test command executed: set PDM states to"))
        with (Some [Print (line "Test command executed: set PDM states to")]). cbv iota.
    rewrite EO. eauto.
  - destruct (negb _); [eauto|].
    destruct (parse01_total 1 0 T OK) as (r & ->); [lia|lia|]. destruct r as [l|]; [|eauto].
    destruct l as [|b [|? ?]]; eauto. cbn [seq_out].
    change (say (str "  SDC output set to: " ++ [digit b; NL]))
        with (Some [Print (str "  SDC output set to: " ++ [digit b; NL])]). eauto.
Qed.

Lemma first_run_prefix : forall s, exists t, s = first_run s ++ t.
Proof.
  induction s as [|c s IH]; [exists []; reflexivity|]. cbn [first_run].
  destruct (blank c || (c =? NL)); [exists (c :: s); reflexivity|].
  destruct IH as (t & E). exists t. simpl. now rewrite <- E.
Qed.

Lemma first_run_forall : forall (P : Z -> Prop) s, Forall P s -> Forall P (first_run s).
Proof.
  induction s as [|c s IH]; intros H; [constructor|]. cbn [first_run]. inversion H; subst.
  destruct (blank c || (c =? NL)); [constructor|]. constructor; auto.
Qed.
Lemma first_run_len : forall s, (length (first_run s) <= length s)%nat.
Proof.
  induction s as [|c s IH]; [simpl; lia|]. cbn [first_run].
  destruct (blank c || (c =? NL)); simpl; lia.
Qed.

Lemma command_safe : forall s, no_nul s -> (length s <= 63)%nat -> (separators s <= 7)%nat ->
  firstn 4 s <> str "help" -> exists o, processCommandStr (s ++ [NL]) = Some o.
Proof.
  intros s HN L NS NH. unfold processCommandStr.
  destruct (tokenize_first s [] (repeat (pad []) 7) false) as (T & n & E & OK & R0); auto.
  { split; [reflexivity|]. repeat constructor. }
  { lia. } { simpl length. lia. }
  change (pad [] :: repeat (pad []) 7) with empty_args in E. change (Z.of_nat (length (@nil Z))) with 0 in E.
  rewrite E. cbv iota. unfold processCommand. rewrite R0. cbn [app].
  pose proof (first_run_len s) as FL.
  rewrite cstr_pad; [|now apply first_run_forall|lia].
  destruct (exec_safe n T OK) as [(o1 & E1) (o2 & E2)].
  cbn [commands map seq_out exec].
  destruct (bytes_eqb (first_run s) (cmd_name CmdHelp)) eqn:H.
  { apply bytes_eqb_eq in H. destruct (first_run_prefix s) as (t & ES). rewrite H in ES.
    exfalso. apply NH. rewrite ES. reflexivity. }
  rewrite E1, E2. destruct (bytes_eqb _ (cmd_name CmdSetpdm)), (bytes_eqb _ (cmd_name CmdSetsdc)); eauto.
Qed.

Lemma separators_app : forall a b, separators (a ++ b) = (separators a + separators b)%nat.
Proof. induction a as [|c a IH]; intros b; [reflexivity|]. simpl. rewrite IH. destruct (blank c || (c =? NL)); lia. Qed.

(** Scanning any text. *)
Lemma scan_safe : forall y x post z full begin,
  no_nul x -> no_nul y -> (length y <= length z)%nat -> (length x + length y <= 64)%nat ->
  (separators (x ++ y) <= 8)%nat ->
  (forall a b, x ++ y = a ++ NL :: b -> firstn 4 a <> str "help") ->
  begin = Z.of_nat (length x - length (snd (lines x))) ->
  exists o full', scan_lines (length y) (Z.of_nat (length x)) (x ++ y ++ post) (x ++ z)
     (Z.of_nat (length x)) full begin
     = Some (o, full', Z.of_nat (length (x ++ y) - length (snd (lines (x ++ y))))).
Proof.
  induction y as [|c y IH]; intros x post z full begin NX NY LZ L NS NH ->.
  - cbn [length scan_lines]. rewrite app_nil_r. eauto.
  - destruct z as [|z0 z]; [simpl in LZ; lia|]. inversion NY as [|? ? Nc NY']; subst.
    cbn [length scan_lines app]. rewrite rd_mid by reflexivity. rewrite wr_mid by reflexivity.
    replace (Z.of_nat (length x) + 1) with (Z.of_nat (length (x ++ [c])))
      by (rewrite app_length; simpl length; lia).
    replace (x ++ c :: y ++ post) with ((x ++ [c]) ++ y ++ post) by now rewrite <- app_assoc.
    replace (x ++ c :: z) with ((x ++ [c]) ++ z) by now rewrite <- app_assoc.
    assert (EX : x ++ c :: y = (x ++ [c]) ++ y) by now rewrite <- app_assoc.
    rewrite EX. rewrite EX in NS, NH. simpl length in *.
    assert (NXc : no_nul (x ++ [c])) by (apply Forall_app; split; auto).
    destruct (lines_app x [c] []) as [_ LA]. change (lines_from [] (x ++ [c])) with (lines (x ++ [c])) in LA.
    change (lines_from [] x) with (lines x) in LA. cbn [lines_from] in LA.
    destruct (Z.eqb_spec c NL) as [EC|EC].
    + assert (RB : rd_block ((x ++ [c]) ++ z) 0 (Z.of_nat (length (x ++ [c]))) = Some (x ++ [c]))
        by (apply (rd_block_mid _ [] (x ++ [c]) z); reflexivity).
      rewrite RB. rewrite EC.
      destruct (command_safe x) as (o & ->); auto; try lia.
      { rewrite <- app_assoc, separators_app in NS. cbn [app separators] in NS.
        rewrite EC in NS. change (blank NL || (NL =? NL)) with true in NS. cbv iota in NS. lia. }
      { apply (NH x y). rewrite <- app_assoc. now rewrite EC. }
      rewrite <- EC.
      destruct (IH (x ++ [c]) post z true (Z.of_nat (length (x ++ [c])))) as (o2 & f2 & ->); auto.
      * lia.
      * rewrite app_length. simpl length. lia.
      * rewrite LA. simpl length. f_equal. lia.
      * eauto.
    + apply IH; auto.
      * lia.
      * rewrite app_length. simpl length. lia.
      * rewrite LA. cbn [snd]. rewrite !app_length. simpl length. f_equal. lia.
Qed.

Lemma lines_rest : forall s cur, no_nl cur -> no_nl (snd (lines_from cur s)) /\
  exists a, cur ++ s = a ++ snd (lines_from cur s).
Proof.
  induction s as [|c s IH]; intros cur H; cbn [lines_from].
  - rewrite app_nil_r. split; [exact H|]. exists []. reflexivity.
  - destruct (Z.eqb_spec c NL).
    + destruct (IH []) as [H1 (a & E)]; [constructor|]. destruct (lines_from [] s). cbn [snd app] in *.
      split; [exact H1|]. exists (cur ++ c :: a). rewrite E. now rewrite <- app_assoc.
    + destruct (IH (cur ++ [c])) as [H1 (a & E)].
      { apply Forall_app. split; [exact H|]. constructor; auto. }
      split; [exact H1|]. exists a. rewrite <- app_assoc in E. exact E.
Qed.

Lemma no_nl_lines : forall p, no_nl p -> forall s, lines_from p s = lines (p ++ s).
Proof.
  intros p H s. unfold lines. destruct (lines_app p s []) as [E1 E2].
  rewrite (lines_no_nl p [] H) in E1, E2. cbn [fst snd app] in *.
  destruct (lines_from p s), (lines_from [] (p ++ s)). cbn [fst snd] in *. congruence.
Qed.

(** One payload, arbitrary content: the terminal survives it. *)
Lemma recv_safe : forall t pend p, term_ok t pend ->
  (Z.of_nat (length pend + length p) <= 64 -> tame_text (pend ++ text_of p)) ->
  exists t' o, DebugTermRecv t p = Some (t', o) /\ term_ok t' (pending_after pend p).
Proof.
  intros t pend p OK HT. destruct OK as [HN (post & HB & HP) HZ HNL].
  unfold DebugTermRecv. rewrite HN, HB. unfold DEBUGTERM_BUFLEN, pending_after.
  destruct (Z.gtb_spec (Z.of_nat (length pend) + Z.of_nat (length p)) 64) as [G|G].
  - change (say (line "error: buffer full")) with (Some [Print (line "error: buffer full")]). cbv iota.
    destruct (Nat.leb_spec (length pend + length p) 64); [lia|].
    eexists _, _. split; [reflexivity|].
    constructor; cbn [t_next t_buf]; try constructor. exists (pend ++ post). split; [reflexivity|].
    rewrite app_length. simpl length. lia.
  - destruct (Nat.leb_spec (length pend + length p) 64); [|lia].
    destruct HT as [NS NH]; [lia|]. unfold text_of in *.
    destruct (strncpyl_spec p pend post 0) as (post' & E & LP); [lia|]. rewrite E. cbn [t_next].
    unfold u16. rewrite Z.mod_small by lia.
    pose proof (cstr_no_nul p) as CN. set (x := cstr p) in *.
    replace (Z.of_nat (length pend) + (0 + Z.of_nat (length x))) with (Z.of_nat (length (pend ++ x)))
      by (rewrite app_length; lia).
    rewrite no_nl_lines by exact HNL.
    assert (NT : no_nul (pend ++ x)) by (apply Forall_app; auto).
    set (y := pend ++ x) in *. assert (LY : (length y + length post' = 64)%nat) by (unfold y; rewrite app_length; lia).
    destruct (lines_rest y []) as [NR (done & ER)]; [constructor|]. cbn [app] in ER. fold (lines y) in NR, ER.
    destruct (Z.eqb_spec (Z.of_nat (length y)) 0) as [Y0|Y0].
    { assert (EY : y = []) by (destruct y; [reflexivity|simpl length in Y0; lia]).
      clearbody y. subst y. eexists _, _. split; [reflexivity|].
      constructor; cbn [t_next t_buf]; try constructor. exists post'. split; [reflexivity|exact LY]. }
    unfold processBuffer. cbn [t_next t_buf]. rewrite Nat2Z.id.
    destruct (scan_safe y [] post' (repeat 0 (Z.to_nat DEBUGTERM_BUFLEN)) false 0)
      as (o & full' & ES); try assumption; [constructor|rewrite repeat_length; unfold DEBUGTERM_BUFLEN; lia|
        simpl length; lia|reflexivity|].
    cbn [app length] in ES. change (Z.of_nat 0) with 0 in ES. rewrite ES.
    set (r := snd (lines y)) in *.
    assert (LD : (length y = length done + length r)%nat) by (rewrite ER, app_length; reflexivity).
    replace (Z.of_nat (length y - length r)) with (Z.of_nat (length done)) by lia.
    replace (Z.of_nat (length y) - Z.of_nat (length done)) with (Z.of_nat (length r)) by lia.
    rewrite Nat2Z.id.
    assert (SH : exists tail, shift_buf (length r) (Z.of_nat (length done)) (Z.of_nat (length done)) (y ++ post')
                 = Some (r ++ tail) /\ (length r + length tail = 64)%nat).
    { rewrite ER, <- app_assoc. destruct done as [|d done].
      - cbn [app length]. change (Z.of_nat 0) with 0. exists post'. split.
        + apply (shift_buf_0 (length r) [] (r ++ post')). rewrite app_length. lia.
        + simpl length in LD. lia.
      - pose proof (shift_buf_down (length r) 0 (Z.of_nat (length (d :: done))) ((d :: done) ++ r ++ post')) as SD.
        rewrite Z.add_0_l in SD. rewrite SD.
        destruct (shift_down_spec (length r) [] (d :: done) r post' _ eq_refl) as (tail & EE & LT);
          [simpl length; lia|reflexivity|reflexivity|].
        cbn [app length] in EE. change (Z.of_nat 0) with 0 in EE. exists tail. split; [exact EE|].
        simpl length in *. lia. }
    destruct SH as (tail & -> & LT).
    assert (SP : exists p0, (if full' then say (str "> ") else Some []) = Some p0) by (destruct full'; eexists; reflexivity).
    destruct SP as (p0 & ->). unfold u16. rewrite Z.mod_small by lia.
    eexists _, _. split; [reflexivity|]. constructor; cbn [t_next t_buf].
    + reflexivity.
    + exists tail. auto.
    + unfold no_nul in NT. rewrite ER in NT. apply Forall_app in NT. apply NT.
    + exact NR.
Qed.

Lemma run_safe : forall ps t pend, term_ok t pend -> tame pend ps ->
  exists t' o pend', term_run t ps = Some (t', o) /\ term_ok t' pend'.
Proof.
  induction ps as [|p ps IH]; intros t pend OK HT; cbn [term_run]; [eauto|].
  destruct HT as [H1 H2]. destruct (recv_safe t pend p OK) as (t1 & o1 & E1 & OK1).
  { intros L. apply H1. lia. }
  destruct (IH t1 _ OK1 H2) as (t2 & o2 & pend' & E2 & OK2). rewrite E1, E2. eauto.
Qed.
