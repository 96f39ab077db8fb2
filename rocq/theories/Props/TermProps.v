(** C38-C40: the debug terminal. *)
From Coq Require Import String.
From Coq Require Import List ZifyBool ZifyNat.
From Verif.Base Require Import Mem Text.
From Verif.Model Require Import DebugTerm.
From Verif.Spec Require Import FrameSpec TermSpec.
From Verif.Proof Require Import MemFacts FrameProof TermProof.
Open Scope Z_scope.

Lemma fresh_ok : forall t, term_fresh t -> term_ok t [].
Proof.
  intros t [L N]. constructor; auto; try constructor. exists (t_buf t). auto.
Qed.

Definition fresh_term : term := mkTerm (repeat 0 64) 0.
Ltac tame_vm := repeat constructor; vm_compute; try lia.

(** ** C38 *)
(** Payloads of any length and number, each with at most one newline and with
    room in the buffer. Every completed line has an effect once, in order, given
    by its own words, whatever the chunking; the rest stays pending. Missing from
    the full claim: payloads with several newlines, and lines with blanks at
    an end (both refuted below). *)
Theorem C38_lines_executed_once_partial :
  forall t ps, term_fresh t ->
    fits [] ps ->
    Forall (fun p => (count_occ Z.eq_dec (text_of p) NL <= 1)%nat) ps ->
    let text := concat (map text_of ps) in
    Forall plain (fst (lines text)) ->
    exists t' o, term_run t ps = Some (t', o) /\
      calls o = concat (map (fun l => line_calls (words l)) (fst (lines text))) /\
      t_next t' = Z.of_nat (length (snd (lines text))) /\
      firstn (length (snd (lines text))) (t_buf t') = snd (lines text).
Proof.
  intros t ps HF FI C text PL.
  destruct (run_lines ps t [] (fresh_ok t HF) FI C PL) as (t' & o & E & [N (post & B & _) _ _] & CO).
  fold text in N, B, CO. fold (lines text) in N, B, CO.
  exists t', o. split; [exact E|]. split; [exact CO|]. split; [exact N|].
  rewrite B. now apply firstn_exact.
Qed.
Print Assumptions C38_lines_executed_once_partial.

(** Two commands in five payloads of eight bytes or less. *)
Definition two_commands : list (list Z) :=
  [str "setpdm 0"; str " 1 0 1 "; str "0 1" ++ [NL] ++ str "set"; str "sdc 1" ++ [NL]; str "hel"].
Lemma plain_two : Forall plain [str "setpdm 0 1 0 1 0 1"; str "setsdc 1"].
Proof.
  assert (P : forall s, s <> [] -> blank (hd 0 s) = false -> blank (last s 0) = false ->
              (length (words s) <= 8)%nat -> known_help (words s) -> plain s).
  { intros s N H1 H2 H3 H4. split; [|split; [|split]]; auto.
    - intros c t ->. exact H1.
    - intros c t ->. rewrite last_last in H2. exact H2. }
  apply Forall_cons; [|apply Forall_cons; [|apply Forall_nil]];
    apply P; try reflexivity; try discriminate; vm_compute; try lia; try discriminate; auto.
Qed.
Example C38_applies :
  term_fresh fresh_term /\ fits [] two_commands /\
  Forall (fun p => (count_occ Z.eq_dec (text_of p) NL <= 1)%nat) two_commands /\
  Forall plain (fst (lines (concat (map text_of two_commands)))) /\
  concat (map (fun l => line_calls (words l)) (fst (lines (concat (map text_of two_commands)))))
  = [SetPowerChannel 0 false; SetPowerChannel 1 true; SetPowerChannel 2 false; SetPowerChannel 3 true;
     SetPowerChannel 4 false; SetPowerChannel 5 true; SetECUError true].
Proof.
  split; [split; reflexivity|]. split; [vm_compute; lia|]. split.
  { repeat constructor; vm_compute; lia. }
  split; [exact plain_two|reflexivity].
Qed.

(** The same text in two chunkings: with two newlines in one payload the second
    line is not recognised (help prints no list, an error is printed instead). *)
Theorem C38_chunking_refuted :
  exists ps qs, concat (map text_of ps) = concat (map text_of qs) /\
    fits [] ps /\ fits [] qs /\ Forall (fun p => (length p <= 8)%nat) (ps ++ qs) /\
    exists t1 o1 t2 o2,
      term_run fresh_term ps = Some (t1, o1) /\ term_run fresh_term qs = Some (t2, o2) /\
      In (line "Available commands:") (prints o1) /\ ~ In (line "Available commands:") (prints o2) /\
      In PARAM_COUNT (prints o2).
Proof.
  exists [str "setsdc 1"; [NL]; str "help" ++ [NL]], [str "setsdc 1"; [NL] ++ str "help" ++ [NL]].
  split; [reflexivity|]. split; [vm_compute; lia|]. split; [vm_compute; lia|].
  split. { repeat constructor; vm_compute; lia. }
  do 4 eexists. split; [vm_compute; reflexivity|]. split; [vm_compute; reflexivity|].
  split; [|split].
  - cbn. auto.
  - cbn. intros H. repeat (destruct H as [H|H]; [discriminate H|]). destruct H.
  - cbn. auto.
Qed.
Print Assumptions C38_chunking_refuted.

(** A blank at either end of the line makes a command fail although its words are right. *)
Theorem C38_outer_blank_refuted :
  exists before after, line_calls (words (str " setsdc 1")) = [SetECUError true] /\
    line_calls (words (str "setsdc 1 ")) = [SetECUError true] /\
    term_run fresh_term [str " setsdc 1" ++ [NL]] = Some before /\ calls (snd before) = [] /\
    term_run fresh_term [str "setsdc 1 " ++ [NL]] = Some after /\ calls (snd after) = [].
Proof.
  do 2 eexists. split; [reflexivity|]. split; [reflexivity|].
  split; [vm_compute; reflexivity|]. split; [reflexivity|].
  split; [vm_compute; reflexivity|reflexivity].
Qed.
Print Assumptions C38_outer_blank_refuted.

(** ** C39 *)
(** Nine words on one line, in eight-byte payloads: the ninth is stored behind
    the argument table. *)
Theorem C39_nine_words_refuted :
  term_run fresh_term [str "1 2 3 4 "; str "5 6 7 8 "; str "9" ++ [NL]] = None.
Proof. vm_compute. reflexivity. Qed.
Print Assumptions C39_nine_words_refuted.

(** help for a word that is no command reads through a null pointer. *)
Theorem C39_unknown_help_refuted :
  term_run fresh_term [str "help"; str " x" ++ [NL]] = None.
Proof. vm_compute. reflexivity. Qed.
Print Assumptions C39_unknown_help_refuted.

(** The strongest form proved: payloads of any content, length and number, as
    long as the buffered text has at most eight separators and no line starts
    with "help": every access stays inside its array, and every text printed fits
    the frame it is sent in. *)
Theorem C39_accesses_safe_partial :
  forall t ps, term_fresh t -> tame [] ps ->
    exists t' o, term_run t ps = Some (t', o) /\ length (t_buf t') = 64%nat /\ 0 <= t_next t' <= 64.
Proof.
  intros t ps HF HT.
  destruct (run_safe ps t [] (fresh_ok t HF) HT) as (t' & o & pend' & E & [N (post & B & L) _ _]).
  exists t', o. split; [exact E|]. rewrite N, B, app_length. lia.
Qed.
Print Assumptions C39_accesses_safe_partial.

(** Lines of at most eight words (help included) are safe too: see
    C38_lines_executed_once_partial, whose conclusion contains the same
    definedness. A tame history with an overflowing payload: *)
Example C39_applies :
  let ps := [str "  setpdm 1 1" ++ [9; NL] ++ str "x" ++ [NL]; repeat 65 40; repeat 66 40; str "setsdc 1" ++ [NL; 0; 5]] in
  tame [] ps /\
  match term_run fresh_term ps with
  | Some (_, o) => calls o = [SetECUError true] /\ In (line "error: buffer full") (prints o)
  | None => False
  end.
Proof.
  split.
  - assert (T : forall s, (separators s <= 8)%nat -> firstn 4 s <> str "help" -> (4 < length s)%nat ->
                (forall a b, s = a ++ NL :: b -> (length a < 4)%nat -> firstn 4 a <> str "help") -> tame_text s).
    { intros s S1 S2 S3 S4. split; [exact S1|]. intros a b E F. destruct (Nat.lt_ge_cases (length a) 4) as [G|G].
      - eapply S4; eauto.
      - apply S2. rewrite E. rewrite firstn_app. replace (4 - length a)%nat with 0%nat by lia.
        cbn [firstn]. now rewrite app_nil_r. }
    assert (SH : forall a, (length a < 4)%nat -> firstn 4 a <> str "help").
    { intros a L. rewrite firstn_all2 by lia. intros E. apply (f_equal (@length Z)) in E. simpl in E. lia. }
    cbv zeta. cbn [tame].
    split; [intros _; apply T; [vm_compute; lia|vm_compute; discriminate|vm_compute; lia|intros; now apply SH]|].
    split; [intros _; apply T; [vm_compute; lia|vm_compute; discriminate|vm_compute; lia|intros; now apply SH]|].
    split; [intros H; exfalso; vm_compute in H; lia|].
    split; [intros _; apply T; [vm_compute; lia|vm_compute; discriminate|vm_compute; lia|intros; now apply SH]|].
    exact I.
  - vm_compute. auto 10.
Qed.

(** Every printed text arrives as one valid frame of its own length, and a text
    that does not fit overruns the frame buffer. *)
Theorem C39_texts_fit_frames :
  forall buffer text, length buffer = 256%nat ->
    ((length text <= 243)%nat ->
      exists buffer' sent, DebugPrint_frame true buffer text = Some (buffer', sent) /\
        length buffer' = 256%nat /\ valid_frame (length sent) sent = true /\
        frame_addr sent = 2 /\ frame_func sent = 9 /\
        frame_payload sent = le16_bytes (Z.of_nat (length text)) ++ text) /\
    ((243 < length text)%nat -> forall lock, DebugPrint_frame lock buffer text = None).
Proof.
  intros buffer text LB. split.
  - intros LT. destruct (print_frame buffer text LB) as (tail & E & L); [lia|].
    eexists _, _. split; [exact E|]. split; [exact L|].
    destruct (encode_fields 2 9 (le16_bytes (Z.of_nat (length text)) ++ text)) as (A & F & P);
      [split; [lia|reflexivity]..|].
    split; [|auto].
    rewrite encode_length. apply encode_valid.
  - intros LT lock. apply print_frame_overrun; [exact LB|lia].
Qed.
Print Assumptions C39_texts_fit_frames.
Example C39_frame_applies : length (repeat 0 256) = 256%nat /\ (length (line "Unexpected number of params") <= 243)%nat.
Proof. split; vm_compute; [reflexivity|lia]. Qed.

(** ** C40 *)
Lemma flags_length : forall ws l, flags ws = Some l -> length l = length ws.
Proof.
  induction ws as [|w ws IH]; intros l; cbn [flags]; [intros [= <-]; reflexivity|].
  destruct (flag w); [|discriminate]. destruct (flags ws) eqn:E; [|discriminate]. intros [= <-].
  simpl. f_equal. now apply IH.
Qed.

(** Every list of words a line can hold, arguments of any content. *)
Theorem C40_setpdm_all_or_nothing :
  forall args, (length args <= 7)%nat ->
    exists o, cmd_setpdm (Z.of_nat (length (str "setpdm" :: args))) (table (str "setpdm" :: args)) = Some o /\
      match args, flags args with
      | [_; _; _; _; _; _], Some l =>
          calls o = [SetPowerChannel 0 (nth 0 l false); SetPowerChannel 1 (nth 1 l false);
                     SetPowerChannel 2 (nth 2 l false); SetPowerChannel 3 (nth 3 l false);
                     SetPowerChannel 4 (nth 4 l false); SetPowerChannel 5 (nth 5 l false)]
      | _, _ => calls o = [] /\ (prints o = [PARAM_COUNT] \/ prints o = [PARAM_VALUE])
      end.
Proof.
  intros args L. destruct (setpdm_outcome (str "setpdm") args L) as (o & E & H).
  exists o. split; [exact E|]. clear E.
  do 6 (destruct args as [|? args];
    [destruct H as [(LL & _)|(_ & H)]; [discriminate LL|exact H]|]).
  destruct args; [|destruct H as [(LL & _)|(_ & H)]; [discriminate LL|exact H]].
  destruct (flags _) as [l'|] eqn:FL.
  - destruct H as [(_ & fl & E2 & H)|(N & _)].
    + injection E2 as <-. rewrite H. apply flags_length in FL.
      do 6 (destruct l' as [|? l']; [discriminate FL|]). destruct l'; [reflexivity|discriminate FL].
    + exfalso. apply N. split; [reflexivity|]. eauto.
  - destruct H as [(_ & fl & E2 & _)|(_ & H)]; [discriminate E2|exact H].
Qed.
Print Assumptions C40_setpdm_all_or_nothing.

Theorem C40_setsdc_all_or_nothing :
  forall args, (length args <= 7)%nat ->
    exists o, cmd_setsdc (Z.of_nat (length (str "setsdc" :: args))) (table (str "setsdc" :: args)) = Some o /\
      match args, flags args with
      | [_], Some [b] => calls o = [SetECUError b]
      | _, _ => calls o = [] /\ (prints o = [PARAM_COUNT] \/ prints o = [PARAM_VALUE])
      end.
Proof.
  intros args L. destruct (setsdc_outcome (str "setsdc") args L) as (o & E & H).
  exists o. split; [exact E|]. clear E.
  destruct args as [|a [|b args]].
  - destruct H as [(? & ? & E & _)|(_ & H)]; [discriminate E|exact H].
  - cbn [flags]. destruct (flag a) as [v|] eqn:FL.
    + destruct H as [(a' & b & [= <-] & FB & H)|(N & _)]; [congruence|]. exfalso. apply N. eauto.
    + destruct H as [(a' & b & [= <-] & FB & _)|(_ & H)]; [congruence|exact H].
  - destruct H as [(? & ? & E & _)|(_ & H)]; [discriminate E|exact H].
Qed.
Print Assumptions C40_setsdc_all_or_nothing.

Example C40_examples :
  flags [str "0"; str "1"; str "1"; str "0"; str "0"; str "1"] = Some [false; true; true; false; false; true] /\
  flags [str "0"; str "1"; str "1"; str "2"; str "0"; str "1"] = None.
Proof. split; reflexivity. Qed.

(** Only the first character of an argument counts: "10" is taken for 1. *)
Theorem C40_first_character_refuted :
  exists t o, term_run fresh_term [str "setsdc 10" ++ [NL]] = Some (t, o) /\ calls o = [SetECUError true].
Proof. do 2 eexists. split; [vm_compute; reflexivity|reflexivity]. Qed.
Print Assumptions C40_first_character_refuted.
