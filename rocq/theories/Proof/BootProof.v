(** Boot sequence proofs. *)
From Coq Require Import ZifyBool ZifyNat.
From Verif.Spec Require Import BootSpec.
From Verif.Proof Require Import MemFacts TimerProof.

Lemma mod_eqb_eq a b : mod_eqb a b = true <-> a = b.
Proof. destruct a, b; cbn; split; congruence. Qed.
Lemma mod_eqb_refl a : mod_eqb a a = true.
Proof. now apply mod_eqb_eq. Qed.

(** *** Runs with and without failing checks *)
Lemma exec_mono ok b i b' : exec ok b i = Go b' -> exec true b i = Go b'.
Proof. destruct i; cbn [exec]; auto. destruct ok; [auto|discriminate]. Qed.

Lemma exec_true_crash ok b i : exec ok b i = Crash -> exec true b i = Crash.
Proof. destruct i; cbn [exec]; auto. destruct ok; discriminate. Qed.

Lemma exec_prog_go : forall p b oracle b' os, exec_prog b oracle p = (Go b', os) ->
  exec_prog b [] p = (Go b', []).
Proof.
  induction p as [|i p IH]; intros b oracle b' os H; cbn [exec_prog] in *; [now injection H as <- <-|].
  assert (E : exists ok rest, match exec ok b i with Go b' => exec_prog b' rest p | r => (r, rest) end = (Go b', os)).
  { destruct i, oracle; try (now exists true, []); try (now exists true, (b0 :: oracle)). now exists b0, oracle. }
  destruct E as (ok & rest & E). destruct (exec ok b i) as [b1|b1|] eqn:X; try discriminate E.
  apply exec_mono in X. destruct i; cbn beta iota; rewrite X; now apply (IH _ _ _ _ E).
Qed.

Lemma exec_prog_cons_nil i p b : exec_prog b [] (i :: p) =
  match exec true b i with Go b' => exec_prog b' [] p | r => (r, []) end.
Proof. now destruct i. Qed.

Lemma exec_prog_cons i p b oracle : exists ok rest,
  exec_prog b oracle (i :: p) = match exec ok b i with Go b' => exec_prog b' rest p | r => (r, rest) end.
Proof.
  destruct i, oracle; try (now exists true, []); try (now exists true, (b0 :: oracle)). now exists b0, oracle.
Qed.

Lemma exec_prog_nil_os : forall p b r os, exec_prog b [] p = (r, os) -> os = [].
Proof.
  induction p as [|i p IH]; intros b r os H; [cbn in H; congruence|]. rewrite exec_prog_cons_nil in H.
  destruct (exec true b i); [eapply IH; exact H|congruence|congruence].
Qed.

(** With failing checks the run is cut short at some action. *)
Lemma exec_prog_any : forall p b bf, exec_prog b [] p = (Go bf, []) -> forall oracle,
  (exists os, exec_prog b oracle p = (Go bf, os)) \/
  (exists k b' os, exec_prog b oracle p = (Refuse b', os) /\ exec_prog b [] (firstn k p) = (Go b', [])).
Proof.
  induction p as [|i p IH]; intros b bf H oracle.
  - left. exists oracle. cbn in *. now injection H as <-.
  - rewrite exec_prog_cons_nil in H. destruct (exec true b i) as [b1|b1|] eqn:X; try discriminate H.
    destruct (exec_prog_cons i p b oracle) as (ok & rest & ->).
    destruct (exec ok b i) as [b2|b2|] eqn:Y.
    + apply exec_mono in Y. rewrite Y in X. injection X as ->.
      destruct (IH b1 bf H rest) as [(os & E)|(k & b' & os & E & F)]; [left; eauto|right].
      exists (S k), b', os. split; [exact E|]. cbn [firstn]. rewrite exec_prog_cons_nil, Y. exact F.
    + right. exists 0%nat, b, rest. split; [|reflexivity].
      assert (b2 = b) by (destruct i; cbn [exec] in X, Y; try congruence; destruct ok; congruence). now subst.
    + apply exec_true_crash in Y. congruence.
Qed.

(** *** Registration invariant over calls *)
(** [cs]: the calls made so far, all successful. *)
Record boot_inv (cs : list call) (b : boot) : Prop := {
  bi_n : 1 <= bt_n b <= 1 + Z.of_nat (length cs);
  bi_reg : forall m, In (CInit m) cs <-> bt_ids b m <> 0;
  bi_range : forall m, bt_ids b m <> 0 -> 0 < bt_ids b m < bt_n b;
  bi_uniq : forall m m', bt_ids b m = bt_ids b m' -> bt_ids b m <> 0 -> m = m';
  bi_log : bt_log b = true <-> In (CInit MLog) cs;
  bi_fd : bt_fault_data b = None;
  bi_err : bt_ecu_error b = false }.

Lemma boot_inv_reset : boot_inv [] boot_reset.
Proof. split; cbn; try easy; lia. Qed.

Definition same_reg (b b' : boot) : Prop :=
  bt_n b' = bt_n b /\ (forall m, bt_ids b' m = bt_ids b m) /\ bt_fault_data b' = bt_fault_data b /\
  bt_ecu_error b' = bt_ecu_error b.

Lemma exec_reg ok b i b' : exec ok b i = Go b' \/ exec ok b i = Refuse b' ->
  match i with
  | IRegister m => b' = RegisterModule b m
  | ILogMutex => same_reg b b' /\ bt_log b' = true
  | _ => same_reg b b' /\ bt_log b' = bt_log b
  end.
Proof.
  destruct i; cbn [exec]; intros [H|H]; try discriminate H;
    repeat match type of H with
    | (if ?c then _ else _) = _ => destruct c eqn:?
    | match ?c with Some _ => _ | None => _ end = _ => destruct c as [[? []]|]
    end; try discriminate H; injection H as <-; unfold same_reg; cbn; repeat split; try reflexivity; try congruence.
Qed.

Lemma same_reg_refl b : same_reg b b.
Proof. unfold same_reg; repeat split. Qed.
Lemma same_reg_trans a b c : same_reg a b -> same_reg b c -> same_reg a c.
Proof. unfold same_reg. intros (A & B & C & D) (A' & B' & C' & D'). repeat split; try congruence; intros; rewrite B', B; auto. Qed.

(** A program without registration leaves the ids alone; with dependencies in
    its head, it goes on only if they hold. *)
Definition quiet (i : instr) : bool := match i with IRegister _ | ILogMutex => false | _ => true end.

Lemma quiet_prog : forall p b r os, exec_prog b [] p = (r, os) -> forallb quiet p = true ->
  forall b', r = Go b' \/ r = Refuse b' -> same_reg b b' /\ bt_log b' = bt_log b.
Proof.
  induction p as [|i p IH]; intros b r os H Q b' R.
  - cbn in H. injection H as <- <-. destruct R as [R|R]; [|discriminate]. injection R as <-. split; [apply same_reg_refl|reflexivity].
  - rewrite exec_prog_cons_nil in H. cbn [forallb] in Q. apply andb_prop in Q as [Q1 Q2].
    destruct (exec true b i) as [b1|b1|] eqn:X.
    + pose proof (exec_reg true b i b1 (or_introl X)) as E.
      destruct (IH b1 r os H Q2 b' R) as [S1 L1].
      destruct i; try discriminate Q1; destruct E as [S0 L0]; (split; [eapply same_reg_trans; eauto|congruence]).
    + injection H as <- <-. destruct R as [R|R]; [discriminate|]. injection R as <-.
      pose proof (exec_reg true b i b1 (or_intror X)) as E. destruct i; try discriminate Q1; exact E.
    + injection H as <- <-. destruct R; discriminate.
Qed.

Lemma exec_prog_app : forall p q b, exec_prog b [] (p ++ q) =
  match exec_prog b [] p with (Go b', _) => exec_prog b' [] q | r => r end.
Proof.
  induction p as [|i p IH]; intros q b; [reflexivity|]. cbn [app]. rewrite !exec_prog_cons_nil.
  destruct (exec true b i); auto.
Qed.

(** Every init method: quiet head, one registration of its own name, prints. *)
Definition split_reg (m : modname) (p : list instr) : list instr :=
  (fix go p := match p with
               | [] => []
               | IRegister _ :: _ => []
               | i :: p => i :: go p
               end) p.
Definition head_prog (m : modname) : list instr := split_reg m (init_prog m).

Lemma init_shape m : m <> MLog ->
  forallb quiet (head_prog m) = true /\ init_prog m = head_prog m ++ [IRegister m; IPrint].
Proof. destruct m; intros; try easy; split; reflexivity. Qed.

Lemma head_depends : forall p b b', exec_prog b [] p = (Go b', []) -> forallb quiet p = true ->
  forall d, In (IDepend d) p -> DependOn b d = true.
Proof.
  induction p as [|i p IH]; intros b b' H Q d I; [destruct I|].
  rewrite exec_prog_cons_nil in H. cbn [forallb] in Q. apply andb_prop in Q as [Q1 Q2].
  destruct (exec true b i) as [b1|b1|] eqn:X; try discriminate H.
  pose proof (exec_reg true b i b1 (or_introl X)) as E.
  assert (S : same_reg b b1) by (destruct i; try discriminate Q1; apply E).
  destruct I as [->|I].
  - cbn [exec] in X. destruct (DependOn b d); [reflexivity|discriminate].
  - pose proof (IH b1 b' H Q2 d I) as D. destruct S as (S1 & S2 & _). unfold DependOn in *. now rewrite S1, S2 in D.
Qed.

Lemma declared_in_head m d : In d (declared m) -> In (IDepend d) (head_prog m).
Proof. destruct m; cbn; intuition (subst; auto 10). Qed.

Lemma depend_iff cs b : boot_inv cs b -> forall m, DependOn b m = true <-> In (CInit m) cs.
Proof.
  intros I m. rewrite (bi_reg _ _ I). unfold DependOn. pose proof (bi_range _ _ I m).
  rewrite Z.gtb_ltb, andb_true_iff, !Z.ltb_lt. lia.
Qed.

Lemma boot_inv_same cs c b b' : boot_inv cs b -> same_reg b b' -> bt_log b' = bt_log b ->
  (forall m, c <> CInit m) -> boot_inv (cs ++ [c]) b'.
Proof.
  intros [N R G U L F E] (S1 & S2 & S3 & S4) SL NC. split.
  - rewrite S1, app_length. cbn [length]. lia.
  - intros m. rewrite S2, <- R, in_app_iff. split; [|tauto]. intros [H|[H|[]]]; [exact H|]. now apply NC in H.
  - intros m. rewrite S1, S2. apply G.
  - intros m m'. rewrite !S2. apply U.
  - rewrite SL, L, in_app_iff. split; [tauto|]. intros [H|[H|[]]]; [exact H|]. now apply NC in H.
  - congruence.
  - congruence.
Qed.

Lemma boot_inv_register cs m b : boot_inv cs b -> Z.of_nat (length cs) < 4294967294 ->
  (m = MLog -> bt_log b = true) -> (m <> MLog -> bt_log b = true <-> In (CInit MLog) cs) ->
  boot_inv (cs ++ [CInit m]) (RegisterModule b m).
Proof.
  intros [N R G U L F E] B HL HL'. split; cbn [RegisterModule bt_n bt_ids bt_log bt_fault_data bt_ecu_error].
  - rewrite app_length. cbn [length]. unfold u32. rewrite Z.mod_small by lia. lia.
  - intros x. rewrite in_app_iff. cbn [In]. destruct (mod_eqb x m) eqn:X.
    + apply mod_eqb_eq in X. subst. split; [lia|auto].
    + rewrite <- R. split; [|auto]. intros [H|[H|[]]]; [exact H|]. injection H as ->. now rewrite mod_eqb_refl in X.
  - intros x. unfold u32. rewrite Z.mod_small by lia. destruct (mod_eqb x m); [lia|]. intros H. specialize (G x H). lia.
  - intros x y. destruct (mod_eqb x m) eqn:X, (mod_eqb y m) eqn:Y.
    + apply mod_eqb_eq in X, Y. congruence.
    + intros H K. exfalso. assert (bt_ids b y <> 0) by lia. specialize (G y H0). lia.
    + intros H K. exfalso. specialize (G x K). lia.
    + apply U.
  - rewrite in_app_iff. cbn [In]. destruct (mod_eqb m MLog) eqn:X.
    + apply mod_eqb_eq in X. subst m. split; auto.
    + assert (m <> MLog) by (intros ->; discriminate). rewrite (HL' H). split; [tauto|].
      intros [K|[K|[]]]; [exact K|]. now injection K.
  - exact F.
  - exact E.
Qed.

Lemma call_go cs b c b' : boot_inv cs b -> Z.of_nat (length cs) < 4294967294 ->
  exec_prog b [] (call_prog c) = (Go b', []) ->
  boot_inv (cs ++ [c]) b' /\ (forall m, c = CInit m -> forall d, In d (declared m) -> In (CInit d) cs).
Proof.
  intros I B H. destruct c as [m| | | |].
  2-5: split; [|easy]; edestruct quiet_prog as [S L]; [exact H|reflexivity|left; reflexivity|];
       eapply boot_inv_same; eauto; discriminate.
  destruct (mod_eqb m MLog) eqn:ML.
  - apply mod_eqb_eq in ML. subst m. split; [|intros m E; injection E as <-; intros d []].
    cbn in H. injection H as <-.
    set (b1 := mkBoot (bt_n b) (bt_ids b) true (bt_timer b) (bt_sdc_cfg b) (bt_sdc_task b) (bt_wheel b) (bt_fault_data b) (bt_ecu_error b)).
    (* the mutex exists now *)
    pose proof I as [N R G U L F E].
    change (boot_inv (cs ++ [CInit MLog]) (RegisterModule b1 MLog)). split; cbn [RegisterModule b1 bt_n bt_ids bt_log bt_fault_data bt_ecu_error].
    + rewrite app_length. cbn [length]. unfold u32. rewrite Z.mod_small by lia. lia.
    + intros x. rewrite in_app_iff. cbn [In]. destruct (mod_eqb x MLog) eqn:X.
      * apply mod_eqb_eq in X. subst. split; [lia|auto].
      * rewrite <- R. split; [|auto]. intros [H|[H|[]]]; [exact H|]. injection H as <-. discriminate.
    + intros x. unfold u32. rewrite Z.mod_small by lia. destruct (mod_eqb x MLog); [lia|]. intros H. specialize (G x H). lia.
    + intros x y. destruct (mod_eqb x MLog) eqn:X, (mod_eqb y MLog) eqn:Y.
      * apply mod_eqb_eq in X, Y. congruence.
      * intros H K. exfalso. assert (K' : bt_ids b y <> 0) by lia. specialize (G y K'). lia.
      * intros H K. exfalso. specialize (G x K). lia.
      * apply U.
    + rewrite in_app_iff. cbn [In]. tauto.
    + exact F.
    + exact E.
  - assert (NL : m <> MLog) by (intros ->; discriminate).
    destruct (init_shape m NL) as [Q Sh]. cbn [call_prog] in H. rewrite Sh, exec_prog_app in H.
    destruct (exec_prog b [] (head_prog m)) as [r os] eqn:X. destruct r as [b1|b1|]; try discriminate H.
    destruct (quiet_prog _ _ _ _ X Q b1 (or_introl eq_refl)) as [S Lg].
    assert (os = []) by (apply exec_prog_nil_os in X; exact X).
    subst os. split.
    + rewrite exec_prog_cons_nil in H. cbn [exec] in H. rewrite exec_prog_cons_nil in H. cbn [exec] in H.
      destruct (bt_log (RegisterModule b1 m)) eqn:LL; [|discriminate H]. cbn [exec_prog] in H. injection H as <-.
      destruct S as (S1 & S2 & S3 & S4). pose proof I as [N R G U L F E].
      assert (I1 : boot_inv cs b1).
      { split; [now rewrite S1|intros x; now rewrite S2|intros x; rewrite S1, S2; apply G|intros x y; rewrite !S2; apply U| |congruence|congruence].
        now rewrite Lg. }
      apply boot_inv_register; [exact I1|exact B|congruence|]. intros _. apply (bi_log _ _ I1).
    + intros m0 E d D. injection E as <-. apply (depend_iff cs b I). eapply head_depends; [exact X|exact Q|].
      now apply declared_in_head.
Qed.

(** *** Whole boots *)
Lemma boot_run_cons b oracle c cs : exists rest,
  boot_run b oracle (c :: cs) =
    match exec_prog b oracle (call_prog c) with
    | (Go b', _) => boot_run b' rest cs
    | (Refuse b', _) => Halted b'
    | (Crash, _) => Crashed
    end.
Proof. cbn [boot_run]. destruct (exec_prog b oracle (call_prog c)) as [[] os]; exists os; reflexivity. Qed.

Lemma boot_booted : forall cs done b oracle b', boot_inv done b ->
  Z.of_nat (length done + length cs) <= 4294967294 -> boot_run b oracle cs = Booted b' ->
  boot_inv (done ++ cs) b' /\
  (forall pre m post, cs = pre ++ CInit m :: post -> forall d, In d (declared m) -> In (CInit d) (done ++ pre)).
Proof.
  induction cs as [|c cs IH]; intros done b oracle b' I B H.
  - cbn in H. injection H as <-. rewrite app_nil_r. split; [exact I|]. intros [|? ?] m post E; discriminate E.
  - cbn [length] in B. destruct (boot_run_cons b oracle c cs) as [rest R]. rewrite R in H. clear R.
    destruct (exec_prog b oracle (call_prog c)) as [r os] eqn:X. destruct r as [b1|b1|]; try discriminate H.
    apply exec_prog_go in X. destruct (call_go done b c b1 I) as [I1 D]; [lia|exact X|].
    destruct (IH (done ++ [c]) b1 rest b' I1) as [I2 O]; [rewrite app_length; cbn [length]; lia|exact H|].
    rewrite <- app_assoc in I2. split; [exact I2|].
    intros [|c0 pre] m post E d Dd.
    + cbn [app] in E. injection E as -> ->. rewrite app_nil_r. now apply (D m eq_refl).
    + cbn [app] in E. injection E as <- E. specialize (O pre m post E d Dd). now rewrite <- app_assoc in O.
Qed.

Lemma boot_run_app : forall pre b post bf, boot_run b [] pre = Booted bf ->
  boot_run b [] (pre ++ post) = boot_run bf [] post.
Proof.
  induction pre as [|c pre IH]; intros b post bf H; [cbn in H; now injection H as <-|].
  cbn [app boot_run] in *. destruct (exec_prog b [] (call_prog c)) as [[b1|b1|] os] eqn:X; try discriminate H.
  pose proof (exec_prog_go _ _ _ _ _ X) as Y. rewrite Y in X. injection X as <-. now apply IH.
Qed.

Lemma boot_any : forall cs b bf, boot_run b [] cs = Booted bf -> forall oracle,
  boot_run b oracle cs = Booted bf \/ exists b', boot_run b oracle cs = Halted b' /\
    (bt_ecu_error b = false -> bt_ecu_error b' = false).
Proof.
  assert (EE : forall p b b', exec_prog b [] p = (Go b', []) -> bt_ecu_error b' = bt_ecu_error b).
  { induction p as [|i p IH]; intros b b' H; [cbn in H; congruence|]. rewrite exec_prog_cons_nil in H.
    destruct (exec true b i) as [b1|b1|] eqn:X; try discriminate H. rewrite (IH _ _ H).
    pose proof (exec_reg true b i b1 (or_introl X)) as E.
    destruct i; try (destruct E as [E _]; apply E). now subst. }
  induction cs as [|c cs IH]; intros b bf H oracle; [left; exact H|].
  cbn [boot_run] in *. destruct (exec_prog b [] (call_prog c)) as [[b1|b1|] os] eqn:X; try discriminate H.
  pose proof (exec_prog_go _ _ _ _ _ X) as Y. rewrite Y in X. injection X as <-.
  destruct (exec_prog_any _ _ _ Y oracle) as [(os & E)|(k & b' & os & E & P)]; rewrite E.
  - destruct (IH b1 bf H os) as [L|(b' & L & M)]; [now left|right]. exists b'. split; [exact L|].
    intros Z. apply M. now rewrite (EE _ _ _ Y).
  - right. exists b'. split; [reflexivity|]. intros Z. now rewrite (EE _ _ _ P).
Qed.

(** A failing check stops the boot. *)
Fixpoint nchecks (p : list instr) : nat :=
  match p with [] => 0 | i :: p => if is_check i then S (nchecks p) else nchecks p end.

Lemma nchecks_filter p : nchecks p = length (filter is_check p).
Proof. induction p as [|i p IH]; [reflexivity|]. cbn. destruct (is_check i); cbn; congruence. Qed.

Lemma nchecks_app p q : nchecks (p ++ q) = (nchecks p + nchecks q)%nat.
Proof. induction p as [|i p IH]; [reflexivity|]. cbn. destruct (is_check i); cbn; congruence. Qed.

Lemma prog_consumes : forall p b oracle b' os, exec_prog b oracle p = (Go b', os) ->
  (nchecks p <= length oracle)%nat ->
  ~ In false (firstn (nchecks p) oracle) /\ os = skipn (nchecks p) oracle.
Proof.
  induction p as [|i p IH]; intros b oracle b' os H L; cbn [exec_prog] in H.
  - injection H as <- <-. cbn. auto.
  - destruct (is_check i) eqn:C.
    + destruct i; try discriminate C. cbn [nchecks is_check] in *. destruct oracle as [|o oracle]; [cbn in L; lia|].
      cbn [exec] in H. destruct o; [|discriminate H]. cbn [length] in L. destruct (IH _ _ _ _ H) as [A B]; [lia|].
      cbn [firstn skipn In]. split; [|exact B]. intros [K|K]; [discriminate|tauto].
    + cbn [nchecks]. rewrite C in *. assert (L' : (nchecks p <= length oracle)%nat) by (cbn [nchecks] in L; now rewrite C in L).
      destruct i; try discriminate C;
        (destruct (exec true b _) as [b1|b1|] in H; try discriminate H; eapply IH; [exact H|exact L']).
Qed.

Lemma boot_consumes : forall cs b oracle b', boot_run b oracle cs = Booted b' ->
  (nchecks (actions cs) <= length oracle)%nat -> ~ In false (firstn (nchecks (actions cs)) oracle).
Proof.
  induction cs as [|c cs IH]; intros b oracle b' H L; [cbn; auto|].
  change (actions (c :: cs)) with (call_prog c ++ actions cs) in *. rewrite nchecks_app in *. cbn [boot_run] in H.
  destruct (exec_prog b oracle (call_prog c)) as [[b1|b1|] os] eqn:X; try discriminate H.
  destruct (prog_consumes _ _ _ _ _ X) as [A ->]; [lia|].
  specialize (IH _ _ _ H). rewrite skipn_length in IH.
  intros K. apply (IH ltac:(lia)). clear - A K.
  rewrite firstn_skipn_comm. rewrite <- (firstn_skipn (nchecks (call_prog c)) (firstn _ oracle)) in K.
  apply in_app_or in K. destruct K as [K|K]; [|exact K].
  exfalso. apply A. rewrite firstn_firstn, Nat.min_l in K by lia. exact K.
Qed.

(** *** No crash once the logger exists *)
Definition tshape (b : boot) : Prop :=
  0 <= tt_num (bt_timer b) <= 16 /\ length (tt_slots (bt_timer b)) = 16%nat.

Lemma register_shape r t task : 0 <= tt_num t <= 16 -> length (tt_slots t) = 16%nat ->
  exists t' st, TaskTimer_RegisterTask r t task 0 = Some (t', st) /\
    0 <= tt_num t' <= 16 /\ length (tt_slots t') = 16%nat.
Proof.
  intros N L. unfold TaskTimer_RegisterTask, reg_check, TASKTIMER_FREQUENCY_COUNT, TASKTIMER_MAX_TASKS.
  destruct r; cbn [negb]; [|eauto]. rewrite Z.geb_leb. destruct (Z.leb_spec 1 0); [lia|].
  destruct (Z.eqb_spec 16 (tt_num t)); [eauto|]. unfold reg_store, wr. rewrite L.
  destruct (Z.leb_spec 0 (tt_num t)); [|lia]. destruct (Z.ltb_spec (tt_num t) (Z.of_nat 16)); [|lia]. cbn [andb].
  eexists _, _. split; [reflexivity|]. cbn [reg_count tt_num tt_slots]. rewrite upd_length. unfold u8.
  rewrite Z.mod_small by lia. split; [lia|exact L].
Qed.

Lemma exec_shape ok b i b' : tshape b -> exec ok b i = Go b' -> tshape b'.
Proof.
  intros [N L] H. destruct i; cbn [exec] in H;
    try (match type of H with (if ?c then _ else _) = _ => destruct c end; try discriminate H);
    try (injection H as <-; split; assumption).
  - injection H as <-. split; [cbn; lia|reflexivity].
  - destruct (register_shape (DependOn b MTimer) (bt_timer b) task N L) as (t' & st & E & N' & L'). rewrite E in H.
    destruct st; try discriminate H. injection H as <-. split; assumption.
Qed.

Lemma prog_shape : forall p b oracle b' os, tshape b -> exec_prog b oracle p = (Go b', os) -> tshape b'.
Proof.
  induction p as [|i p IH]; intros b oracle b' os T H; [cbn in H; now injection H as <- <-|].
  destruct (exec_prog_cons i p b oracle) as (ok & rest & E). rewrite E in H.
  destruct (exec ok b i) as [b1|b1|] eqn:X; try discriminate H. eapply IH; [eapply exec_shape; eauto|exact H].
Qed.

Lemma boot_shape : forall cs b oracle b', tshape b -> boot_run b oracle cs = Booted b' -> tshape b'.
Proof.
  induction cs as [|c cs IH]; intros b oracle b' T H; [cbn in H; now injection H as <-|]. cbn [boot_run] in H.
  destruct (exec_prog b oracle (call_prog c)) as [[b1|b1|] os] eqn:X; try discriminate H.
  eapply IH; [eapply prog_shape; eauto|exact H].
Qed.

Lemma tshape_reset : tshape boot_reset.
Proof. split; [cbn; lia|reflexivity]. Qed.

Definition no_via (i : instr) : bool := match i with IPrintVia _ => false | _ => true end.

Lemma head_no_crash : forall p b os, tshape b -> bt_log b = true ->
  forallb (fun i => quiet i && no_via i) p = true -> exec_prog b [] p <> (Crash, os).
Proof.
  induction p as [|i p IH]; intros b os T L Q H; [discriminate H|].
  cbn [forallb] in Q. apply andb_prop in Q as [Q1 Q2]. rewrite exec_prog_cons_nil in H.
  destruct (exec true b i) as [b1|b1|] eqn:X; [|discriminate H|].
  - revert H. apply IH; [eapply exec_shape; eauto| |exact Q2].
    pose proof (exec_reg true b i b1 (or_introl X)) as E.
    destruct i; try discriminate Q1; destruct E as [_ E]; congruence.
  - destruct i; cbn [exec] in X; try discriminate X; try discriminate Q1;
      try (match type of X with (if ?c then _ else _) = _ => destruct c end; congruence).
    destruct T as [N Ln]. destruct (register_shape (DependOn b MTimer) (bt_timer b) task N Ln) as (t' & st & E & _).
    rewrite E in X. destruct st; discriminate X.
Qed.
