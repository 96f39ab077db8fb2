(** Proofs for C70 and C73. *)
From Coq Require Import String ZifyBool ZifyNat.
From Verif.Base Require Import Stream Text Mem.
From Verif.Model Require Import BootRun.
From Verif.Spec Require Import BootRunSpec.
From Verif.Proof Require Import BootProof PcPeriodicProof.
Open Scope Z_scope.

(** *** Log_Print *)
Lemma strnlen_spec : forall max mem len, In 0 mem \/ (max <= length mem)%nat ->
  strnlen_from mem max len = Some (len + Nat.min max (length (cstr mem)))%nat.
Proof.
  induction max as [|max IH]; intros mem len H; cbn [strnlen_from]; [cbn [Nat.min]; now rewrite Nat.add_0_r|].
  destruct mem as [|c mem]; [destruct H as [[]|H]; cbn in H; lia|]. cbn [cstr].
  destruct (Z.eqb_spec c 0) as [->|N]; [cbn; f_equal; lia|].
  rewrite IH; [cbn [length]; f_equal; lia|].
  destruct H as [[E|H]|H]; [congruence|auto|cbn [length] in H; lia].
Qed.

Lemma cstr_prefix : forall mem n, (n <= length (cstr mem))%nat -> firstn n mem = firstn n (cstr mem).
Proof.
  induction mem as [|c mem IH]; intros n H; [reflexivity|]. cbn [cstr] in *.
  destruct (c =? 0); [cbn in H; replace n with 0%nat by lia; reflexivity|].
  destruct n as [|n]; [reflexivity|]. cbn [firstn length] in *. f_equal. apply IH. lia.
Qed.

Lemma printf_cstr : forall mem, In 0 mem -> printf_s mem = Some (cstr mem).
Proof.
  induction mem as [|c mem IH]; intros H; [destruct H|]. cbn [printf_s cstr].
  destruct (Z.eqb_spec c 0); [reflexivity|]. rewrite IH; [reflexivity|]. destruct H; [congruence|auto].
Qed.

Lemma cstr_length_le : forall mem, (length (cstr mem) <= length mem)%nat.
Proof. induction mem as [|c mem IH]; [auto|]. cbn [cstr]. destruct (c =? 0); cbn [length]; lia. Qed.

Lemma cstr_full : forall mem, ~ In 0 mem -> cstr mem = mem.
Proof.
  induction mem as [|c mem IH]; intros H; [reflexivity|]. cbn [cstr].
  destruct (Z.eqb_spec c 0) as [->|N]; [exfalso; apply H; now left|]. rewrite IH; [reflexivity|].
  intros I. apply H. now right.
Qed.

Lemma log_print_mem_checked l msg : In 0 msg \/ (512 <= length msg)%nat ->
  Log_Print_mem true l msg =
    (s <- (if lg_serial l then stream_send_checked LOG_STREAM_CAP (lg_stream l) (log_bytes msg)
           else Some (lg_stream l)) ;;
     Some (mkLogger (lg_serial l) (lg_swo l) s (lg_swo_out l ++ if lg_swo l then swo_text msg else []))).
Proof.
  intros H. unfold Log_Print_mem, strnlen. cbn [negb].
  rewrite strnlen_spec by exact H. cbn [Nat.add]. set (n := Nat.min _ _).
  assert (F : firstn n msg = log_bytes msg).
  { unfold log_bytes. rewrite cstr_prefix by lia. subst n.
    destruct (Nat.le_ge_cases LOGGING_MAX_MSG_LEN (length (cstr msg))).
    - now rewrite Nat.min_l by lia.
    - rewrite Nat.min_r by lia. rewrite firstn_all. symmetry. now apply firstn_all2. }
  destruct (lg_swo l).
  - unfold swo_text. change LOGGING_MAX_MSG_LEN with 512%nat in *.
    destruct (Nat.eqb_spec n 512), (Nat.ltb_spec (length (cstr msg)) 512); try lia; rewrite ?F; try reflexivity.
    rewrite printf_cstr; [reflexivity|].
    destruct (in_dec Z.eq_dec 0 msg) as [I|N]; [exact I|]. destruct H as [H|H]; [easy|].
    rewrite (cstr_full msg N) in *. lia.
  - rewrite F. reflexivity.
Qed.

Lemma log_print_mem_spec l msg : In 0 msg \/ (512 <= length msg)%nat -> lg_serial l = false \/ cstr msg <> [] ->
  Log_Print_mem true l msg = Some (mkLogger (lg_serial l) (lg_swo l)
    (if lg_serial l then stream_send LOG_STREAM_CAP (lg_stream l) (log_bytes msg) else lg_stream l)
    (lg_swo_out l ++ if lg_swo l then swo_text msg else [])).
Proof.
  intros H NE. rewrite log_print_mem_checked by exact H. destruct (lg_serial l); [|reflexivity].
  destruct NE as [NE|NE]; [discriminate|]. now rewrite stream_send_checked_ok by now apply log_bytes_ne.
Qed.

Lemma log_print_mem_some l msg l' : In 0 msg \/ (512 <= length msg)%nat -> Log_Print_mem true l msg = Some l' ->
  l' = mkLogger (lg_serial l) (lg_swo l)
    (if lg_serial l then stream_send LOG_STREAM_CAP (lg_stream l) (log_bytes msg) else lg_stream l)
    (lg_swo_out l ++ if lg_swo l then swo_text msg else []).
Proof.
  intros H. rewrite log_print_mem_checked by exact H. destruct (lg_serial l).
  - destruct (stream_send_checked _ _ _) eqn:S; [|discriminate]. apply stream_send_checked_some in S. subst.
    congruence.
  - congruence.
Qed.

(** A message with at least one character. *)
Definition heard (t : list Z) : bool := match t with c :: _ => negb (c =? 0) | [] => false end.

Lemma heard_cstr t : heard t = true -> cstr (t ++ [0]) <> [].
Proof. destruct t as [|c t]; [discriminate|]. cbn. destruct (c =? 0); [discriminate|intros _; discriminate]. Qed.

Lemma say_spec p t : heard t = true -> say p t = Some (mkPrep (pr_boot p)
  (match Log_Print_mem true (pr_log p) (t ++ [0]) with Some l => l | None => pr_log p end)
  (pr_said p ++ [t]) (pr_tasks p)).
Proof.
  intros H. unfold say. rewrite log_print_mem_spec; [reflexivity| |].
  - left. apply in_app_iff. right. now left.
  - right. now apply heard_cstr.
Qed.

Lemma say_some p t p' : say p t = Some p' ->
  pr_boot p' = pr_boot p /\ pr_said p' = pr_said p ++ [t] /\ pr_tasks p' = pr_tasks p.
Proof. unfold say. destruct (Log_Print_mem _ _ _); [|discriminate]. intros [= <-]. auto. Qed.

(** *** Effects *)
Definition names (e : effect) : list Z := match e with ECreate t => [t] | _ => [] end.
Definition texts (e : effect) : list (list Z) := match e with EText t => [t] | _ => [] end.
Definition effects (a : act) : list effect := a_ok a ++ a_fail a.

Lemma effects_none es : fold_left do_effect es None = None.
Proof. induction es as [|e es IH]; [reflexivity|exact IH]. Qed.

Lemma effects_some : forall es p p', fold_left do_effect es (Some p) = Some p' ->
  pr_boot p' = pr_boot p /\ pr_tasks p' = pr_tasks p ++ concat (map names es) /\
  pr_said p' = pr_said p ++ concat (map texts es).
Proof.
  induction es as [|e es IH]; intros p p' H; [cbn in *; injection H as <-; rewrite !app_nil_r; auto|].
  cbn [fold_left] in H. destruct e as [t| |t]; cbn [do_effect] in H.
  - destruct (say p t) as [p1|] eqn:S; [|rewrite effects_none in H; discriminate].
    apply say_some in S as (B1 & S1 & T1). apply IH in H as (B & T & S). cbn.
    rewrite B, T, S, B1, T1, S1, <- app_assoc. auto.
  - apply IH in H as (B & T & S). cbn in B, T, S |- *. auto.
  - apply IH in H as (B & T & S). cbn in B, T, S |- *. rewrite T, S, <- app_assoc. auto.
Qed.

Definition heard_effect (e : effect) : bool := match e with EText t => heard t | _ => true end.

Lemma effects_total : forall es p, forallb heard_effect es = true ->
  exists p', fold_left do_effect es (Some p) = Some p' /\
  pr_boot p' = pr_boot p /\ pr_tasks p' = pr_tasks p ++ concat (map names es) /\
  pr_said p' = pr_said p ++ concat (map texts es).
Proof.
  intros es p H. assert (X : exists p', fold_left do_effect es (Some p) = Some p').
  { revert p H. induction es as [|e es IH]; intros p H; [now exists p|].
    cbn [forallb] in H. apply andb_prop in H as [H1 H2].
    cbn [fold_left]. destruct e as [t| |t]; cbn [do_effect]; [rewrite say_spec by exact H1|..]; now apply IH. }
  destruct X as [p' E]. exists p'. split; [exact E|now apply effects_some].
Qed.

(** *** One method *)
Definition checks (acts : list act) : nat := nchecks (map a_do acts).

(** Whatever the checks answer: either all of the method's are passed and the
    result is that of the good run, or one fails. *)
Definition within (acts : list act) (p p' : prep) : Prop :=
  (forall t, In t (pr_tasks p') -> In t (pr_tasks p) \/ In (ECreate t) (concat (map effects acts))) /\
  (forall t, In t (pr_said p') -> In t (pr_said p) \/ In (EText t) (concat (map effects acts))).

Lemma in_names t es : In t (concat (map names es)) -> In (ECreate t) es.
Proof.
  induction es as [|e es IH]; cbn; [auto|]. intros H. apply in_app_iff in H as [H|H]; [|auto].
  destruct e; cbn in H; try easy. destruct H as [->|[]]. now left.
Qed.
Lemma in_texts t es : In t (concat (map texts es)) -> In (EText t) es.
Proof.
  induction es as [|e es IH]; cbn; [auto|]. intros H. apply in_app_iff in H as [H|H]; [|auto].
  destruct e; cbn in H; try easy. destruct H as [->|[]]. now left.
Qed.

Lemma run_acts_any : forall acts p pf, forallb (fun a => forallb heard_effect (effects a)) acts = true ->
  run_acts p [] acts = Some (true, pf, []) -> forall oracle,
  (run_acts p oracle acts = Some (true, pf, skipn (checks acts) oracle) /\
   ~ In false (firstn (checks acts) oracle)) \/
  (exists p' os, run_acts p oracle acts = Some (false, p', os) /\
   In false (firstn (checks acts) oracle) /\ within acts p p').
Proof.
  induction acts as [|a acts IH]; intros p pf HE H oracle.
  { left. cbn in *. split; [|easy]. congruence. }
  cbn [forallb] in HE. apply andb_prop in HE as [HE1 HE2]. unfold effects in HE1.
  rewrite forallb_app in HE1. apply andb_prop in HE1 as [_ HE1].
  cbn [run_acts] in *.
  assert (H' : match exec true (pr_boot p) (a_do a) with
     | Go b => p' <- fold_left do_effect (a_ok a) (Some (with_boot p b)) ;; run_acts p' [] acts
     | Refuse b => p' <- fold_left do_effect (a_fail a) (Some (with_boot p b)) ;; Some (false, p', [])
     | Crash => None end = Some (true, pf, [])) by (destruct (a_do a); exact H).
  clear H. destruct (exec true (pr_boot p) (a_do a)) as [b|b|] eqn:X; [| |discriminate].
  2:{ destruct (fold_left do_effect (a_fail a) (Some (with_boot p b))); discriminate H'. }
  destruct (fold_left do_effect (a_ok a) (Some (with_boot p b))) as [p1|] eqn:E1; [|discriminate H'].
  pose proof (effects_some _ _ _ E1) as (B1 & T1 & S1).
  assert (STEP : forall rest, 
    (run_acts p1 rest acts = Some (true, pf, skipn (checks acts) rest) /\ ~ In false (firstn (checks acts) rest)) \/
    (exists p' os, run_acts p1 rest acts = Some (false, p', os) /\
       In false (firstn (checks acts) rest) /\ within (a :: acts) p p')).
  { intros rest. destruct (IH p1 pf HE2 H' rest) as [L|(p' & os & R & F & W1 & W2)]; [left; exact L|].
    right. exists p', os. split; [exact R|]. split; [exact F|]. split; intros t I.
    - destruct (W1 t I) as [J|J]; [|right; cbn; apply in_app_iff; now right].
      rewrite T1 in J. apply in_app_iff in J as [J|J]; [now left|].
      right. cbn. apply in_app_iff. left. apply in_app_iff. left. now apply in_names.
    - destruct (W2 t I) as [J|J]; [|right; cbn; apply in_app_iff; now right].
      rewrite S1 in J. apply in_app_iff in J as [J|J]; [now left|].
      right. cbn. apply in_app_iff. left. apply in_app_iff. left. now apply in_texts. }
  assert (CK : checks (a :: acts) = if is_check (a_do a) then S (checks acts) else checks acts) by reflexivity.
  destruct (is_check (a_do a)) eqn:IC.
  - destruct (a_do a) eqn:D; try discriminate IC. rewrite CK.
    destruct oracle as [|o oracle].
    + rewrite X, E1.
      destruct (STEP []) as [[R F]|(p' & os & R & F & W)].
      * left. rewrite R. cbn [skipn firstn]. rewrite skipn_nil. auto.
      * right. exists p', os. rewrite firstn_nil in F. destruct F.
    + cbn [firstn skipn]. destruct o.
      * rewrite X, E1. destruct (STEP oracle) as [[R F]|(p' & os & R & F & W)].
        -- left. split; [exact R|]. intros [I|I]; [discriminate|auto].
        -- right. exists p', os. split; [exact R|]. split; [now right|exact W].
      * right. cbn [exec].
        destruct (effects_total (a_fail a) (with_boot p (pr_boot p)) HE1) as (p2 & E2 & B2 & T2 & S2).
        rewrite E2. exists p2, oracle. split; [reflexivity|]. split; [now left|]. split; intros t I.
        -- rewrite T2 in I. apply in_app_iff in I as [I|I]; [now left|]. right. cbn.
           apply in_app_iff. left. apply in_app_iff. right. now apply in_names.
        -- rewrite S2 in I. apply in_app_iff in I as [I|I]; [now left|]. right. cbn.
           apply in_app_iff. left. apply in_app_iff. right. now apply in_texts.
  - assert (OR : (let '(ok, rest) := match a_do a, oracle with ICheck, o :: os => (o, os) | _, _ => (true, oracle) end in
        (ok, rest)) = (true, oracle)) by (destruct (a_do a); try reflexivity; discriminate IC).
    destruct (match a_do a, oracle with ICheck, o :: os => (o, os) | _, _ => (true, oracle) end) as [ok rest].
    injection OR as -> ->. rewrite CK, X, E1. apply STEP.
Qed.

(** *** The script *)
(** The good run. *)
Fixpoint lines (p : prep) (s : list bstep) : option prep :=
  match s with
  | [] => Some p
  | SSay t :: s => if bt_log (pr_boot p) then p' <- say p t ;; lines p' s else None
  | SCall acts _ :: s => match run_acts p [] acts with
                         | Some (true, p', []) => lines p' s
                         | _ => None
                         end
  end.

Definition step_checks (b : bstep) : nat := match b with SSay _ => 0 | SCall acts _ => checks acts end.
Definition script_checks (s : list bstep) : nat := list_sum (map step_checks s).
Definition step_effects (b : bstep) : list effect :=
  match b with SSay t => [EText t] | SCall acts _ => concat (map effects acts) end.

Lemma lines_snoc : forall s p b p1, lines p s = Some p1 -> lines p (s ++ [b]) = lines p1 [b].
Proof.
  induction s as [|c s IH]; intros p b p1 H; [injection H as <-; reflexivity|]. cbn [app].
  destruct c as [t|acts err]; cbn [lines] in *.
  - destruct (bt_log _); [|discriminate]. destruct (say p t); [|discriminate]. now apply IH.
  - destruct (run_acts p [] acts) as [[[[] p'] [|]]|]; try discriminate. now apply IH.
Qed.

(** The final state of the good run (kept opaque). *)
Lemma good_run_sig : {p | lines prep_reset init_script = Some p /\
  (pr_said p = early_messages ++ late_messages /\ lg_stream (pr_log p) = concat late_messages) /\
  pr_tasks p = all_tasks}.
Proof.
  exists (match lines prep_reset init_script with Some p => p | None => prep_reset end).
  vm_compute. repeat split.
Qed.
Definition pend : prep := proj1_sig good_run_sig.

Lemma good_run : lines prep_reset init_script = Some pend.
Proof. exact (proj1 (proj2_sig good_run_sig)). Qed.
Lemma pend_said : pr_said pend = early_messages ++ late_messages.
Proof. exact (proj1 (proj1 (proj2 (proj2_sig good_run_sig)))). Qed.
Lemma pend_stream : lg_stream (pr_log pend) = concat late_messages.
Proof. exact (proj2 (proj1 (proj2 (proj2_sig good_run_sig)))). Qed.
Lemma pend_tasks : pr_tasks pend = all_tasks.
Proof. exact (proj2 (proj2 (proj2_sig good_run_sig))). Qed.
Opaque pend early_messages late_messages init_script.
Lemma late_fits : (length (concat late_messages) <= 2047)%nat.
Proof. apply Nat.leb_le. vm_compute. reflexivity. Qed.
Lemma late_no_zero : no_zero (concat late_messages).
Proof.
  apply Forall_forall. intros x H.
  assert (A : forallb (fun c => negb (c =? 0)) (concat late_messages) = true) by (vm_compute; reflexivity).
  rewrite forallb_forall in A. specialize (A x H). destruct (Z.eqb_spec x 0); [discriminate|auto].
Qed.
Lemma script_checks_all : script_checks init_script = boot_checks.
Proof. vm_compute. reflexivity. Qed.

(** *** Facts on the script, found by going through it *)
Definition shipped_tasks : list Z :=
  [T_PC; T_GPS; T_WHEEL; T_SDC; T_INV; T_BMS; T_SENSE; T_WDT; T_THROTTLE; T_VSM].

Fixpoint zlist_eqb (a b : list Z) : bool :=
  match a, b with
  | [], [] => true
  | x :: a, y :: b => (x =? y) && zlist_eqb a b
  | _, _ => false
  end.
Lemma zlist_eqb_refl a : zlist_eqb a a = true.
Proof. induction a; cbn; [auto|]. now rewrite Z.eqb_refl. Qed.

(** The tasks that exist while checks can still fail. *)
Definition before_last_check : list Z := [T_PC; T_GPS; T_WHEEL; T_SDC; T_INV; T_BMS; T_SENSE].
Definition effect_early (e : effect) : bool :=
  match e with
  | ECreate t => existsb (Z.eqb t) before_last_check
  | EText t => negb (zlist_eqb t (line "WatchdogTrigger_Init begin"))
  | ESerial => true
  end.
Definition effect_known (e : effect) : bool :=
  match e with ECreate t => existsb (Z.eqb t) shipped_tasks | _ => true end.

(** Each call with checks comes before the watchdog's and has the usual message. *)
Definition call_ok (k : nat) : bool :=
  match nth_error init_script k with
  | Some (SCall acts err) =>
      (checks acts =? 0)%nat ||
      (forallb effect_early (concat (map step_effects (firstn (S k) init_script))) &&
       zlist_eqb err (line "Watchdog Trigger initialization error"))
  | _ => true
  end.
Lemma calls_ok : forallb call_ok (seq 0 (length init_script)) = true.
Proof. vm_compute. reflexivity. Qed.
Lemma all_known : forallb effect_known (concat (map step_effects init_script)) = true.
Proof. vm_compute. reflexivity. Qed.

(** No message of the script is empty. *)
Definition heard_step (b : bstep) : bool :=
  match b with
  | SSay t => heard t
  | SCall acts err => forallb (fun a => forallb heard_effect (effects a)) acts && heard err
  end.
Lemma all_heard : forallb heard_step init_script = true.
Proof. vm_compute. reflexivity. Qed.

Lemma zlist_eqb_eq : forall a b, zlist_eqb a b = true -> a = b.
Proof.
  induction a as [|x a IH]; destruct b as [|y b]; cbn; intros H; try easy.
  apply andb_prop in H as [H1 H2]. apply Z.eqb_eq in H1. subst. f_equal. auto.
Qed.

Lemma failing_call done acts err rest :
  init_script = done ++ SCall acts err :: rest -> checks acts <> 0%nat ->
  (forall t, In (ECreate t) (concat (map step_effects (done ++ [SCall acts err]))) -> In t before_last_check) /\
  ~ In (EText (line "WatchdogTrigger_Init begin")) (concat (map step_effects (done ++ [SCall acts err]))) /\
  err = line "Watchdog Trigger initialization error".
Proof.
  intros E N. pose proof calls_ok as A. rewrite forallb_forall in A.
  assert (K : call_ok (length done) = true).
  { apply A, in_seq. rewrite E, app_length. cbn [length]. lia. }
  unfold call_ok in K. rewrite E in K at 1. rewrite nth_error_app2, Nat.sub_diag in K by lia.
  cbn [nth_error] in K. destruct (Nat.eqb_spec (checks acts) 0); [contradiction|].
  cbn [orb] in K. apply andb_prop in K as [K1 K2]. apply zlist_eqb_eq in K2.
  assert (F : firstn (S (length done)) init_script = done ++ [SCall acts err]).
  { rewrite E. replace (S (length done)) with (length done + 1)%nat by lia.
    now rewrite firstn_app_2. }
  rewrite F, forallb_forall in K1. split; [|split; [|exact K2]].
  - intros t I. specialize (K1 _ I). cbn [effect_early] in K1. apply existsb_exists in K1 as (x & I' & X).
    apply Z.eqb_eq in X. now subst.
  - intros I. specialize (K1 _ I). cbn [effect_early] in K1. now rewrite zlist_eqb_refl in K1.
Qed.

(** Tasks and messages of the good run come from the script. *)
Lemma run_acts_within : forall acts p oracle ok p' os, run_acts p oracle acts = Some (ok, p', os) -> within acts p p'.
Proof.
  induction acts as [|a acts IH]; intros p oracle ok p' os H; cbn [run_acts] in H.
  - injection H as _ <- _. split; auto.
  - destruct (match a_do a, oracle with ICheck, o :: os => (o, os) | _, _ => (true, oracle) end) as [o rest].
    destruct (exec o (pr_boot p) (a_do a)) as [b|b|]; [| |discriminate].
    + destruct (fold_left do_effect (a_ok a) (Some (with_boot p b))) as [p1|] eqn:E1; [|discriminate H].
      pose proof (effects_some _ _ _ E1) as (_ & T1 & S1).
      destruct (IH _ _ _ _ _ H) as [W1 W2]. split; intros t I.
      * destruct (W1 t I) as [J|J]; [|right; cbn; apply in_app_iff; now right].
        rewrite T1 in J. apply in_app_iff in J as [J|J]; [now left|].
        right. cbn. apply in_app_iff. left. apply in_app_iff. left. now apply in_names.
      * destruct (W2 t I) as [J|J]; [|right; cbn; apply in_app_iff; now right].
        rewrite S1 in J. apply in_app_iff in J as [J|J]; [now left|].
        right. cbn. apply in_app_iff. left. apply in_app_iff. left. now apply in_texts.
    + destruct (fold_left do_effect (a_fail a) (Some (with_boot p b))) as [p1|] eqn:E1; [|discriminate H].
      pose proof (effects_some _ _ _ E1) as (_ & T1 & S1).
      injection H as _ <- _. split; intros t I.
      * rewrite T1 in I. apply in_app_iff in I as [I|I]; [now left|]. right. cbn.
        apply in_app_iff. left. apply in_app_iff. right. now apply in_names.
      * rewrite S1 in I. apply in_app_iff in I as [I|I]; [now left|]. right. cbn.
        apply in_app_iff. left. apply in_app_iff. right. now apply in_texts.
Qed.

Lemma run_acts_mono : forall acts p oracle ok p' os, run_acts p oracle acts = Some (ok, p', os) ->
  forall t, In t (pr_tasks p) -> In t (pr_tasks p').
Proof.
  induction acts as [|a acts IH]; intros p oracle ok p' os H t I; cbn [run_acts] in H.
  - injection H as _ <- _. exact I.
  - destruct (match a_do a, oracle with ICheck, o :: os => (o, os) | _, _ => (true, oracle) end) as [o r].
    destruct (exec o (pr_boot p) (a_do a)) as [b|b|]; [| |discriminate].
    + destruct (fold_left do_effect (a_ok a) (Some (with_boot p b))) as [p2|] eqn:E2; [|discriminate H].
      pose proof (effects_some _ _ _ E2) as (_ & T2 & _).
      eapply IH; [exact H|]. rewrite T2. apply in_app_iff. now left.
    + destruct (fold_left do_effect (a_fail a) (Some (with_boot p b))) as [p2|] eqn:E2; [|discriminate H].
      pose proof (effects_some _ _ _ E2) as (_ & T2 & _).
      injection H as _ <- _. rewrite T2. apply in_app_iff. now left.
Qed.

Definition made_by (s : list bstep) (p : prep) : Prop :=
  (forall t, In t (pr_tasks p) -> In (ECreate t) (concat (map step_effects s))) /\
  (forall t, In t (pr_said p) -> In (EText t) (concat (map step_effects s))).

Lemma made_app s b p p' : made_by s p ->
  (forall t, In t (pr_tasks p') -> In t (pr_tasks p) \/ In (ECreate t) (step_effects b)) ->
  (forall t, In t (pr_said p') -> In t (pr_said p) \/ In (EText t) (step_effects b)) ->
  made_by (s ++ [b]) p'.
Proof.
  intros [M1 M2] A B. unfold made_by. rewrite map_app, concat_app. cbn [map concat]. rewrite app_nil_r.
  split; intros t I; apply in_app_iff.
  - destruct (A t I); auto.
  - destruct (B t I); auto.
Qed.

(** *** The invariant *)
(** Sends that belong to a port: text kept. *)
Definition low (t : Z) : Prop := t <> T_INIT /\ priority t < priority T_INIT.

Definition inv (oracle : list bool) (m : mcu) : Prop :=
  length (mc_buf m) = 43%nat /\
  (forall t, In t (pr_tasks (mc_prep m)) -> In t shipped_tasks) /\
  match mc_init m with
  | At os s => mc_out m = [] /\ (forall t, In t (mc_ran m) -> ~ low t) /\
      (forall t, In t (mc_ran m) -> t <> T_INIT -> In t (pr_tasks (mc_prep m))) /\
      exists done, init_script = done ++ s /\ lines prep_reset done = Some (mc_prep m) /\
        lines (mc_prep m) s = Some pend /\ made_by done (mc_prep m) /\
        os = skipn (script_checks done) oracle /\ ~ In false (firstn (script_checks done) oracle)
  | Spin => mc_out m = [] /\ (forall t, In t (mc_ran m) -> ~ low t) /\
      (forall t, In t (mc_ran m) -> t <> T_INIT -> In t (pr_tasks (mc_prep m))) /\
      In false (firstn boot_checks oracle) /\
      (forall t, In t (pr_tasks (mc_prep m)) -> In t before_last_check) /\
      exists l, pr_said (mc_prep m) = l ++ failure_messages /\ ~ In (line "WatchdogTrigger_Init begin") l
  | Deleted => ~ In false (firstn boot_checks oracle) /\ pr_said (mc_prep m) = early_messages ++ late_messages /\
      on_port UartA (mc_out m) = on_port UartB (mc_out m) /\ no_zero (lg_stream (pr_log (mc_prep m))) /\
      (length (lg_stream (pr_log (mc_prep m))) <= 2047)%nat /\
      sent m UartA ++ lg_stream (pr_log (mc_prep m)) = concat late_messages
  end.

Lemma in_firstn_add (x : bool) a b l : In x (firstn (a + b) l) <-> In x (firstn a l) \/ In x (firstn b (skipn a l)).
Proof.
  revert l; induction a as [|a IH]; intros l; cbn [Nat.add firstn skipn]; [cbn [In]; tauto|].
  destruct l as [|y l]; cbn [firstn skipn]; [rewrite ?firstn_nil; cbn [In]; tauto|]. cbn [In]. rewrite IH. tauto.
Qed.

Lemma skipn_plus {A} a b (l : list A) : skipn b (skipn a l) = skipn (a + b) l.
Proof. revert l; induction a; intros l; [reflexivity|]. destruct l; cbn; [now rewrite skipn_nil|auto]. Qed.

Lemma script_checks_app s t : script_checks (s ++ t) = (script_checks s + script_checks t)%nat.
Proof. unfold script_checks. now rewrite map_app, list_sum_app. Qed.

(** Only tasks with the start-up task's priority run before it is deleted. *)
Lemma may_run_not_low m awake t : mc_init m <> Deleted -> may_run m awake t = true ->
  ~ low t /\ (t <> T_INIT -> In t (pr_tasks (mc_prep m))).
Proof.
  intros N H. unfold may_run in H. apply andb_prop in H as [H1 H2]. cbn [forallb] in H2.
  apply andb_prop in H2 as [H2 _]. split.
  - intros [_ L]. unfold ready at 1 in H2. change (T_INIT =? T_INIT) with true in H2. cbn iota in H2.
    destruct (mc_init m); try contradiction; cbn [negb orb] in H2; lia.
  - intros NI. unfold ready in H1. destruct (Z.eqb_spec t T_INIT); [contradiction|].
    apply andb_prop in H1 as [_ H1]. apply existsb_exists in H1 as (x & I & E). apply Z.eqb_eq in E. now subst.
Qed.

Lemma lines_tasks_known done s p : init_script = done ++ s -> made_by done p ->
  forall t, In t (pr_tasks p) -> In t shipped_tasks.
Proof.
  intros E [M _] t I. pose proof all_known as A. rewrite forallb_forall in A.
  assert (K : effect_known (ECreate t) = true).
  { apply A. rewrite E, map_app, concat_app. apply in_app_iff. left. auto. }
  unfold effect_known in K. apply existsb_exists in K as (x & J & X). apply Z.eqb_eq in X. now subst.
Qed.

(** One line of the start-up task. *)
Lemma init_turn_inv oracle m : inv oracle m ->
  exists i p, init_turn (mc_init m) (mc_prep m) = Some (i, p) /\
    inv oracle (mkMcu i p (mc_buf m) (mc_out m) (mc_ran m)) /\
    (forall t, In t (pr_tasks (mc_prep m)) -> In t (pr_tasks p)).
Proof.
  intros (LB & KN & I). destruct m as [i p buf out ran]. cbn [mc_init mc_prep mc_buf mc_out mc_ran] in *.
  destruct i as [os s| |]; [|exists Spin, p; split; [reflexivity|]; split; [split; [|split]; auto|auto]
                            |exists Deleted, p; split; [reflexivity|]; split; [split; [|split]; auto|auto]].
  destruct I as (O & R & RT & done & E & L & G & MB & EO & F).
  destruct s as [|b s].
  { exists Deleted, p. split; [reflexivity|]. split; [|auto]. split; [exact LB|]. split; [exact KN|].
    cbn [mc_init mc_prep mc_buf mc_out mc_ran]. cbn [lines] in G. injection G as ->.
    rewrite app_nil_r in E. subst done. rewrite script_checks_all in F.
    unfold sent. cbn [mc_out mc_prep]. rewrite O, pend_said, pend_stream. repeat split; auto.
    - exact late_no_zero.
    - exact late_fits. }
  assert (E' : init_script = (done ++ [b]) ++ s) by (rewrite <- app_assoc; exact E).
  pose proof (lines_snoc _ _ b _ L) as LS.
  assert (HS : heard_step b = true).
  { pose proof all_heard as A. rewrite forallb_forall in A. apply A. rewrite E. apply in_app_iff. right. now left. }
  destruct b as [t|acts err]; cbn [heard_step] in HS.
  - cbn [lines] in G. cbn [init_turn].
    destruct (bt_log (pr_boot p)) eqn:BL; [|discriminate]. rewrite (say_spec p t HS) in *.
    eexists _, _. split; [reflexivity|]. set (p1 := mkPrep _ _ _ _) in *.
    assert (MB1 : made_by (done ++ [SSay t]) p1).
    { eapply made_app; [exact MB| |].
      - intros x I. now left.
      - intros x I. cbn in I. apply in_app_iff in I as [I|[->|[]]]; [now left|right; now left]. }
    split; [|auto].
    split; [exact LB|]. split; [exact (lines_tasks_known _ _ _ E' MB1)|].
    cbn [mc_init mc_prep mc_buf mc_out mc_ran]. split; [exact O|]. split; [exact R|].
    split; [intros x J NI; exact (RT x J NI)|].
    exists (done ++ [SSay t]). split; [exact E'|]. split.
    { rewrite LS. cbn [lines]. rewrite BL, (say_spec p t HS). reflexivity. }
    split; [exact G|]. split; [exact MB1|].
    rewrite script_checks_app. cbn [script_checks map list_sum step_checks fold_right]. rewrite Nat.add_0_r. auto.
  - apply andb_prop in HS as [HS1 HS2]. cbn [lines] in G. destruct (run_acts p [] acts) as [[[[] p1] [|]]|] eqn:RA; try discriminate G.
    cbn [init_turn].
    assert (LP : lines prep_reset (done ++ [SCall acts err]) = Some p1)
      by (rewrite LS; cbn [lines]; now rewrite RA).
    destruct (run_acts_any acts p p1 HS1 RA os) as [[RG NF]|(p' & os' & RB & FB & W1 & W2)].
    + rewrite RG. eexists _, _. split; [reflexivity|].
      destruct (run_acts_within _ _ _ _ _ _ RG) as [W1 W2].
      assert (MB1 : made_by (done ++ [SCall acts err]) p1) by (eapply made_app; eauto).
      pose proof (run_acts_mono _ _ _ _ _ _ RG) as MONO.
      split; [|exact MONO].
      split; [exact LB|]. split; [exact (lines_tasks_known _ _ _ E' MB1)|].
      cbn [mc_init mc_prep mc_buf mc_out mc_ran]. split; [exact O|]. split; [exact R|].
      split; [intros x J NI; apply MONO; auto|].
      exists (done ++ [SCall acts err]). split; [exact E'|]. split; [exact LP|]. split; [exact G|]. split; [exact MB1|].
      rewrite script_checks_app. cbn [script_checks map list_sum step_checks fold_right]. rewrite Nat.add_0_r.
      split; [rewrite EO; apply skipn_plus|].
      rewrite in_firstn_add, <- EO. intros [A|A]; auto.
    + rewrite RB. rewrite (say_spec p' err HS2), say_spec by reflexivity. eexists _, _. split; [reflexivity|].
      cbn [pr_said pr_tasks].
      assert (NC : checks acts <> 0%nat) by (intros Z0; rewrite Z0 in FB; exact FB).
      destruct (failing_call done acts err s E NC) as (C1 & C2 & C3).
      assert (MB1 : made_by (done ++ [SCall acts err]) p') by (eapply made_app; eauto).
      pose proof (run_acts_mono _ _ _ _ _ _ RB) as MONO.
      split; [|exact MONO].
      split; [exact LB|]. split; [exact (lines_tasks_known _ _ _ E' MB1)|].
      cbn [mc_init mc_prep mc_buf mc_out mc_ran pr_tasks pr_said]. split; [exact O|]. split; [exact R|].
      split; [intros x J NI; apply MONO; auto|].
      split.
      { rewrite <- script_checks_all, E', script_checks_app, script_checks_app.
        apply in_firstn_add. left. apply in_firstn_add. right.
        cbn [script_checks map list_sum step_checks fold_right]. rewrite Nat.add_0_r, <- EO. exact FB. }
      split; [intros x J; apply C1, MB1, J|].
      exists (pr_said p'). split; [rewrite C3, <- app_assoc; reflexivity|].
      intros J. apply C2, MB1, J.
Qed.

Lemma step_inv oracle m u : inv oracle m -> exists m', mcu_step m u = Some m' /\ inv oracle m'.
Proof.
  intros H. unfold mcu_step. destruct (may_run m (tu_awake u) (tu_task u)) eqn:MR; cbn [negb]; [|eauto].
  destruct (Z.eqb_spec (tu_task u) T_INIT) as [EI|NI].
  - destruct (init_turn_inv oracle m H) as (i & p & E & I & MONO). rewrite E. eexists. split; [reflexivity|].
    destruct I as (LB & KN & I). split; [exact LB|]. split; [exact KN|].
    assert (NL : ~ low (tu_task u)) by (rewrite EI; intros [A _]; now apply A).
    cbn [mc_init mc_prep mc_buf mc_out mc_ran] in *. destruct i as [os s| |]; [| |exact I].
    + destruct I as (O & R & RT & I). split; [exact O|]. split; [|split; [|exact I]].
      * intros t J. apply in_app_iff in J as [J|[<-|[]]]; auto.
      * intros t J N. apply in_app_iff in J as [J|[<-|[]]]; [auto|contradiction].
    + destruct I as (O & R & RT & I). split; [exact O|]. split; [|split; [|exact I]].
      * intros t J. apply in_app_iff in J as [J|[<-|[]]]; auto.
      * intros t J N. apply in_app_iff in J as [J|[<-|[]]]; [auto|contradiction].
  - destruct (Z.eqb_spec (tu_task u) T_PC) as [EP|NP].
    + destruct (mc_init m) as [os s| |] eqn:MI.
      * exfalso. apply (proj1 (may_run_not_low m _ _ ltac:(rewrite MI; discriminate) MR)).
        rewrite EP. split; [discriminate|reflexivity].
      * exfalso. apply (proj1 (may_run_not_low m _ _ ltac:(rewrite MI; discriminate) MR)).
        rewrite EP. split; [discriminate|reflexivity].
      * destruct H as (LB & KN & I). rewrite MI in I. destruct I as (NF & SD & OP & NZ & LE & TX).
        destruct (flush_drains 64 (tu_locks u) (mc_buf m) (lg_stream (pr_log (mc_prep m))) LB NZ) as (b & o & E & LB' & OP' & TX'); [lia|].
        rewrite E. eexists. split; [reflexivity|]. split; [exact LB'|]. split; [exact KN|].
        cbn [mc_init mc_prep mc_buf mc_out mc_ran pr_log pr_said lg_stream].
        split; [exact NF|]. split; [exact SD|]. split; [rewrite !on_port_app; congruence|].
        split; [constructor|]. split; [cbn; lia|]. unfold sent in *. cbn [mc_out].
        rewrite on_port_app, log_text_app, TX', app_nil_r. exact TX.
    + eexists. split; [reflexivity|]. destruct H as (LB & KN & I). split; [exact LB|]. split; [exact KN|].
      cbn [mc_init mc_prep mc_buf mc_out mc_ran] in *. destruct (mc_init m) as [os s| |] eqn:MI; [| |exact I].
      * pose proof (may_run_not_low m _ _ ltac:(rewrite MI; discriminate) MR) as [NL IT].
        destruct I as (O & R & RT & I). split; [exact O|]. split; [|split; [|exact I]].
        -- intros t J. apply in_app_iff in J as [J|[<-|[]]]; auto.
        -- intros t J N. apply in_app_iff in J as [J|[<-|[]]]; auto.
      * pose proof (may_run_not_low m _ _ ltac:(rewrite MI; discriminate) MR) as [NL IT].
        destruct I as (O & R & RT & I). split; [exact O|]. split; [|split; [|exact I]].
        -- intros t J. apply in_app_iff in J as [J|[<-|[]]]; auto.
        -- intros t J N. apply in_app_iff in J as [J|[<-|[]]]; auto.
Qed.

Lemma reset_inv oracle : inv oracle (mcu_reset oracle).
Proof.
  split; [reflexivity|]. split; [intros t []|]. cbn [mcu_reset mc_init mc_prep mc_out mc_ran].
  split; [reflexivity|]. split; [intros t []|]. split; [intros t []|].
  exists []. split; [reflexivity|]. split; [reflexivity|]. split; [exact good_run|].
  split; [split; intros t []|]. split; [reflexivity|]. intros [].
Qed.

Lemma run_inv oracle : forall us m, inv oracle m -> exists m', mcu_run m us = Some m' /\ inv oracle m'.
Proof.
  induction us as [|u us IH]; intros m H; [exists m; auto|]. cbn [mcu_run].
  destruct (step_inv oracle m u H) as (m1 & E & I). rewrite E. auto.
Qed.

Lemma reaches_inv oracle m : reaches oracle m -> inv oracle m.
Proof.
  intros (us & H). destruct (run_inv oracle us _ (reset_inv oracle)) as (m' & E & I). congruence.
Qed.

(** The tasks that exist when the start-up has ended. *)
Lemma tasks_step oracle m u m' : inv oracle m -> mcu_step m u = Some m' ->
  (mc_init m = Deleted -> pr_tasks (mc_prep m) = all_tasks) ->
  mc_init m' = Deleted -> pr_tasks (mc_prep m') = all_tasks.
Proof.
  intros (_ & _ & I) H T D. unfold mcu_step in H.
  destruct (may_run m (tu_awake u) (tu_task u)); cbn [negb] in H; [|injection H as <-; auto].
  destruct (tu_task u =? T_INIT).
  - destruct (init_turn (mc_init m) (mc_prep m)) as [[i p]|] eqn:E; [|discriminate]. injection H as <-.
    cbn [mc_init mc_prep] in *. subst i.
    destruct (mc_init m) as [os s| |]; cbn [init_turn] in E; [|discriminate|injection E as <-; auto].
    destruct s as [|[t|acts err] s].
    + injection E as <-. destruct I as (_ & _ & _ & done & _ & _ & G & _). cbn [lines] in G.
      injection G as ->. apply pend_tasks.
    + destruct (bt_log _); [|discriminate]. destruct (say _ t); discriminate.
    + destruct (run_acts _ os acts) as [[[[] p'] os']|]; [discriminate| |discriminate].
      destruct (say p' err) as [p1|]; [|discriminate]. destruct (say p1 _); discriminate.
  - destruct (tu_task u =? T_PC).
    + destruct (flushLogMessage _ _ _ _) as [[[b s] o]|]; [|discriminate]. injection H as <-. auto.
    + injection H as <-. auto.
Qed.

Lemma reaches_tasks oracle m : reaches oracle m -> mc_init m = Deleted -> pr_tasks (mc_prep m) = all_tasks.
Proof.
  intros (us & H). revert H.
  enough (G : forall us m0, inv oracle m0 -> (mc_init m0 = Deleted -> pr_tasks (mc_prep m0) = all_tasks) ->
    mcu_run m0 us = Some m -> mc_init m = Deleted -> pr_tasks (mc_prep m) = all_tasks).
  { intros H. refine (G us _ (reset_inv oracle) _ H). discriminate. }
  clear us. induction us as [|u us IH]; intros m0 I T H; cbn [mcu_run] in H; [injection H as <-; auto|].
  destruct (step_inv oracle m0 u I) as (m1 & E & I1). rewrite E in H.
  apply (IH m1 I1); [|exact H]. exact (tasks_step oracle m0 u m1 I E T).
Qed.

(** A failed start-up does reach its loop. *)
Lemma mcu_run_app : forall us m vs, mcu_run m (us ++ vs) = match mcu_run m us with Some m' => mcu_run m' vs | None => None end.
Proof.
  induction us as [|u us IH]; intros m vs; [reflexivity|]. cbn [app mcu_run].
  destruct (mcu_step m u); auto.
Qed.

Lemma init_may_run m : mc_init m <> Deleted -> may_run m [] T_INIT = true.
Proof. intros N. unfold may_run, ready. cbn. destruct (mc_init m); try contradiction; reflexivity. Qed.

Definition init_only : mturn := mkTurn [] T_INIT [].

Lemma init_goes_on : forall s os m, mc_init m = At os s ->
  (exists m', mcu_run m (repeat init_only (S (length s))) = Some m') ->
  exists m', mcu_run m (repeat init_only (S (length s))) = Some m' /\ (mc_init m' = Spin \/ mc_init m' = Deleted).
Proof.
  assert (STAY : forall n m m', mc_init m = Spin -> mcu_run m (repeat init_only n) = Some m' -> mc_init m' = Spin).
  { induction n as [|n IH]; intros m m' E H; cbn [repeat mcu_run] in H; [congruence|].
    unfold mcu_step in H. change (tu_awake init_only) with (@nil Z) in H. change (tu_task init_only) with T_INIT in H.
    rewrite init_may_run in H by (rewrite E; discriminate). cbn [negb] in H. change (T_INIT =? T_INIT) with true in H.
    rewrite E in H. cbn [init_turn] in H. eapply IH; [|exact H]. reflexivity. }
  induction s as [|b s IH]; intros os m E (m' & H).
  - exists m'. split; [exact H|]. right. cbn [length repeat mcu_run] in H. unfold mcu_step in H.
    change (tu_awake init_only) with (@nil Z) in H. change (tu_task init_only) with T_INIT in H.
    rewrite init_may_run in H by (rewrite E; discriminate). cbn [negb] in H. change (T_INIT =? T_INIT) with true in H.
    rewrite E in H. cbn [init_turn] in H. injection H as <-. reflexivity.
  - cbn [length] in *. set (n := S (length s)) in *. cbn [repeat mcu_run] in *.
    destruct (mcu_step m init_only) as [m1|] eqn:ST; [|discriminate H].
    unfold mcu_step in ST. change (tu_awake init_only) with (@nil Z) in ST. change (tu_task init_only) with T_INIT in ST.
    rewrite init_may_run in ST by (rewrite E; discriminate). cbn [negb] in ST. change (T_INIT =? T_INIT) with true in ST.
    rewrite E in ST. destruct (init_turn (At os (b :: s)) (mc_prep m)) as [[i p]|] eqn:IT; [|discriminate ST].
    injection ST as <-.
    assert (C : (exists os', i = At os' s) \/ i = Spin).
    { destruct b as [t|acts err]; cbn [init_turn] in IT.
      - destruct (bt_log _); [|discriminate]. destruct (say _ _); [|discriminate]. injection IT as <- _. eauto.
      - destruct (run_acts _ _ _) as [[[[] p'] os']|]; [injection IT as <- _; eauto| |discriminate].
        destruct (say p' err); [|discriminate]. destruct (say _ _); [|discriminate]. injection IT as <- _. auto. }
    destruct C as [(os' & ->)| ->].
    + apply (IH os'); [reflexivity|]. eauto.
    + exists m'. split; [exact H|]. left. eapply STAY; [|exact H]. reflexivity.
Qed.

Lemma init_ends oracle : exists m, reaches oracle m /\ (mc_init m = Spin \/ mc_init m = Deleted).
Proof.
  destruct (run_inv oracle (repeat init_only (S (length init_script))) _ (reset_inv oracle)) as (m' & E & _).
  destruct (init_goes_on init_script oracle (mcu_reset oracle) eq_refl (ex_intro _ m' E)) as (m & R & D).
  exists m. split; [|exact D]. eexists. exact R.
Qed.

Lemma in_by (x : list Z) l : existsb (zlist_eqb x) l = true -> In x l.
Proof. intros H. apply existsb_exists in H as (y & J & E). apply zlist_eqb_eq in E. now subst. Qed.
Lemma not_in_by (x : list Z) l : existsb (zlist_eqb x) l = false -> ~ In x l.
Proof.
  intros H J. rewrite (proj2 (existsb_exists _ _)) in H; [discriminate|]. exists x. split; [exact J|apply zlist_eqb_refl].
Qed.

Lemma ran_grows : forall us m m', mcu_run m us = Some m' -> forall t, In t (mc_ran m) -> In t (mc_ran m').
Proof.
  induction us as [|u us IH]; intros m m' H t J; cbn [mcu_run] in H; [injection H as <-; exact J|].
  destruct (mcu_step m u) as [m1|] eqn:ST; [|discriminate]. apply (IH m1 m' H). clear -ST J.
  unfold mcu_step in ST. destruct (negb _); [injection ST as <-; exact J|].
  destruct (tu_task u =? T_INIT).
  - destruct (init_turn _ _) as [[i p]|]; [|discriminate]. injection ST as <-. cbn. apply in_app_iff. now left.
  - destruct (tu_task u =? T_PC).
    + destruct (flushLogMessage _ _ _ _) as [[[b s] o]|]; [|discriminate]. injection ST as <-. cbn. apply in_app_iff. now left.
    + injection ST as <-. cbn. apply in_app_iff. now left.
Qed.

(** Any state can go on to the end of the start-up task. *)
Lemma goes_to_end oracle m : reaches oracle m -> mc_init m <> Deleted ->
  exists m', reaches oracle m' /\ (mc_init m' = Spin \/ mc_init m' = Deleted) /\
    forall t, In t (mc_ran m) -> In t (mc_ran m').
Proof.
  intros R N. destruct (mc_init m) as [os s| |] eqn:E; [|exists m; auto|contradiction].
  destruct (run_inv oracle (repeat init_only (S (length s))) m (reaches_inv _ _ R)) as (m1 & E1 & _).
  destruct (init_goes_on s os m E (ex_intro _ m1 E1)) as (m' & R' & D).
  exists m'. split; [|split; [exact D|exact (ran_grows _ _ _ R')]].
  destruct R as (us & R). exists (us ++ repeat init_only (S (length s))). rewrite mcu_run_app, R. exact R'.
Qed.
