From Verif.Model Require Import StateMachine.
From Verif.Spec Require Import VsmSpec.
From Verif.Proof Require Import FaultProof.
From Coq Require Import ZifyBool ZifyNat.
Ltac Zify.zify_post_hook ::= Z.div_mod_to_equations.

Definition inv (m : vsm) : Prop := vm_next m = vm_state m.

Lemma eqb_st : forall a b, vsm_st_eqb a b = true <-> a = b.
Proof. destruct a, b; simpl; split; congruence. Qed.

Lemma eqb_st_false : forall a b, vsm_st_eqb a b = false <-> a <> b.
Proof. destruct a, b; simpl; split; congruence. Qed.

Lemma init_inv : forall c tick m, vsm_init c tick = Some m ->
  inv m /\ vm_state m = StInit /\ vm_prevBtn m = false /\ vm_ticks m = 0.
Proof.
  unfold vsm_init. intros c tick m H. destruct (fm_init c tick); [|discriminate].
  inversion H; subst. unfold inv. auto.
Qed.

(** One step, seen from outside. *)
Lemma step_state : forall c tick m i,
  vm_state (fst (vsm_step c tick m i)) =
  h_next (vsm_handle c tick m (report c m i) (vi_live i)) /\
  inv (fst (vsm_step c tick m i)).
Proof.
  intros. unfold vsm_step, report, inv. destruct (fm_step c (vm_fm m) (vi_snap i)) as [fm f].
  cbn [fst snd vm_state vm_next].
  destruct (vsm_st_eqb _ _) eqn:E; simpl; auto. apply eqb_st in E. auto.
Qed.

Lemma step_ticks : forall c tick m i,
  vm_ticks (fst (vsm_step c tick m i)) =
  if vsm_st_eqb (vm_state m) (vm_state (fst (vsm_step c tick m i))) then u32 (vm_ticks m + 1) else 0.
Proof.
  intros. unfold vsm_step, report. destruct (fm_step c (vm_fm m) (vi_snap i)) as [fm f].
  cbn [fst snd vm_state vm_next vm_ticks].
  destruct (vsm_st_eqb (vm_state m) (h_next _)) eqn:E; simpl.
  - now rewrite (proj2 (eqb_st _ _) eq_refl).
  - now rewrite E.
Qed.

Lemma step_prev : forall c tick m i,
  vm_prevBtn (fst (vsm_step c tick m i)) =
  h_prev (vsm_handle c tick m (report c m i) (vi_live i)).
Proof.
  intros. unfold vsm_step, report. now destruct (fm_step c (vm_fm m) (vi_snap i)).
Qed.

Lemma step_cmds : forall c tick m i,
  snd (vsm_step c tick m i) = h_cmds (vsm_handle c tick m (report c m i) (vi_live i)).
Proof.
  intros. unfold vsm_step, report. now destruct (fm_step c (vm_fm m) (vi_snap i)).
Qed.

Lemma step_fm : forall c tick m i,
  vm_fm (fst (vsm_step c tick m i)) = fst (fm_step c (vm_fm m) (vi_snap i)).
Proof. intros. unfold vsm_step. now destruct (fm_step c (vm_fm m) (vi_snap i)). Qed.

Lemma run_app : forall c tick h1 h2 m,
  vsm_run c tick m (h1 ++ h2) = vsm_run c tick (vsm_run c tick m h1) h2.
Proof. induction h1; intros; simpl; auto. Qed.

Lemma run_inv : forall c tick h m, inv m -> inv (vsm_run c tick m h).
Proof. induction h; intros m H; simpl; auto. apply IHh. apply step_state. Qed.

Lemma run_init_inv : forall c tick m h, vsm_init c tick = Some m -> inv (vsm_run c tick m h).
Proof. intros. apply run_inv. now apply (init_inv c tick). Qed.

Ltac handlers := unfold vsm_handle, stateInit, stateLvStartup, stateLvReady, stateHvActive,
  stateHvCharging, stateActiveNeutral, stateActiveForward, stateFault.

(** *** C06 *)
Lemma fault_stays_step : forall c tick m i, inv m -> vm_state m = StFault ->
  vm_state (fst (vsm_step c tick m i)) = StFault.
Proof.
  intros c tick m i HI HS. rewrite (proj1 (step_state c tick m i)).
  handlers. rewrite HS. simpl. now rewrite HI.
Qed.

Lemma fault_stays : forall c tick h m, inv m -> vm_state m = StFault ->
  vm_state (vsm_run c tick m h) = StFault.
Proof.
  induction h; intros m HI HS; simpl; auto. apply IHh; [apply step_state|].
  now apply fault_stays_step.
Qed.

(** *** C07 *)
Lemma fault_report_step : forall c tick m i, inv m ->
  report c m i = FS_Fault -> vm_state m <> StInit ->
  vm_state (fst (vsm_step c tick m i)) = StFault.
Proof.
  intros c tick m i HI HR HS. rewrite (proj1 (step_state c tick m i)), HR.
  handlers. destruct (vm_state m) eqn:E; simpl; auto; unfold inv in HI; congruence.
Qed.

Lemma lv_error_step : forall c tick m i, inv m ->
  report c m i = FS_LvError ->
  vm_state (fst (vsm_step c tick m i)) =
    match vm_state m with
    | StInit | StLvStartup => StLvStartup
    | _ => StFault
    end.
Proof.
  intros c tick m i HI HR. rewrite (proj1 (step_state c tick m i)), HR. unfold inv in HI.
  handlers. destruct (vm_state m) eqn:E; simpl; auto; congruence.
Qed.

Lemma init_step : forall c tick m i, vm_state m = StInit ->
  vm_state (fst (vsm_step c tick m i)) = StLvStartup.
Proof.
  intros c tick m i HS. rewrite (proj1 (step_state c tick m i)). handlers. now rewrite HS.
Qed.

Lemma report_latched : forall c tick m i j, report c m i = FS_Fault -> vi_snap j <> None ->
  report c (fst (vsm_step c tick m i)) j = FS_Fault.
Proof.
  intros c tick m i j H Hj. unfold report in *. rewrite step_fm.
  destruct (vi_snap i) as [d|] eqn:Ei; [|discriminate].
  destruct (vi_snap j) as [d'|]; [|congruence].
  rewrite fm_step_report in *.
  apply classify_fault. apply classify_fault in H. revert H. apply mask_keep.
  intros b. apply fm_step_keep.
Qed.

(** *** C08 *)
Lemma fault_cmds : forall c tick m i, vm_state m = StFault ->
  snd (vsm_step c tick m i) =
   [CmdMotorDirection DIR_FORWARD; CmdTorqueEnabled false; CmdEcuError true].
Proof. intros. rewrite step_cmds. handlers. now rewrite H. Qed.

Lemma entering_fault_cmds : forall c tick m i, inv m -> vm_state m <> StFault ->
  vm_state (fst (vsm_step c tick m i)) = StFault -> snd (vsm_step c tick m i) = [].
Proof.
  intros c tick m i HI HS. rewrite (proj1 (step_state c tick m i)), step_cmds. unfold inv in HI.
  handlers. destruct (vm_state m) eqn:E; destruct (report c m i) eqn:R; simpl; auto; try congruence;
    try (destruct (vi_live i) as [d|]; simpl; auto; try congruence);
    repeat match goal with |- context [if ?b then _ else _] => destruct b end; simpl;
    auto; congruence.
Qed.

(** *** C09: transitions *)
Lemma step_diagram : forall c tick m i, inv m ->
  vm_state (fst (vsm_step c tick m i)) <> vm_state m ->
  diagram (vm_state m) (vm_state (fst (vsm_step c tick m i))).
Proof.
  intros c tick m i HI. rewrite (proj1 (step_state c tick m i)). unfold inv in HI.
  handlers. destruct (vm_state m) eqn:E; destruct (report c m i) eqn:R; simpl;
    try (destruct (vi_live i) as [d|]; simpl; try congruence);
    repeat match goal with |- context [if ?b then _ else _] => destruct b end; simpl;
    intros; try congruence; try constructor; try congruence.
Qed.

(** Last entry into a set of states. *)
Lemma last_entry : forall c tick (S : vsm_st -> bool) h m,
  S (vm_state m) = false -> S (vm_state (vsm_run c tick m h)) = true ->
  exists h1 i h2, h = h1 ++ i :: h2 /\
    S (vm_state (vsm_run c tick m h1)) = false /\
    (forall p q, h2 = p ++ q -> S (vm_state (vsm_run c tick m (h1 ++ i :: p))) = true).
Proof.
  intros c tick S h m H0. induction h as [|x h IH] using rev_ind; intros H.
  - simpl in H. congruence.
  - destruct (S (vm_state (vsm_run c tick m h))) eqn:E.
    + destruct (IH eq_refl) as (h1 & i & h2 & -> & A & B).
      exists h1, i, (h2 ++ [x]). split; [now rewrite <- app_assoc|]. split; [exact A|].
      intros p q Epq. destruct (exists_last (l := p ++ q)) as [].
      { rewrite <- Epq. destruct h2; discriminate. }
      destruct q as [|q0 q'] using rev_ind.
      * rewrite app_nil_r in Epq. subst p.
        rewrite <- app_assoc in H. exact H.
      * clear IHq'. rewrite app_assoc in Epq. apply app_inj_tail in Epq. destruct Epq as [Epq _].
        now apply (B p q').
    + exists h, x, []. split; [reflexivity|]. split; [exact E|].
      intros p q Epq. symmetry in Epq. apply app_eq_nil in Epq. destruct Epq as [-> ->]. exact H.
Qed.

Lemma ticks_count : forall c tick s h m,
  vm_state m = s -> vm_ticks m = 0 ->
  (forall p q, h = p ++ q -> vm_state (vsm_run c tick m p) = s) ->
  vm_ticks (vsm_run c tick m h) = u32 (Z.of_nat (length h)).
Proof.
  intros c tick s h m Hs Ht. induction h as [|x h IH] using rev_ind; intros H.
  - simpl. rewrite Ht. reflexivity.
  - rewrite run_app. cbn [vsm_run]. rewrite step_ticks.
    assert (E1 : vm_state (vsm_run c tick m h) = s) by (now apply (H h [x])).
    assert (E2 : vm_state (fst (vsm_step c tick (vsm_run c tick m h) x)) = s).
    { specialize (H (h ++ [x]) []). rewrite app_nil_r, run_app in H. now apply H. }
    rewrite E1, E2, (proj2 (eqb_st s s) eq_refl), IH.
    + rewrite app_length. unfold u32. cbn [length].
      rewrite Zplus_mod_idemp_l. f_equal. lia.
    + intros p q E. apply (H p (q ++ [x])). now rewrite E, app_assoc.
Qed.

Lemma entry_ticks : forall c tick m i,
  vm_state (fst (vsm_step c tick m i)) <> vm_state m ->
  vm_ticks (fst (vsm_step c tick m i)) = 0.
Proof.
  intros c tick m i H. rewrite step_ticks. destruct (vsm_st_eqb _ _) eqn:E; auto.
  apply eqb_st in E. congruence.
Qed.

(** Why a given transition was taken. *)
Lemma to_hv_active : forall c tick m i, inv m ->
  vm_state m <> StHvActive -> vm_state (fst (vsm_step c tick m i)) = StHvActive ->
  vm_state m = StLvReady /\ report c m i = FS_NoFault /\ button i = Some true /\
  vm_prevBtn m = false.
Proof.
  intros c tick m i HI HS. rewrite (proj1 (step_state c tick m i)). unfold inv in HI. unfold button.
  handlers. destruct (vm_state m) eqn:E; destruct (report c m i) eqn:R; simpl; try congruence;
    try (destruct (vi_live i) as [d|]; simpl; try congruence);
    try (destruct (v_vsmState (vs_inverter d) =? INV_VSM_READY); simpl; try congruence);
    try (destruct (_ >? _); simpl; congruence);
    try (destruct (_ >=? _); simpl; congruence);
    destruct (d_buttonPressed (vs_dash d)), (vm_prevBtn m); simpl; intros; try congruence; auto.
Qed.

Lemma to_hv_charging : forall c tick m i, inv m ->
  vm_state m <> StHvCharging -> vm_state (fst (vsm_step c tick m i)) = StHvCharging ->
  vm_state m = StHvActive /\ report c m i = FS_NoFault /\
  cf_hvActiveStateWait c <= u32 (tick * vm_ticks m) /\
  snd (vsm_step c tick m i) = [CmdEnableInverter].
Proof.
  intros c tick m i HI HS. rewrite (proj1 (step_state c tick m i)), step_cmds. unfold inv in HI.
  handlers. destruct (vm_state m) eqn:E; destruct (report c m i) eqn:R; simpl; try congruence;
    try (destruct (vi_live i) as [d|]; simpl; try congruence);
    try (destruct (v_vsmState (vs_inverter d) =? INV_VSM_READY); simpl; try congruence);
    try (destruct (_ >? _); simpl; congruence);
    try (destruct (d_buttonPressed (vs_dash d)), (vm_prevBtn m); simpl; intros; congruence);
    destruct (_ >=? _) eqn:G; simpl; try congruence; intros _; unfold stateMs in G;
    repeat split; auto; lia.
Qed.

Lemma to_neutral : forall c tick m i, inv m ->
  vm_state m <> StActiveNeutral -> vm_state m <> StActiveForward ->
  vm_state (fst (vsm_step c tick m i)) = StActiveNeutral ->
  vm_state m = StHvCharging /\ report c m i = FS_NoFault /\ inverter_ready i = true.
Proof.
  intros c tick m i HI HS HS2. rewrite (proj1 (step_state c tick m i)). unfold inv in HI.
  unfold inverter_ready.
  handlers. destruct (vm_state m) eqn:E; destruct (report c m i) eqn:R; simpl; try congruence;
    try (destruct (vi_live i) as [d|]; simpl; try congruence);
    try (destruct (v_vsmState (vs_inverter d) =? INV_VSM_READY); simpl; try congruence; auto);
    try (destruct (_ >? _); simpl; congruence);
    try (destruct (_ >=? _); simpl; congruence);
    destruct (d_buttonPressed (vs_dash d)), (vm_prevBtn m); simpl; intros; try congruence; auto.
Qed.

Lemma to_forward : forall c tick m i, inv m ->
  vm_state m <> StActiveForward -> vm_state (fst (vsm_step c tick m i)) = StActiveForward ->
  vm_state m = StActiveNeutral /\ report c m i = FS_NoFault /\ button i = Some true /\
  vm_prevBtn m = false.
Proof.
  intros c tick m i HI HS. rewrite (proj1 (step_state c tick m i)). unfold inv in HI. unfold button.
  handlers. destruct (vm_state m) eqn:E; destruct (report c m i) eqn:R; simpl; try congruence;
    try (destruct (vi_live i) as [d|]; simpl; try congruence);
    try (destruct (v_vsmState (vs_inverter d) =? INV_VSM_READY); simpl; try congruence);
    try (destruct (_ >? _); simpl; congruence);
    try (destruct (_ >=? _); simpl; congruence);
    destruct (d_buttonPressed (vs_dash d)), (vm_prevBtn m); simpl; intros; try congruence; auto.
Qed.

Lemma to_ready : forall c tick m i, inv m ->
  vm_state m <> StLvReady -> vm_state (fst (vsm_step c tick m i)) = StLvReady ->
  vm_state m = StLvStartup /\ report c m i = FS_NoFault.
Proof.
  intros c tick m i HI HS. rewrite (proj1 (step_state c tick m i)). unfold inv in HI.
  handlers. destruct (vm_state m) eqn:E; destruct (report c m i) eqn:R; simpl; try congruence; auto;
    try (destruct (vi_live i) as [d|]; simpl; try congruence);
    try (destruct (v_vsmState (vs_inverter d) =? INV_VSM_READY); simpl; try congruence);
    try (destruct (_ >? _); simpl; congruence);
    try (destruct (_ >=? _); simpl; congruence);
    destruct (d_buttonPressed (vs_dash d)), (vm_prevBtn m); simpl; intros; try congruence; auto.
Qed.

(** *** C09: the whole path *)
Definition is_st (s : vsm_st) (x : vsm_st) : bool := vsm_st_eqb s x.

Lemma is_st_true : forall s x, is_st s x = true <-> x = s.
Proof. intros. unfold is_st. rewrite eqb_st. split; auto. Qed.
Lemma is_st_false : forall s x, is_st s x = false <-> x <> s.
Proof. intros. unfold is_st. rewrite eqb_st_false. split; auto. Qed.

Lemma run_snoc : forall c tick m h i,
  vsm_run c tick m (h ++ [i]) = fst (vsm_step c tick (vsm_run c tick m h) i).
Proof. intros. now rewrite run_app. Qed.

Lemma run_mid : forall c tick m h i p,
  vsm_run c tick m (h ++ i :: p) = vsm_run c tick (vsm_run c tick m (h ++ [i])) p.
Proof. intros. rewrite <- run_app, <- app_assoc. reflexivity. Qed.

(** A stay in state [s] that ends with the step [i] leaving to another state. *)
Lemma stay_of : forall c tick s h m,
  inv m -> vm_state m <> s -> vm_state (vsm_run c tick m h) = s ->
  exists h1 i w, h = h1 ++ i :: w /\
    vm_state (vsm_run c tick m h1) <> s /\
    vm_state (vsm_run c tick m (h1 ++ [i])) = s /\
    (forall p q, w = p ++ q -> vm_state (vsm_run c tick m (h1 ++ i :: p)) = s) /\
    vm_ticks (vsm_run c tick m h) = u32 (Z.of_nat (length w)).
Proof.
  intros c tick s h m HI H0 H.
  destruct (last_entry c tick (is_st s) h m) as (h1 & i & w & -> & A & B).
  { now apply is_st_false. } { now apply is_st_true. }
  apply is_st_false in A.
  assert (B' : forall p q, w = p ++ q -> vm_state (vsm_run c tick m (h1 ++ i :: p)) = s).
  { intros p q E. apply is_st_true. eauto. }
  assert (E1 : vm_state (vsm_run c tick m (h1 ++ [i])) = s) by (now apply (B' [] w)).
  exists h1, i, w. repeat split; auto.
  rewrite run_mid. apply ticks_count with (s := s); auto.
  - rewrite run_snoc. apply entry_ticks. rewrite run_snoc in E1. congruence.
  - intros p q E. rewrite <- run_mid. eauto.
Qed.

Lemma u32_le : forall z, 0 <= z -> u32 z <= z.
Proof. intros. unfold u32. apply Z.mod_le; lia. Qed.
Lemma u32_nonneg : forall z, 0 <= u32 z.
Proof. intros. unfold u32. apply Z.mod_pos_bound. lia. Qed.

Lemma u32_mul_u32 : forall a b, u32 (a * u32 b) = (a * b) mod 2 ^ 32.
Proof. intros. unfold u32. now rewrite Zmult_mod_idemp_r. Qed.

Lemma charging_stay_step : forall c tick m i, inv m -> vm_state m = StHvCharging ->
  vm_state (fst (vsm_step c tick m i)) = StHvCharging -> vi_live i <> None ->
  inverter_ready i = false /\ u32 (tick * vm_ticks m) <= cf_hvChargeTimeout c /\
  report c m i = FS_NoFault.
Proof.
  intros c tick m i HI HS. rewrite (proj1 (step_state c tick m i)). unfold inv in HI.
  unfold inverter_ready. handlers. rewrite HS. destruct (report c m i); simpl; try congruence.
  destruct (vi_live i) as [d|]; [|congruence].
  destruct (_ =? _); simpl; [congruence|]. destruct (_ >? _) eqn:G; simpl; [congruence|].
  intros _ _. unfold stateMs in G. repeat split; auto. lia.
Qed.

Definition drive_path (c : config) (tick : Z) (m0 : vsm) (h : list vsm_in) : Prop :=
  exists h1 i1 w1 i2 w2 i3 h4 i4 h5,
    h = h1 ++ i1 :: w1 ++ i2 :: w2 ++ i3 :: h4 ++ i4 :: h5 /\
    (* ready, asked to engage HV *)
    vm_state (vsm_run c tick m0 h1) = StLvReady /\ button i1 = Some true /\
    (* HV wait completed in HV_ACTIVE *)
    (forall p q, w1 = p ++ q ->
       vm_state (vsm_run c tick m0 (h1 ++ i1 :: p)) = StHvActive) /\
    cf_hvActiveStateWait c <= tick * Z.of_nat (length w1) /\
    (* inverter seen ready while charging, and not timed out before *)
    (forall p q, w2 = p ++ q ->
       vm_state (vsm_run c tick m0 (h1 ++ i1 :: w1 ++ i2 :: p)) = StHvCharging) /\
    (forall p j q, w2 = p ++ j :: q -> vi_live j <> None ->
       (tick * Z.of_nat (length p)) mod 2 ^ 32 <= cf_hvChargeTimeout c) /\
    inverter_ready i3 = true /\
    vm_state (vsm_run c tick m0 (h1 ++ i1 :: w1 ++ i2 :: w2 ++ [i3])) = StActiveNeutral /\
    (* asked again, to drive *)
    vm_state (vsm_run c tick m0 (h1 ++ i1 :: w1 ++ i2 :: w2 ++ i3 :: h4)) = StActiveNeutral /\
    button i4 = Some true.

Lemma drive_path_holds : forall c tick m0 h, 0 <= tick -> vsm_init c tick = Some m0 ->
  vm_state (vsm_run c tick m0 h) = StActiveForward -> drive_path c tick m0 h.
Proof.
  intros c tick m0 h Htick Hi HF. destruct (init_inv c tick m0 Hi) as (I0 & S0 & _ & _).
  (* first arrival in {neutral, forward} *)
  set (ND := fun s => is_st StActiveNeutral s || is_st StActiveForward s).
  destruct (last_entry c tick ND h m0) as (g & i3 & r & -> & A3 & B3).
  { rewrite S0. reflexivity. }
  { rewrite HF. reflexivity. }
  assert (A3' : vm_state (vsm_run c tick m0 g) <> StActiveNeutral /\
                vm_state (vsm_run c tick m0 g) <> StActiveForward).
  { unfold ND in A3. apply orb_false_iff in A3. now rewrite !is_st_false in A3. }
  assert (B3' := B3 [] r eq_refl). rewrite run_snoc in B3'.
  assert (IG := run_inv c tick g m0 I0).
  assert (N3 : vm_state (fst (vsm_step c tick (vsm_run c tick m0 g) i3)) = StActiveNeutral).
  { unfold ND in B3'. apply orb_true_iff in B3'. rewrite !is_st_true in B3'.
    destruct B3' as [E|E]; auto.
    destruct (to_forward c tick _ i3 IG (proj2 A3') E) as (E' & _). tauto. }
  destruct (to_neutral c tick _ i3 IG (proj1 A3') (proj2 A3') N3) as (C3 & _ & R3).
  (* the stay in HV_CHARGING *)
  destruct (stay_of c tick StHvCharging g m0 I0) as (g2 & i2 & w2 & -> & P2 & Q2 & W2 & _);
    [congruence|exact C3|].
  rewrite run_snoc in Q2.
  assert (IG2 := run_inv c tick g2 m0 I0).
  destruct (to_hv_charging c tick _ i2 IG2 P2 Q2) as (C2 & _ & T2 & _).
  destruct (stay_of c tick StHvActive g2 m0 I0) as (g1 & i1 & w1 & -> & P1 & Q1 & W1 & TK1);
    [congruence|exact C2|].
  rewrite run_snoc in Q1.
  assert (IG1 := run_inv c tick g1 m0 I0).
  destruct (to_hv_active c tick _ i1 IG1 P1 Q1) as (C1 & _ & BT1 & _).
  (* last arrival in forward *)
  rewrite run_mid in HF.
  assert (N3' : vm_state (vsm_run c tick m0 (((g1 ++ i1 :: w1) ++ i2 :: w2) ++ [i3])) = StActiveNeutral)
    by (now rewrite run_snoc).
  assert (IN := run_inv c tick (((g1 ++ i1 :: w1) ++ i2 :: w2) ++ [i3]) m0 I0).
  destruct (stay_of c tick StActiveForward r _ IN) as (h4 & i4 & h5 & -> & P4 & Q4 & _ & _);
    [congruence|exact HF|].
  rewrite run_snoc in Q4.
  assert (I4 := run_inv c tick h4 _ IN).
  destruct (to_forward c tick _ i4 I4 P4 Q4) as (C4 & _ & BT4 & _).
  assert (EQ : forall p, g1 ++ i1 :: w1 ++ i2 :: p = (g1 ++ i1 :: w1) ++ i2 :: p)
    by (intros; now rewrite <- app_assoc).
  exists g1, i1, w1, i2, w2, i3, h4, i4, h5.
  repeat match goal with |- _ /\ _ => split end; auto.
  - repeat (rewrite <- app_assoc || rewrite <- app_comm_cons); reflexivity.
  - rewrite TK1, u32_mul_u32 in T2.
    pose proof (u32_le (tick * Z.of_nat (length w1))) as L. unfold u32 in L. nia.
  - intros p q E. rewrite EQ. now apply (W2 p q).
  - intros p j q E HJ. subst w2.
    set (mm := vsm_run c tick m0 ((g1 ++ i1 :: w1) ++ i2 :: p)).
    assert (X1 : vm_state mm = StHvCharging) by (apply (W2 p (j :: q)); reflexivity).
    assert (X2 : vm_state (fst (vsm_step c tick mm j)) = StHvCharging).
    { unfold mm. rewrite <- run_snoc, <- app_assoc. cbn [app].
      apply (W2 (p ++ [j]) q). now rewrite <- app_assoc. }
    destruct (charging_stay_step c tick mm j) as (_ & LE & _); auto.
    { unfold mm. now apply run_inv. }
    assert (TK : vm_ticks mm = u32 (Z.of_nat (length p))).
    { unfold mm. rewrite run_mid. apply ticks_count with (s := StHvCharging).
      - now rewrite run_snoc.
      - rewrite run_snoc. apply entry_ticks. congruence.
      - intros p' q' E'. rewrite <- run_mid. apply (W2 p' (q' ++ j :: q)).
        now rewrite E', app_assoc. }
    rewrite TK, u32_mul_u32 in LE. exact LE.
  - rewrite EQ. replace ((g1 ++ i1 :: w1) ++ i2 :: w2 ++ [i3])
      with (((g1 ++ i1 :: w1) ++ i2 :: w2) ++ [i3]) by (now rewrite <- !app_assoc). exact N3'.
  - rewrite EQ. replace ((g1 ++ i1 :: w1) ++ i2 :: w2 ++ i3 :: h4)
      with ((((g1 ++ i1 :: w1) ++ i2 :: w2) ++ [i3]) ++ h4)
      by (rewrite <- !app_assoc; reflexivity).
    rewrite run_app. exact C4.
Qed.

(** *** C10 *)
Lemma hv_active_step : forall c tick m i, inv m -> vm_state m = StHvActive ->
  report c m i = FS_NoFault ->
  vm_state (fst (vsm_step c tick m i)) =
    if cf_hvActiveStateWait c <=? u32 (tick * vm_ticks m) then StHvCharging else StHvActive.
Proof.
  intros c tick m i HI HS HR. rewrite (proj1 (step_state c tick m i)), HR. unfold inv in HI.
  handlers. rewrite HS. unfold stateMs. simpl. rewrite Z.geb_leb.
  destruct (_ <=? _); simpl; congruence.
Qed.

Lemma hv_active_wait : forall c tick, vsm_cfg_ok c tick ->
  forall h m, inv m -> vm_state m = StHvActive ->
  (forall n, vm_ticks m = Z.of_nat n ->
   fault_free c tick m h ->
   tick * (Z.of_nat n + Z.of_nat (length h)) < cf_hvActiveStateWait c + tick ->
   vm_state (vsm_run c tick m h) = StHvActive /\
   vm_ticks (vsm_run c tick m h) = Z.of_nat n + Z.of_nat (length h)).
Proof.
  intros c tick (Ht & Hw & _). induction h as [|i h IH]; intros m HI HS n Hn HF HL.
  - simpl. split; auto. lia.
  - destruct HF as [HR HF]. cbn [vsm_run length] in *.
    assert (B : tick * Z.of_nat n < cf_hvActiveStateWait c) by nia.
    assert (E : vm_state (fst (vsm_step c tick m i)) = StHvActive).
    { rewrite hv_active_step by auto. rewrite Hn. unfold u32. rewrite Z.mod_small by nia.
      destruct (_ <=? _) eqn:G; [lia|auto]. }
    assert (T : vm_ticks (fst (vsm_step c tick m i)) = Z.of_nat (S n)).
    { rewrite step_ticks, E, HS. simpl. rewrite Hn. unfold u32. rewrite Z.mod_small; nia. }
    destruct (IH _ (proj2 (step_state c tick m i)) E (S n) T HF) as [R1 R2]; [nia|].
    split; [exact R1|]. lia.
Qed.

Lemma hv_active_leaves : forall c tick m h i, vsm_cfg_ok c tick ->
  inv m -> vm_state m = StHvActive -> vm_ticks m = 0 ->
  fault_free c tick m (h ++ [i]) ->
  cf_hvActiveStateWait c <= tick * Z.of_nat (length h) < cf_hvActiveStateWait c + tick ->
  tick * Z.of_nat (length h) < 2 ^ 32 ->
  vm_state (vsm_run c tick m h) = StHvActive /\
  vm_state (vsm_run c tick m (h ++ [i])) = StHvCharging /\
  snd (vsm_step c tick (vsm_run c tick m h) i) = [CmdEnableInverter].
Proof.
  intros c tick m h i Hc HI HS HT HF HL HB.
  assert (HFh : fault_free c tick m h /\ report c (vsm_run c tick m h) i = FS_NoFault).
  { clear - HF. revert m HF. induction h as [|x h IH]; intros m [R F]; simpl.
    - auto.
    - destruct (IH _ F). auto. }
  destruct HFh as [F R].
  destruct (hv_active_wait c tick Hc h m HI HS 0%nat) as [S1 T1]; auto; try lia.
  split; [exact S1|]. rewrite run_snoc.
  assert (E : vm_state (fst (vsm_step c tick (vsm_run c tick m h) i)) = StHvCharging).
  { rewrite hv_active_step; auto; [|now apply run_inv]. rewrite T1.
    unfold u32. rewrite Z.mod_small by nia. destruct (_ <=? _) eqn:G; [auto|lia]. }
  split; [exact E|]. apply to_hv_charging; auto; [now apply run_inv|congruence].
Qed.

Lemma hv_charging_step : forall c tick m i, inv m -> vm_state m = StHvCharging ->
  report c m i = FS_NoFault -> vi_live i <> None ->
  vm_state (fst (vsm_step c tick m i)) =
    if inverter_ready i then StActiveNeutral
    else if cf_hvChargeTimeout c <? u32 (tick * vm_ticks m) then StFault else StHvCharging.
Proof.
  intros c tick m i HI HS HR HL. rewrite (proj1 (step_state c tick m i)), HR. unfold inv in HI.
  unfold inverter_ready. handlers. rewrite HS. unfold stateMs. simpl.
  destruct (vi_live i) as [d|]; [|congruence].
  destruct (_ =? _); simpl; auto. rewrite Z.gtb_ltb. destruct (_ <? _); simpl; congruence.
Qed.

Lemma hv_charging_wait : forall c tick, vsm_cfg_ok c tick ->
  cf_hvChargeTimeout c + tick < 2 ^ 32 ->
  forall h m, inv m -> vm_state m = StHvCharging ->
  (forall n, vm_ticks m = Z.of_nat n ->
   fault_free c tick m h ->
   Forall (fun i => vi_live i <> None /\ inverter_ready i = false) h ->
   tick * (Z.of_nat n + Z.of_nat (length h)) <= cf_hvChargeTimeout c + tick ->
   vm_state (vsm_run c tick m h) = StHvCharging /\
   vm_ticks (vsm_run c tick m h) = Z.of_nat n + Z.of_nat (length h)).
Proof.
  intros c tick (Ht & _ & Hw) Hbig. induction h as [|i h IH]; intros m HI HS n Hn HF HA HL.
  - simpl. split; auto. lia.
  - destruct HF as [HR HF]. cbn [vsm_run length] in *. inversion HA as [|? ? [HV HQ] HA']; subst.
    assert (B : tick * Z.of_nat n <= cf_hvChargeTimeout c) by nia.
    assert (E : vm_state (fst (vsm_step c tick m i)) = StHvCharging).
    { rewrite hv_charging_step by auto. rewrite Hn, HQ. unfold u32. rewrite Z.mod_small by nia.
      destruct (_ <? _) eqn:G; [lia|auto]. }
    assert (T : vm_ticks (fst (vsm_step c tick m i)) = Z.of_nat (S n)).
    { rewrite step_ticks, E, HS. simpl. rewrite Hn. unfold u32. rewrite Z.mod_small; nia. }
    destruct (IH _ (proj2 (step_state c tick m i)) E (S n) T HF HA') as [R1 R2]; [nia|].
    split; [exact R1|]. lia.
Qed.

Lemma fault_free_snoc : forall c tick h m i, fault_free c tick m (h ++ [i]) ->
  fault_free c tick m h /\ report c (vsm_run c tick m h) i = FS_NoFault.
Proof.
  induction h as [|x h IH]; intros m i [R F]; simpl; auto. destruct (IH _ _ F). auto.
Qed.

(** After [h] non-ready steps the next evaluated step decides. *)
Lemma hv_charging_decides : forall c tick m h i, vsm_cfg_ok c tick ->
  cf_hvChargeTimeout c + tick < 2 ^ 32 ->
  inv m -> vm_state m = StHvCharging -> vm_ticks m = 0 ->
  fault_free c tick m (h ++ [i]) ->
  Forall (fun j => vi_live j <> None /\ inverter_ready j = false) h ->
  vi_live i <> None ->
  tick * Z.of_nat (length h) <= cf_hvChargeTimeout c + tick ->
  vm_state (vsm_run c tick m h) = StHvCharging /\
  vm_state (vsm_run c tick m (h ++ [i])) =
    if inverter_ready i then StActiveNeutral
    else if cf_hvChargeTimeout c <? tick * Z.of_nat (length h) then StFault else StHvCharging.
Proof.
  intros c tick m h i Hc Hb HI HS HT HF HA HL HB.
  apply fault_free_snoc in HF. destruct HF as [F R].
  destruct (hv_charging_wait c tick Hc Hb h m HI HS 0%nat) as [S1 T1]; auto.
  split; [exact S1|]. rewrite run_snoc, hv_charging_step; auto; [|now apply run_inv].
  rewrite T1. destruct Hc as (Ht & _ & Hw). unfold u32. rewrite Z.mod_small by nia.
  reflexivity.
Qed.

(** The wrap of tick*ticks can hide the wait for ever. *)
Lemma wait_hidden : forall c h m, cf_hvActiveStateWait c = 4294967295 ->
  inv m -> vm_state m = StHvActive -> fault_free c 10 m h ->
  vm_state (vsm_run c 10 m h) = StHvActive.
Proof.
  intros c h m HW. revert m. induction h as [|i h IH]; intros m HI HS HF; simpl; auto.
  destruct HF as [R F]. apply IH; auto; [apply step_state|].
  rewrite hv_active_step by auto. rewrite HW. unfold u32.
  destruct (_ <=? _) eqn:G; auto. exfalso.
  assert (2 ^ 32 = 4294967296) by reflexivity.
  assert ((10 * vm_ticks m) mod 2 ^ 32 = 4294967295).
  { pose proof (Z.mod_pos_bound (10 * vm_ticks m) (2 ^ 32)). lia. }
  rewrite H in H0. lia.
Qed.

(** *** C11 *)
Lemma button_change_why : forall c tick m i, inv m ->
  button_change (vm_state m) (vm_state (fst (vsm_step c tick m i))) ->
  report c m i = FS_NoFault /\ button i = Some true /\ vm_prevBtn m = false /\
  vm_prevBtn (fst (vsm_step c tick m i)) = true.
Proof.
  intros c tick m i HI. rewrite step_prev, (proj1 (step_state c tick m i)). unfold inv in HI.
  unfold button. handlers.
  destruct (vm_state m) eqn:E; destruct (report c m i) eqn:R; simpl;
    try (destruct (vi_live i) as [d|]; simpl);
    try (destruct (v_vsmState (vs_inverter d) =? INV_VSM_READY); simpl);
    try (destruct (_ >? _); simpl);
    try (destruct (_ >=? _); simpl);
    try (destruct (d_buttonPressed (vs_dash d)), (vm_prevBtn m); simpl);
    rewrite ?HI; intros B; inversion B; auto.
Qed.

Lemma held_keeps_prev : forall c tick m i, inv m -> vm_prevBtn m = true ->
  button i <> Some false -> vm_prevBtn (fst (vsm_step c tick m i)) = true.
Proof.
  intros c tick m i HI HP. rewrite step_prev. unfold button. handlers.
  destruct (vm_state m) eqn:E; destruct (report c m i) eqn:R; simpl;
    try (destruct (vi_live i) as [d|]; simpl);
    try (destruct (v_vsmState (vs_inverter d) =? INV_VSM_READY); simpl);
    try (destruct (_ >? _); simpl);
    try (destruct (_ >=? _); simpl);
    try (destruct (d_buttonPressed (vs_dash d)); rewrite ?HP; simpl);
    rewrite ?HP; congruence.
Qed.

Lemma held_run : forall c tick h m, inv m -> vm_prevBtn m = true ->
  Forall (fun i => button i <> Some false) h -> vm_prevBtn (vsm_run c tick m h) = true.
Proof.
  induction h as [|i h IH]; intros m HI HP HF; simpl; auto. inversion HF; subst.
  apply IH; auto; [apply step_state|]. now apply held_keeps_prev.
Qed.

Lemma one_press_one_change : forall c tick m i h j, inv m ->
  button_change (vm_state m) (vm_state (fst (vsm_step c tick m i))) ->
  let m' := vsm_run c tick (fst (vsm_step c tick m i)) h in
  button_change (vm_state m') (vm_state (fst (vsm_step c tick m' j))) ->
  Exists (fun x => button x = Some false) h.
Proof.
  intros c tick m i h j HI B1 m' B2.
  destruct (Exists_dec (fun x => button x = Some false) h) as [Y|N]; auto.
  { intros x. destruct (button x) as [[]|]; (left; congruence) || (right; congruence). }
  exfalso. apply button_change_why in B1; auto. destruct B1 as (_ & _ & _ & P).
  assert (I' : inv m') by (apply run_inv; apply step_state).
  apply button_change_why in B2; auto. destruct B2 as (_ & _ & P2 & _).
  assert (vm_prevBtn m' = true); [|congruence].
  apply held_run; auto; [apply step_state|].
  apply Forall_Exists_neg in N. exact N.
Qed.

(** *** C12 *)
Lemma ready_samples_button : forall c tick m j b, vm_state m = StLvReady ->
  report c m j = FS_NoFault -> button j = Some b ->
  vm_prevBtn (fst (vsm_step c tick m j)) = b.
Proof.
  intros c tick m j b HS HR HB. rewrite step_prev, HR. unfold button in HB. handlers. rewrite HS.
  simpl. destruct (vi_live j) as [d|]; [|discriminate]. inversion HB; subst.
  destruct (_ && _); reflexivity.
Qed.

Lemma locked_keeps_prev : forall c tick m i, button i = None ->
  vm_prevBtn (fst (vsm_step c tick m i)) = vm_prevBtn m.
Proof.
  intros c tick m i HB. rewrite step_prev. unfold button in HB.
  destruct (vi_live i) eqn:L; [discriminate|]. handlers.
  destruct (vm_state m); destruct (report c m i); simpl; auto;
  destruct (_ >=? _); reflexivity.
Qed.

Lemma locked_run_prev : forall c tick w m, Forall (fun i => button i = None) w ->
  vm_prevBtn (vsm_run c tick m w) = vm_prevBtn m.
Proof.
  induction w as [|i w IH]; intros m H; simpl; auto. inversion H; subst.
  rewrite IH by auto. now apply locked_keeps_prev.
Qed.

Lemma hv_needs_edge : forall c tick m0 h j w i, vsm_init c tick = Some m0 ->
  vm_state (vsm_run c tick m0 h) = StLvReady ->
  report c (vsm_run c tick m0 h) j = FS_NoFault ->
  button j <> None ->
  Forall (fun x => button x = None) w ->
  vm_state (vsm_run c tick m0 (h ++ j :: w)) = StLvReady ->
  vm_state (vsm_run c tick m0 (h ++ j :: w ++ [i])) = StHvActive ->
  button j = Some false /\ button i = Some true.
Proof.
  intros c tick m0 h j w i Hi HS HR HJ HW HS2 HH.
  replace (h ++ j :: w ++ [i]) with ((h ++ j :: w) ++ [i]) in HH by (now rewrite <- app_assoc).
  rewrite run_snoc in HH. destruct (init_inv _ _ _ Hi) as (I0 & _).
  destruct (to_hv_active c tick (vsm_run c tick m0 (h ++ j :: w)) i) as (_ & _ & B & P); auto.
  { now apply run_inv. } { congruence. }
  split; auto. destruct (button j) as [b|] eqn:EB; [|congruence].
  rewrite run_mid, locked_run_prev, run_snoc in P by auto.
  rewrite (ready_samples_button c tick _ j b) in P by auto. now subst b.
Qed.

(** *** C07 from INIT *)
Lemma report_of_latched_word : forall c m j, classify (fm_faults (vm_fm m)) = FS_Fault ->
  vi_snap j <> None -> report c m j = FS_Fault.
Proof.
  intros c m j H Hj. unfold report. destruct (vi_snap j) as [d|]; [|congruence].
  rewrite fm_step_report. apply classify_fault. apply classify_fault in H. revert H.
  apply mask_keep. intros b. apply fm_step_keep.
Qed.

Lemma blind_run : forall c tick w m, inv m -> vm_state m = StLvStartup ->
  Forall (fun x => vi_snap x = None) w ->
  vm_state (vsm_run c tick m w) = StLvStartup /\ vm_fm (vsm_run c tick m w) = vm_fm m.
Proof.
  induction w as [|x w IH]; intros m HI HS HF; [auto|]. inversion HF; subst. cbn [vsm_run].
  assert (E : vm_state (fst (vsm_step c tick m x)) = StLvStartup).
  { rewrite (lv_error_step c tick m x HI); [now rewrite HS|]. unfold report. now rewrite H1. }
  destruct (IH _ (proj2 (step_state c tick m x)) E H2) as [A B]. split; [exact A|].
  rewrite B, step_fm, H1. reflexivity.
Qed.

Lemma init_fault_path : forall c tick m0 i w j,
  vsm_init c tick = Some m0 -> report c m0 i = FS_Fault ->
  Forall (fun x => vi_snap x = None) w -> vi_snap j <> None ->
  vm_state (vsm_run c tick m0 (i :: w)) = StLvStartup /\
  vm_state (vsm_run c tick m0 (i :: w ++ [j])) = StFault.
Proof.
  intros c tick m0 i w j Hi HR HW HJ. destruct (init_inv _ _ _ Hi) as (I & S & _).
  cbn [vsm_run]. assert (E := init_step c tick m0 i S).
  destruct (blind_run c tick w _ (proj2 (step_state c tick m0 i)) E HW) as [A B].
  split; [exact A|]. rewrite run_snoc. apply fault_report_step.
  - apply run_inv. apply step_state.
  - apply report_of_latched_word; auto. rewrite B, step_fm.
    unfold report in HR. destruct (vi_snap i) as [d|]; [|discriminate].
    now rewrite fm_step_report in HR.
  - congruence.
Qed.

(** ** C68 *)
Lemma ticks_nonneg : forall c tick m0 h, vsm_init c tick = Some m0 ->
  0 <= vm_ticks (vsm_run c tick m0 h).
Proof.
  intros c tick m0 h HI. destruct h as [|i h _] using rev_ind.
  - cbn [vsm_run]. destruct (init_inv _ _ _ HI) as (_ & _ & _ & ->). lia.
  - rewrite run_snoc. unfold vsm_step. destruct (fm_step _ _ _) as [fm f]. cbn [fst vm_ticks].
    destruct (negb _); [lia|]. unfold u32. apply Z.mod_pos_bound. reflexivity.
Qed.

Lemma held_ticks : forall c tick m0 h, vsm_init c tick = Some m0 ->
  exists w, held c tick m0 h w (vm_state (vsm_run c tick m0 h)) /\
    vm_ticks (vsm_run c tick m0 h) <= Z.of_nat (length w).
Proof.
  intros c tick m0 h HI. induction h as [|i h IH] using rev_ind.
  - exists []. split.
    + exists []. split; auto. intros a b E. symmetry in E. apply app_eq_nil in E. now destruct E as [-> _].
    + cbn [vsm_run length]. destruct (init_inv _ _ _ HI) as (_ & _ & _ & ->). lia.
  - destruct IH as (w & (h1 & -> & A) & T).
    set (m := vsm_run c tick m0 (h1 ++ w)) in *.
    destruct (vsm_st_eqb (vm_state m) (vm_state (vsm_run c tick m0 ((h1 ++ w) ++ [i])))) eqn:Q.
    + apply eqb_st in Q. exists (w ++ [i]). split.
      * exists h1. split; [now rewrite app_assoc|]. intros a b E.
        destruct b as [|x b] using rev_ind.
        { rewrite app_nil_r in E. subst a. now rewrite app_assoc. }
        { rewrite app_assoc in E. apply app_inj_tail in E. destruct E as [E _].
          rewrite (A a b E). exact Q. }
      * rewrite run_snoc in *. fold m in Q |- *. rewrite app_length. cbn [length].
        unfold vsm_step in *. destruct (fm_step c (vm_fm m) (vi_snap i)) as [fm f].
        cbn [fst vm_ticks vm_state] in *.
        destruct (vsm_st_eqb (vm_state m) (h_next (vsm_handle c tick m f (vi_live i)))) eqn:Q2;
          cbn [negb] in *; [|lia].
        unfold u32. pose proof (Z.mod_le (vm_ticks m + 1) 4294967296).
        assert (0 <= vm_ticks m) by (apply ticks_nonneg; exact HI). lia.
    + exists []. split.
      * exists ((h1 ++ w) ++ [i]). split; [now rewrite app_nil_r|]. intros a b E.
        symmetry in E. apply app_eq_nil in E. destruct E as [-> _]. now rewrite app_nil_r.
      * rewrite run_snoc in *. fold m in Q |- *.
        unfold vsm_step in *. destruct (fm_step c (vm_fm m) (vi_snap i)) as [fm f].
        cbn [fst vm_ticks vm_state] in *.
        destruct (vsm_st_eqb (vm_state m) (h_next (vsm_handle c tick m f (vi_live i)))) eqn:Q2;
          cbn [negb length] in *; [|lia].
        apply eqb_st_false in Q. congruence.
Qed.

Lemma into_fault : forall c tick m0 h i, vsm_init c tick = Some m0 -> 0 <= tick ->
  vm_state (vsm_run c tick m0 h) <> StFault ->
  vm_state (vsm_run c tick m0 (h ++ [i])) = StFault -> fault_cause c tick m0 h i.
Proof.
  intros c tick m0 h i HI T0 NF F. unfold fault_cause, report. cbv zeta.
  rewrite run_snoc in F. pose proof (run_init_inv c tick m0 h HI) as IV.
  destruct (held_ticks c tick m0 h HI) as (w & HW & TW).
  set (m := vsm_run c tick m0 h) in *. unfold inv in IV.
  unfold vsm_step in F. destruct (fm_step c (vm_fm m) (vi_snap i)) as [fm f].
  cbn [fst snd vm_state] in *.
  assert (N : h_next (vsm_handle c tick m f (vi_live i)) = StFault).
  { destruct (vsm_st_eqb (vm_state m) (h_next (vsm_handle c tick m f (vi_live i)))) eqn:Q;
      cbn [negb] in F; congruence. }
  clear F. revert N. handlers.
  destruct (vm_state m) eqn:ES; try congruence; try discriminate; destruct f; cbn [is_no_fault h_next];
    rewrite ?IV; try congruence; try discriminate;
    try (intros _; left; split; [reflexivity|discriminate]);
    try (intros _; right; left; repeat split; discriminate);
    try (destruct (stateMs tick m >=? cf_hvActiveStateWait c); cbn [h_next]; rewrite ?IV;
         discriminate);
    try (destruct (vi_live i) as [d|]; cbn [h_next]; rewrite ?IV; try discriminate;
         try (destruct (d_buttonPressed (vs_dash d) && negb (vm_prevBtn m)); cbn [h_next];
              rewrite ?IV; discriminate)).
  - destruct (v_vsmState (vs_inverter d) =? INV_VSM_READY) eqn:R; cbn [h_next]; [discriminate|].
    destruct (stateMs tick m >? cf_hvChargeTimeout c) eqn:TO; cbn [h_next]; rewrite ?IV; [|discriminate].
    intros _. right. right. exists d, w. split; [reflexivity|]. split; [lia|]. split; [exact HW|].
    rewrite Z.gtb_ltb in TO. apply Z.ltb_lt in TO. unfold stateMs, u32 in TO.
    assert (0 <= vm_ticks m) by (apply ticks_nonneg; exact HI).
    assert (0 <= tick * vm_ticks m) by nia.
    pose proof (Z.mod_le (tick * vm_ticks m) 4294967296). nia.
Qed.

Lemma unreadable_stays : forall c tick m0 h i, vsm_init c tick = Some m0 ->
  report c (vsm_run c tick m0 h) i = FS_NoFault -> vi_live i = None ->
  let before := vm_state (vsm_run c tick m0 h) in
  before <> StInit -> before <> StLvStartup -> before <> StHvActive ->
  vm_state (vsm_run c tick m0 (h ++ [i])) = before.
Proof.
  intros c tick m0 h i HI R L before N1 N2 N3. subst before. rewrite run_snoc.
  pose proof (run_init_inv c tick m0 h HI) as IV. set (m := vsm_run c tick m0 h) in *.
  unfold report in R. unfold vsm_step. destruct (fm_step c (vm_fm m) (vi_snap i)) as [fm f].
  cbn [fst snd vm_state] in *. subst f. rewrite L.
  assert (Q : h_next (vsm_handle c tick m FS_NoFault None) = vm_state m).
  { handlers. unfold inv in IV. destruct (vm_state m) eqn:ES; cbn [is_no_fault h_next]; congruence. }
  rewrite Q. replace (vsm_st_eqb (vm_state m) (vm_state m)) with true; [reflexivity|].
  symmetry. now apply eqb_st.
Qed.
