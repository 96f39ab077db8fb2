From Verif.Base Require Import Words.
From Verif.Model Require Import RealTime.
From Verif.Spec Require Import FaultSpec VsmSpec EcuSpec RealTimeSpec.
From Verif.Proof Require Import FaultProof VsmProof EcuProof.
From Coq Require Import ZifyBool ZifyNat Floats.SpecFloat.

Lemma rt_run_app : forall c tick m0 a b,
  rt_run c tick m0 (a ++ b) = fold_left (rt_step c tick) b (rt_run c tick m0 a).
Proof. intros. unfold rt_run. now rewrite fold_left_app. Qed.

Lemma run_from : forall c tick m0 a b d, rt_run c tick m0 a = d ->
  rt_run c tick m0 (a ++ b) = fold_left (rt_step c tick) b d.
Proof. intros. subst. apply rt_run_app. Qed.

Lemma ticks_app : forall a b, ticks_in (a ++ b) = ticks_in a + ticks_in b.
Proof. induction a as [|[|e] t IH]; intros b; cbn [ticks_in app]; rewrite ?IH; lia. Qed.

Lemma ticks_nonneg : forall a, 0 <= ticks_in a.
Proof. induction a as [|[|e] t IH]; cbn [ticks_in]; lia. Qed.

Lemma keeps_up_app : forall c tick a b x,
  keeps_up c tick x (a ++ b) <->
  keeps_up c tick x a /\ keeps_up c tick (fold_left (rt_step c tick) a x) b.
Proof.
  induction a as [|ev a IH]; intros b x; cbn [keeps_up app fold_left]; [tauto|].
  rewrite IH. tauto.
Qed.

Lemma first_tick : forall b, 1 <= ticks_in b ->
  exists b0 b1, b = b0 ++ RtTick :: b1 /\ ticks_in b0 = 0.
Proof.
  induction b as [|[|e] b IH]; cbn [ticks_in]; intros H; [lia|exists [], b; auto|].
  destruct (IH H) as (b0 & b1 & -> & Z). exists (RtEcu e :: b0), b1. auto.
Qed.

(** ** One event *)
Lemma rt_ecu_or : forall c tick x e,
  rt_step c tick x (RtEcu e) = x \/
  rt_ecu (rt_step c tick x (RtEcu e)) = ecu_step c tick (rt_ecu x) e.
Proof.
  intros c tick x e. destruct e; cbn [rt_step]; auto.
  - destruct (e_pend (rt_ecu x)); auto. destruct (rt_nv x =? 0); auto.
  - destruct (e_tpc (rt_ecu x)); auto. destruct (rt_nt x =? 0); auto.
Qed.

Lemma rt_other : forall c tick x e, is_vsm e = false ->
  frame_eq (rt_ecu x) (rt_ecu (rt_step c tick x (RtEcu e))) /\
  rt_nv (rt_step c tick x (RtEcu e)) = rt_nv x /\
  (is_pc e = false -> e_pin (rt_ecu (rt_step c tick x (RtEcu e))) = e_pin (rt_ecu x)).
Proof.
  intros c tick x e H.
  assert (N : rt_nv (rt_step c tick x (RtEcu e)) = rt_nv x).
  { destruct e; try discriminate; cbn [rt_step]; auto.
    destruct (e_tpc (rt_ecu x)); auto. destruct (rt_nt x =? 0); auto. }
  destruct (rt_ecu_or c tick x e) as [E|E].
  - rewrite E. unfold frame_eq. auto 10.
  - rewrite E. split; [now apply non_vsm_frame|]. split; [exact N|]. now apply non_pc_pin.
Qed.

(** ** The machine is always some history of control steps *)
Definition hist (c : config) (tick : Z) (m : vsm) (e : ecu) : Prop :=
  exists h, e_vsm e = vsm_run c tick m h /\
    forall cmds m', e_pend e = Some (cmds, m') -> exists i, m' = fst (vsm_step c tick (e_vsm e) i).

Lemma hist_step : forall c tick m e ev, hist c tick m e -> hist c tick m (ecu_step c tick e ev).
Proof.
  intros c tick m e ev (h & V & P).
  destruct (is_vsm ev) eqn:IV.
  - destruct ev; try discriminate; cbn [ecu_step].
    + destruct (e_pend e) as [p|] eqn:E; [exists h; rewrite E; auto|].
      destruct (vsm_step c tick (e_vsm e) i) as [m1 cmds] eqn:S.
      exists h. cbn [e_vsm e_pend]. split; [exact V|]. intros cs m' Q. inversion Q; subst.
      exists i. now rewrite S.
    + destruct (e_pend e) as [[[|cmd rest] m']|] eqn:E; [| |exists h; rewrite E; auto].
      * destruct (P _ _ eq_refl) as (i & ->). exists (h ++ [i]). cbn [ecu_commit e_vsm e_pend].
        split; [now rewrite run_snoc, <- V|]. intros; discriminate.
      * destruct (P _ _ eq_refl) as (i & ->). exists h.
        destruct cmd; cbn [ecu_call e_vsm e_pend]; (split; [exact V|]);
          intros cs m' Q; inversion Q; subst; eauto.
  - destruct (non_vsm_frame c tick e ev IV) as (A & B & _). exists h. rewrite A, B. auto.
Qed.

Lemma hist_rt : forall c tick m tr x, hist c tick m (rt_ecu x) ->
  hist c tick m (rt_ecu (fold_left (rt_step c tick) tr x)).
Proof.
  induction tr as [|ev tr IH]; intros x H; cbn [fold_left]; auto. apply IH.
  destruct ev as [|e]; [exact H|].
  destruct (rt_ecu_or c tick x e) as [E|E]; rewrite E; auto. now apply hist_step.
Qed.

Lemma hist_refl : forall c tick e,
  (forall cmds m', e_pend e = Some (cmds, m') -> exists i, m' = fst (vsm_step c tick (e_vsm e) i)) ->
  hist c tick (e_vsm e) e.
Proof. intros c tick e H. exists []. auto. Qed.

Lemma hist_init : forall c tick m0, hist c tick m0 (rt_ecu (rt_init m0)).
Proof. intros. exists []. split; [reflexivity|]. intros; discriminate. Qed.

Lemma never_back : forall c tick h m, inv m -> vm_state m <> StInit ->
  vm_state (vsm_run c tick m h) <> StInit.
Proof.
  induction h as [|i h IH]; intros m I N; cbn [vsm_run]; auto. apply IH; [apply step_state|].
  intros E. assert (D : diagram (vm_state m) (vm_state (fst (vsm_step c tick m i)))).
  { apply step_diagram; auto. congruence. }
  rewrite E in D. inversion D.
Qed.

(** ** FAULT is reached after enough bad snapshots *)
Lemma fm_of_run : forall c tick m0 h, vsm_init c tick = Some m0 ->
  exists s, fm_init c tick = Some s /\
    vm_fm (vsm_run c tick m0 h) = fst (fm_run c s (map vi_snap h)).
Proof.
  intros c tick m0 h H. unfold vsm_init in H. destruct (fm_init c tick) as [s|]; [|discriminate].
  exists s. split; [reflexivity|]. inversion H; subst. clear H.
  induction h as [|i h IH] using rev_ind; [reflexivity|].
  rewrite run_snoc, step_fm, IH, map_app, fm_run_app. cbn [map]. now rewrite fm_run_one.
Qed.

Lemma bad_snaps : forall c k w, Forall (shows c k) w ->
  length (evaluated (map vi_snap w)) = length w /\
  forallb (fault_cond c k) (evaluated (map vi_snap w)) = true.
Proof.
  induction 1 as [|i w (d & S & F) _ (L & A)]; [auto|].
  cbn [map]. rewrite S. cbn [evaluated length forallb]. rewrite F, L. auto.
Qed.

Lemma reaches_fault : forall c tick m0 h w k, cfg_ok c tick -> tol_small c tick ->
  vsm_init c tick = Some m0 -> vm_state (vsm_run c tick m0 h) <> StInit ->
  Forall (shows c k) w -> 0 <= tolerance c tick k ->
  tolerance c tick k + 1 <= Z.of_nat (length w) ->
  vm_state (vsm_run c tick (vsm_run c tick m0 h) w) = StFault.
Proof.
  intros c tick m0 h w k Hc HT Hi NI HW T0 HL.
  set (n := Z.to_nat (tolerance c tick k)).
  assert (SP : exists w1 i w2, w = w1 ++ i :: w2 /\ length w1 = n).
  { exists (firstn n w). destruct (skipn n w) as [|i w2] eqn:E.
    - apply (f_equal (@length _)) in E. rewrite skipn_length in E. cbn [length] in E. lia.
    - exists i, w2. split; [now rewrite <- E, firstn_skipn|]. rewrite firstn_length. lia. }
  destruct SP as (w1 & i & w2 & -> & L1).
  apply Forall_app in HW. destruct HW as (H1 & H2). inversion H2 as [|? ? (d & SD & FD) H3]; subst.
  rewrite run_mid. apply fault_stays.
  { apply run_inv, run_inv, (init_inv c tick _ Hi). }
  rewrite <- run_app. rewrite app_assoc, run_snoc. apply fault_report_step.
  - apply run_init_inv; auto.
  - unfold report. rewrite SD.
    destruct (fm_of_run c tick m0 (h ++ w1) Hi) as (s & Fi & ->).
    apply (proj1 (report_exact c tick s (map vi_snap (h ++ w1)) d Hc HT Fi)).
    exists k. rewrite map_app, evaluated_app.
    destruct (bad_snaps c k w1 H1) as (Lb & Ab).
    exists (evaluated (map vi_snap h)), (evaluated (map vi_snap w1) ++ [d]), [].
    split; [now rewrite app_nil_r, <- app_assoc|]. split.
    + rewrite app_length, Lb. cbn [length]. lia.
    + rewrite forallb_app, Ab. cbn [forallb]. now rewrite FD.
  - rewrite run_app. apply never_back; auto. apply run_init_inv; auto.
Qed.

(** ** FAULT with the drive stopped *)
Definition tail3 (cmds : list vsm_cmd) : Prop :=
  cmds = [CmdMotorDirection DIR_FORWARD; CmdTorqueEnabled false; CmdEcuError true] \/
  cmds = [CmdTorqueEnabled false; CmdEcuError true] \/ cmds = [CmdEcuError true] \/ cmds = [].

Record stopped (np : Prop) (e : ecu) : Prop := mkStopped {
  st_inv : inv (e_vsm e);
  st_fault : vm_state (e_vsm e) = StFault;
  st_off : th_enabled (e_thr e) = false;
  st_unloaded : loaded (e_tpc e) = false;
  st_pin : np -> e_pin e = true;
  st_pend : forall cmds m', e_pend e = Some (cmds, m') ->
              tail3 cmds /\ inv m' /\ vm_state m' = StFault }.

Lemma stopped_step : forall (np : Prop) c tick e ev, (np -> is_pc ev = false) -> stopped np e ->
  stopped np (ecu_step c tick e ev).
Proof.
  intros np c tick e ev NP [I F O U P D].
  assert (UL : loaded (e_tpc (ecu_step c tick e ev)) = false).
  { destruct (loaded (e_tpc (ecu_step c tick e ev))) eqn:L; auto.
    destruct (loaded_after _ _ _ _ L) as [Q|(_ & Q & _)]; congruence. }
  destruct (is_vsm ev) eqn:IV.
  - destruct ev as [i|tl il ok1 ok2| | | | | |]; try discriminate.
    + cbn [ecu_step] in *. destruct (e_pend e) as [p|] eqn:E; [constructor; auto; rewrite E; auto|].
      assert (C3 := fault_cmds c tick (e_vsm e) i F).
      assert (S1 := fault_stays_step c tick (e_vsm e) i I F).
      assert (I1 := proj2 (step_state c tick (e_vsm e) i)).
      destruct (vsm_step c tick (e_vsm e) i) as [m1 cmds] eqn:S. cbn [fst snd] in *.
      constructor; cbn [e_vsm e_thr e_tpc e_pin e_pend]; auto.
      intros cs m' Q. inversion Q; subst. unfold tail3. auto.
    + cbn [ecu_step] in *.
      destruct (e_pend e) as [[cmds m']|] eqn:E; [|constructor; auto; rewrite E; auto].
      destruct (D _ _ eq_refl) as (T & I' & F'). unfold tail3 in T.
      destruct T as [->|[->|[->| ->]]].
      * constructor; cbn [ecu_call e_vsm e_thr e_tpc e_pin e_pend]; auto.
        -- unfold SetMotorDirection. destruct tl; cbn; auto.
        -- intros cs m1 Q. inversion Q; subst. unfold tail3. auto.
      * constructor; cbn [ecu_call e_vsm e_thr e_tpc e_pin e_pend]; auto.
        -- unfold SetTorqueEnabled. destruct tl; cbn; auto.
        -- intros cs m1 Q. inversion Q; subst. unfold tail3. auto.
      * constructor; cbn [ecu_call e_vsm e_thr e_tpc e_pin e_pend]; auto.
        intros cs m1 Q. inversion Q; subst. unfold tail3. auto.
      * constructor; cbn [ecu_commit e_vsm e_thr e_tpc e_pin e_pend]; auto.
        intros; discriminate.
  - destruct (non_vsm_frame c tick e ev IV) as (A & B & C & _).
    constructor; rewrite ?A, ?B, ?C; auto.
    intros n. rewrite non_pc_pin; auto.
Qed.

(** ** Between two ticks *)

(** Progress of a control step made in FAULT. *)
Definition fprog (np : Prop) (cmds : list vsm_cmd) (e : ecu) : Prop :=
  cmds = [CmdMotorDirection DIR_FORWARD; CmdTorqueEnabled false; CmdEcuError true] \/
  cmds = [CmdTorqueEnabled false; CmdEcuError true] \/
  (cmds = [CmdEcuError true] /\ th_enabled (e_thr e) = false) \/
  (cmds = [] /\ th_enabled (e_thr e) = false /\ (np -> e_pin e = true)).

Section Period.
  Variables (c : config) (tick : Z) (m : vsm) (P : vsm_in -> Prop) (np : Prop).
  Let R := vsm_run c tick m.

  Inductive period (j : Z) (y : timed) : Prop :=
  | PA hs : Forall P hs -> 1 + Z.of_nat (length hs) = j -> e_vsm (rt_ecu y) = R hs ->
      rt_nv y = 1 -> e_pend (rt_ecu y) = None -> period j y
  | PB hs i cmds : Forall P hs -> 1 + Z.of_nat (length hs) = j -> e_vsm (rt_ecu y) = R hs ->
      rt_nv y = 0 -> P i -> e_pend (rt_ecu y) = Some (cmds, fst (vsm_step c tick (R hs) i)) ->
      (vm_state (R hs) = StFault -> fprog np cmds (rt_ecu y)) -> period j y
  | PC hs : Forall P hs -> Z.of_nat (length hs) = j -> e_vsm (rt_ecu y) = R hs ->
      rt_nv y = 0 -> e_pend (rt_ecu y) = None ->
      (forall hs' i, hs = hs' ++ [i] -> vm_state (R hs') = StFault ->
         th_enabled (e_thr (rt_ecu y)) = false /\ (np -> e_pin (rt_ecu y) = true)) ->
      period j y.

  Lemma period_tick : forall j y, idle y -> period j y -> period (j + 1) (rt_step c tick y RtTick).
  Proof.
    intros j y (I1 & I2 & I3 & I4) H.
    destruct H as [hs F L V N E|hs i cmds F L V N Pi E Q|hs F L V N E Q]; try congruence; try lia.
    apply PA with hs; cbn [rt_step rt_ecu rt_nv]; auto; try lia. now rewrite N.
  Qed.

  Lemma period_event : forall j y e, (np -> is_pc e = false) -> waits e -> sees P (RtEcu e) ->
    period j y -> period j (rt_step c tick y (RtEcu e)).
  Proof.
    intros j y e NP W SE H. destruct (is_vsm e) eqn:IV.
    - destruct e as [i|tl il ok1 ok2| | | | | |]; try discriminate.
      + cbn [rt_step]. destruct H as [hs F L V N E|hs i' cmds F L V N Pi E Q|hs F L V N E Q].
        * rewrite E, N. cbn [Z.eqb]. 
          assert (C3 := fault_cmds c tick (R hs) i).
          apply PB with hs i (snd (vsm_step c tick (R hs) i));
            cbn [rt_ecu rt_nv ecu_step]; rewrite ?E, ?V;
            destruct (vsm_step c tick (R hs) i) as [m1 cmds]; cbn [fst snd e_vsm e_pend] in *; auto.
          intros SF. rewrite (C3 SF). now left.
        * rewrite E. now apply PB with hs i' cmds.
        * rewrite E, N. cbn [Z.eqb]. now apply PC with hs.
      + cbn [rt_step ecu_step]. cbn [waits] in W. subst tl.
        destruct H as [hs F L V N E|hs i' cmds F L V N Pi E Q|hs F L V N E Q].
        * rewrite E. now apply PA with hs.
        * rewrite E. destruct cmds as [|cmd rest].
          -- apply PC with (hs ++ [i']); cbn [rt_ecu rt_nv ecu_commit e_vsm e_pend e_thr e_pin]; auto.
             ++ apply Forall_app. auto.
             ++ rewrite app_length. cbn [length]. lia.
             ++ unfold R. now rewrite run_snoc.
             ++ intros hs' i EQ SF. apply app_inj_tail in EQ. destruct EQ as (<- & <-).
                destruct (Q SF) as [X|[X|[(X & _)|(_ & X)]]]; try discriminate. exact X.
          -- apply PB with hs i' rest; cbn [rt_ecu rt_nv]; auto.
             ++ destruct cmd; cbn [ecu_call e_vsm]; auto.
             ++ destruct cmd; cbn [ecu_call e_pend]; auto.
             ++ intros SF. unfold fprog.
                destruct (Q SF) as [X|[X|[(X & X')|(X & _)]]]; inversion X; subst;
                  cbn [ecu_call e_thr e_pin]; auto.
                right. right. right. auto.
        * rewrite E. now apply PC with hs.
    - destruct (rt_other c tick y e IV) as ((A & B & C & _) & N' & PN).
      destruct H as [hs F L V N E|hs i cmds F L V N Pi E Q|hs F L V N E Q].
      + apply PA with hs; rewrite ?A, ?B, ?N'; auto.
      + apply PB with hs i cmds; rewrite ?A, ?B, ?N'; auto.
        intros SF. unfold fprog. rewrite C.
        destruct (Q SF) as [X|[X|[X|(X & Y & Z)]]]; auto.
        right. right. right. split; [auto|]. split; [auto|]. intros n. rewrite PN; auto.
      + apply PC with hs; rewrite ?A, ?B, ?C, ?N'; auto.
        intros hs' i EQ SF. destruct (Q hs' i EQ SF) as (Y & Z). split; [auto|].
        intros n. rewrite PN; auto.
  Qed.

  Lemma period_run : forall b x, idle x -> e_vsm (rt_ecu x) = m ->
    keeps_up c tick x b -> Forall rt_waits b -> Forall (sees P) b -> (np -> Forall no_pc b) ->
    period (ticks_in b) (fold_left (rt_step c tick) b x).
  Proof.
    intros b x ID V. induction b as [|ev b IH] using rev_ind; intros K W S NP.
    - cbn [ticks_in fold_left]. destruct ID as (I1 & I2 & I3 & I4).
      apply PC with []; auto. intros hs' i E. now destruct hs'.
    - rewrite ticks_app, fold_left_app. cbn [fold_left].
      apply keeps_up_app in K. destruct K as (K & K').
      apply Forall_app in W. destruct W as (W & W'). apply Forall_app in S. destruct S as (S & S').
      assert (NPa : np -> Forall no_pc b) by (intros n; now apply Forall_app in NP).
      specialize (IH K W S NPa).
      inversion W'; subst. inversion S'; subst.
      destruct ev as [|e]; cbn [ticks_in].
      + replace (ticks_in b + (1 + 0)) with (ticks_in b + 1) by lia.
        apply period_tick; auto. apply K'.
      + rewrite Z.add_0_r. apply period_event; auto.
        intros n. specialize (NP n). apply Forall_app in NP. destruct NP as (_ & NP).
        now inversion NP.
  Qed.
End Period.

(** ** The two main results *)
Lemma one_step_per_tick : forall c tick m0 tr,
  keeps_up c tick (rt_init m0) tr -> Forall rt_waits tr -> idle (rt_run c tick m0 tr) ->
  exists h, Z.of_nat (length h) = ticks_in tr /\
    e_vsm (rt_ecu (rt_run c tick m0 tr)) = vsm_run c tick m0 h /\
    Forall (fun i => In (RtEcu (EvVsm i)) tr) h.
Proof.
  intros c tick m0 tr K W ID.
  assert (H : period c tick m0 (fun i => In (RtEcu (EvVsm i)) tr) False (ticks_in tr)
                (rt_run c tick m0 tr)).
  { apply period_run; auto; [|apply Forall_forall|easy].
    - unfold idle, rt_init. cbn. auto.
    - intros ev IN. unfold sees. destruct ev as [|[]]; auto. }
  destruct ID as (I1 & I2 & I3 & I4).
  destruct H as [hs F L V N E|hs i cmds F L V N Pi E Q|hs F L V N E Q]; try congruence; try lia.
  exists hs. auto.
Qed.

Lemma stopped_run : forall (np : Prop) c tick b x, (np -> Forall no_pc b) -> stopped np (rt_ecu x) ->
  stopped np (rt_ecu (fold_left (rt_step c tick) b x)).
Proof.
  intros np c tick. induction b as [|ev b IH]; intros x NP S; cbn [fold_left]; auto.
  apply IH; [intros n; specialize (NP n); now inversion NP|].
  destruct ev as [|e]; [exact S|].
  destruct (rt_ecu_or c tick x e) as [E|E]; rewrite E; auto. apply stopped_step; auto.
  intros n. specialize (NP n). now inversion NP.
Qed.

Lemma split_ticks : forall b n, 0 <= n < ticks_in b ->
  exists b0 b1, b = b0 ++ RtTick :: b1 /\ ticks_in b0 = n.
Proof.
  induction b as [|[|e] b IH]; cbn [ticks_in]; intros n H; [lia| |].
  - destruct (Z.eq_dec n 0) as [->|N]; [exists [], b; auto|].
    destruct (IH (n - 1)) as (b0 & b1 & -> & Z); [lia|].
    exists (RtTick :: b0), b1. cbn [ticks_in]. split; [auto|lia].
  - destruct (IH n H) as (b0 & b1 & -> & Z). exists (RtEcu e :: b0), b1. auto.
Qed.

Lemma reaction_from : forall (np : Prop) c tick m0 x b k, cfg_ok c tick -> tol_small c tick ->
  vsm_init c tick = Some m0 ->
  hist c tick m0 (rt_ecu x) -> vm_state (e_vsm (rt_ecu x)) <> StInit ->
  keeps_up c tick x b -> Forall rt_waits b -> Forall (sees (shows c k)) b ->
  0 <= tolerance c tick k -> tolerance c tick k + 3 <= ticks_in b -> (np -> Forall no_pc b) ->
  stopped np (rt_ecu (fold_left (rt_step c tick) b x)).
Proof.
  intros np c tick m0 x b k Hc HT Hi HX0 NI K W S T0 HL NP.
  set (n := tolerance c tick k) in *.
  destruct (split_ticks b 0) as (b0 & b1 & -> & Z0); [lia|].
  (* the last tick that matters *)
  destruct (split_ticks (RtTick :: b1) (n + 2)) as (w & z & Ew & Zw).
  { rewrite ticks_app, Z0 in HL. lia. }
  destruct w as [|ev w]; [cbn [ticks_in] in Zw; lia|].
  inversion Ew; subst ev b1. change (RtTick :: w ++ RtTick :: z) with ((RtTick :: w) ++ RtTick :: z) in *.
  clear Ew.
  rewrite !fold_left_app. cbn [fold_left].
  apply keeps_up_app in K. destruct K as (_ & K).
  apply keeps_up_app in K. destruct K as (K & K'). cbn [keeps_up] in K'. destruct K' as (ID2 & _).
  apply Forall_app in W. destruct W as (_ & W). apply Forall_app in W. destruct W as (W & _).
  apply Forall_app in S. destruct S as (_ & S). apply Forall_app in S. destruct S as (S & _).
  set (x1 := fold_left (rt_step c tick) b0 x) in *.
  assert (NPw : np -> Forall no_pc (RtTick :: w)).
  { intros q. specialize (NP q). apply Forall_app in NP. destruct NP as (_ & NP).
    now apply Forall_app in NP. }
  assert (NPz : np -> Forall no_pc z).
  { intros q. specialize (NP q). apply Forall_app in NP. destruct NP as (_ & NP).
    apply Forall_app in NP. destruct NP as (_ & NP). now inversion NP. }
  (* w begins with the first tick *)
  assert (HX : hist c tick (e_vsm (rt_ecu x)) (rt_ecu x1)).
  { apply hist_rt. apply hist_refl.
    destruct HX0 as (h & _ & Q). exact Q. }
  destruct HX0 as (ha & Va & _). destruct HX as (hb & Vb & _). rewrite Va in Vb, NI.
  rewrite <- run_app in Vb.
  apply stopped_run; auto. cbn [rt_step rt_ecu].
  assert (ID1 : idle x1) by apply K.
  assert (H := period_run c tick _ (shows c k) np (RtTick :: w) x1 ID1 Vb K W S NPw).
  rewrite Zw in H. set (y := fold_left (rt_step c tick) (RtTick :: w) x1) in *.
  destruct ID2 as (I1 & I2 & I3 & I4).
  destruct H as [hs F L V N E|hs i cmds F L V N Pi E Q|hs F L V N E Q]; try congruence; try lia.
  assert (NI' : vm_state (vsm_run c tick m0 (ha ++ hb)) <> StInit).
  { rewrite run_app. apply never_back; auto. now apply run_init_inv. }
  destruct (rev_ind (fun hs => hs = [] \/ exists h1 i, hs = h1 ++ [i])
              (or_introl eq_refl)
              (fun i l _ => or_intror (ex_intro _ l (ex_intro _ i eq_refl))) hs) as [->|(h1 & i & ->)].
  { cbn [length] in L. lia. }
  rewrite app_length in L. cbn [length] in L.
  assert (F1 : Forall (shows c k) h1) by (apply Forall_app in F; apply F).
  assert (SF : vm_state (vsm_run c tick (vsm_run c tick m0 (ha ++ hb)) h1) = StFault).
  { apply (reaches_fault c tick m0 (ha ++ hb) h1 k); auto. fold n. lia. }
  destruct (Q h1 i eq_refl SF) as (O & PI).
  change (stopped np (rt_ecu y)). constructor; auto.
  - rewrite V. apply run_inv, run_init_inv; auto.
  - rewrite V, run_app. apply fault_stays; auto. apply run_inv, run_init_inv; auto.
  - now rewrite I2.
  - intros cs m' X. congruence.
Qed.

Lemma reaction : forall (np : Prop) c tick m0 a b k, cfg_ok c tick -> tol_small c tick ->
  vsm_init c tick = Some m0 ->
  vm_state (e_vsm (rt_ecu (rt_run c tick m0 a))) <> StInit ->
  keeps_up c tick (rt_run c tick m0 a) b -> Forall rt_waits b -> Forall (sees (shows c k)) b ->
  0 <= tolerance c tick k -> tolerance c tick k + 3 <= ticks_in b -> (np -> Forall no_pc b) ->
  stopped np (rt_ecu (rt_run c tick m0 (a ++ b))).
Proof.
  intros np c tick m0 a b k Hc HT Hi NI K W S T0 HL NP. rewrite rt_run_app.
  apply (reaction_from np c tick m0 _ b k); auto.
  apply hist_rt, hist_init.
Qed.

(** No torque request from a stopped ECU. *)
Lemma stopped_silent : forall (np : Prop) c tick x ev t, stopped np (rt_ecu x) ->
  rt_sends c tick x ev t -> asks_torque t = false.
Proof.
  intros np c tick x ev t S (l & E & IN).
  assert (NIL : forall y, e_sent y = e_sent y ++ l -> asks_torque t = false).
  { intros y Q. rewrite <- (app_nil_r (e_sent y)) in Q at 1. apply app_inv_head in Q. subst l.
    destruct IN. }
  destruct ev as [|e]; [cbn [rt_step rt_ecu] in E; eauto|].
  destruct (rt_ecu_or c tick x e) as [Q|Q]; rewrite Q in E; [eauto|].
  destruct (frames_added c tick (rt_ecu x) e) as (l' & E' & _ & F).
  rewrite E in E'. apply app_inv_head in E'. subst l'.
  destruct (asks_torque t) eqn:A; auto.
  destruct (F t IN A) as (L & _). rewrite (st_unloaded _ _ S) in L. discriminate.
Qed.

(** ** Collapsing ticks *)
Lemma ticks_repeat : forall c tick q x, 0 <= rt_nv x -> 0 <= rt_nt x ->
  rt_nv x + Z.of_nat q < 4294967296 -> rt_nt x + Z.of_nat q < 4294967296 ->
  fold_left (rt_step c tick) (repeat RtTick q) x =
  mkTimed (rt_ecu x) (rt_nv x + Z.of_nat q) (rt_nt x + Z.of_nat q).
Proof.
  induction q as [|q IH]; intros x A B C D; cbn [repeat fold_left].
  - rewrite !Z.add_0_r. now destruct x.
  - rewrite IH; cbn [rt_step rt_ecu rt_nv rt_nt]; unfold u32; rewrite ?Z.mod_small by lia; try lia.
    f_equal; lia.
Qed.

(** Both tasks start, in either order, after [q] ticks. *)
Lemma collapse : forall c tick q x live i, idle x -> 1 <= Z.of_nat q < 4294967296 ->
  let start := [RtEcu (EvPedal live); RtEcu (EvVsm i)] in
  fold_left (rt_step c tick) (repeat RtTick q ++ start) x =
  fold_left (rt_step c tick) (RtTick :: start) x.
Proof.
  intros c tick q x live i (A & B & C & D) Q start. rewrite fold_left_app.
  rewrite ticks_repeat by lia. subst start. cbn [fold_left rt_step rt_ecu rt_nv rt_nt].
  rewrite B, C, D. rewrite !Z.add_0_l.
  replace (Z.of_nat q =? 0) with false by lia. replace (u32 1 =? 0) with false by reflexivity.
  cbn [rt_ecu rt_nv rt_nt].
  assert (P : e_pend (ecu_step c tick (rt_ecu x) (EvPedal live)) = None).
  { destruct (non_vsm_frame c tick (rt_ecu x) (EvPedal live) eq_refl) as (_ & P & _). now rewrite P. }
  rewrite P. replace (Z.of_nat q =? 0) with false by lia.
  now replace (u32 1 =? 0) with false by reflexivity.
Qed.

(** A period of [q] ticks in which both tasks are woken once. *)
Definition slow (q : nat) (live : option vstate) (i : vsm_in) (rest : list rt_event) :=
  repeat RtTick q ++ [RtEcu (EvPedal live); RtEcu (EvVsm i)] ++ rest.

Lemma slow_one : forall c tick q x live i rest, idle x -> 1 <= Z.of_nat q < 4294967296 ->
  fold_left (rt_step c tick) (slow q live i rest) x =
  fold_left (rt_step c tick) (slow 1 live i rest) x.
Proof.
  intros. unfold slow. rewrite !app_assoc, !(fold_left_app _ _ rest).
  rewrite (collapse c tick q); auto.
Qed.

Lemma slow_many : forall c tick q live i rest n x, 1 <= Z.of_nat q < 4294967296 ->
  keeps_up c tick x (concat (repeat (slow 1 live i rest) n)) ->
  fold_left (rt_step c tick) (concat (repeat (slow q live i rest) n)) x =
  fold_left (rt_step c tick) (concat (repeat (slow 1 live i rest) n)) x.
Proof.
  induction n as [|n IH]; intros x Q K; cbn [repeat concat]; [reflexivity|].
  cbn [repeat concat] in K. apply keeps_up_app in K. destruct K as (K & K').
  rewrite !fold_left_app. rewrite slow_one; auto. apply K.
Qed.

Lemma ticks_slow : forall q live i rest, ticks_in rest = 0 ->
  ticks_in (slow q live i rest) = Z.of_nat q.
Proof.
  intros. unfold slow. rewrite !ticks_app, H. cbn [ticks_in].
  induction q as [|q IH]; cbn [repeat ticks_in]; lia.
Qed.

Lemma ticks_concat : forall l n, ticks_in (concat (repeat l n)) = Z.of_nat n * ticks_in l.
Proof. induction n as [|n IH]; cbn [repeat concat ticks_in]; rewrite ?ticks_app, ?IH; lia. Qed.

(** ** Checking a concrete run *)
Definition idleb (x : timed) : bool :=
  match e_pend (rt_ecu x), e_tpc (rt_ecu x) with
  | None, TIdle => (rt_nv x =? 0) && (rt_nt x =? 0)
  | _, _ => false
  end.
Fixpoint keeps_upb (c : config) (tick : Z) (x : timed) (tr : list rt_event) : bool :=
  match tr with
  | [] => true
  | RtTick :: t => if idleb x then keeps_upb c tick (rt_step c tick x RtTick) t else false
  | ev :: t => keeps_upb c tick (rt_step c tick x ev) t
  end.

Lemma idleb_ok : forall x, idleb x = true -> idle x.
Proof.
  intros x. unfold idleb, idle. destruct (e_pend (rt_ecu x)); [discriminate|].
  destruct (e_tpc (rt_ecu x)); try discriminate. intros H. apply andb_prop in H.
  destruct H as (H & H'). repeat split; lia.
Qed.
Lemma keeps_upb_ok : forall c tick tr x, keeps_upb c tick x tr = true -> keeps_up c tick x tr.
Proof.
  induction tr as [|[|e] tr IH]; intros x H; cbn [keeps_up]; auto; cbn [keeps_upb] in H.
  destruct (idleb x) eqn:E; [|discriminate]. split; [now apply idleb_ok|auto].
Qed.

Definition waitsb (ev : rt_event) : bool :=
  match ev with RtEcu (EvCmd false _ _ _) => false | _ => true end.
Lemma waitsb_ok : forall tr, forallb waitsb tr = true -> Forall rt_waits tr.
Proof.
  intros tr H. rewrite forallb_forall in H. apply Forall_forall.
  intros [|e] IN; [exact Logic.I|]. specialize (H _ IN). destruct e as [|[]| | | | | |]; easy.
Qed.

Definition showsb (c : config) (k : fault_kind) (ev : rt_event) : bool :=
  match ev with
  | RtEcu (EvVsm i) => match vi_snap i with Some d => fault_cond c k d | None => false end
  | _ => true
  end.
Lemma showsb_ok : forall c k tr, forallb (showsb c k) tr = true -> Forall (sees (shows c k)) tr.
Proof.
  intros c k tr H. rewrite forallb_forall in H. apply Forall_forall. intros ev IN.
  specialize (H ev IN). destruct ev as [|[]]; cbn [sees]; auto.
  unfold shows. cbn [showsb] in H. destruct (vi_snap i) as [d|]; [eauto|discriminate].
Qed.

Definition no_pcb (ev : rt_event) : bool :=
  match ev with RtEcu e => negb (is_pc e) | RtTick => true end.
Lemma no_pcb_ok : forall tr, forallb no_pcb tr = true -> Forall no_pc tr.
Proof.
  intros tr H. rewrite forallb_forall in H. apply Forall_forall. intros ev IN.
  specialize (H ev IN). destruct ev as [|[]]; cbn in *; auto; discriminate.
Qed.

Lemma map_one : forall {A B} (f : A -> B) l v, map f l = [v] -> exists t, l = [t] /\ f t = v.
Proof. intros A B f [|t [|]] v H; inversion H; eauto. Qed.
