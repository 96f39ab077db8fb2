(** Every request goes back to the pedal reading of its own activation. *)
From Coq Require Import Reals Psatz.
From Coq Require Import Floats.SpecFloat.
From Flocq Require Import Core.
From Verif.Base Require Import F32Real.
From Verif.Model Require Import Ecu.
From Verif.Spec Require Import InverterSpec EcuSpec TorqueSpec.
From Verif.Proof Require Import F32Facts TorqueProof InverterCmdProof VsmProof EcuProof EcuFrames.
Open Scope Z_scope.

Definition under_way c tick m0 es (P : option vstate -> Prop) : Prop :=
  exists es1 live es2, pedal_event c tick m0 es es1 live es2 /\ P live.

Definition mapped (live : option vstate) (q : f32) : Prop :=
  q = f_zero \/ q = TorqueMap_Interpolate TorqueMap_Default (accelOf live).

Definition origin c tick m0 es : Prop :=
  match e_tpc (ecu_run c tick m0 es) with
  | TIdle => True
  | TPedal a | TOn a => under_way c tick m0 es (fun live => a = accelOf live)
  | TTorque q | TRequest q _ => under_way c tick m0 es (fun live => mapped live q)
  end.

Lemma under_way_more : forall c tick m0 es ev (P Q : option vstate -> Prop), (forall l, P l -> Q l) ->
  e_tpc (ecu_run c tick m0 (es ++ [ev])) <> TIdle -> under_way c tick m0 es P ->
  under_way c tick m0 (es ++ [ev]) Q.
Proof.
  intros c tick m0 es ev P Q PQ N (es1 & live & es2 & (E & I & A) & HP).
  exists es1, live, (es2 ++ [ev]). split; [|auto]. split; [subst es; now rewrite <- app_assoc|]. split; [exact I|].
  intros a b AB. destruct b as [|x b] using rev_ind.
  - rewrite app_nil_r in AB. subst a. rewrite E in N. rewrite <- app_assoc in N. exact N.
  - rewrite app_assoc in AB. apply app_inj_tail in AB. destruct AB as [AB _]. now apply (A a b).
Qed.

Lemma origin_run : forall c tick m0 es, vsm_init c tick = Some m0 -> origin c tick m0 es.
Proof.
  intros c tick m0 es HI. induction es as [|ev es IH] using rev_ind; [exact I|].
  destruct (run_base c tick m0 es HI) as ([_ _ _ _ (F1 & F2 & F3)] & _).
  assert (SAME : e_tpc (ecu_run c tick m0 (es ++ [ev])) = e_tpc (ecu_run c tick m0 es) -> origin c tick m0 (es ++ [ev])).
  { intros S. unfold origin in *. 
    assert (M : forall P, under_way c tick m0 es P -> e_tpc (ecu_run c tick m0 es) <> TIdle -> under_way c tick m0 (es ++ [ev]) P).
    { intros P U N. apply (under_way_more c tick m0 es ev P P); auto. now rewrite S. }
    rewrite S. destruct (e_tpc (ecu_run c tick m0 es)); auto; apply M; auto; discriminate. }
  unfold origin in *. rewrite ecu_run_snoc in SAME. rewrite ecu_run_snoc.
  set (e := ecu_run c tick m0 es) in *.
  destruct ev as [i|tl il ok1 ok2|live| | | |il ok|on]; cbn [ecu_step] in *.
  - apply SAME. destruct (e_pend e); auto. destruct (vsm_step _ _ _ _). reflexivity.
  - apply SAME. destruct (e_pend e) as [[[|[] l] m']|]; reflexivity.
  - destruct (e_tpc e) eqn:E; try (apply SAME; exact E). cbn [set_tpc e_tpc].
    exists es, live, []. split; [|reflexivity]. split; [reflexivity|]. split; [exact E|].
    intros a b AB. symmetry in AB. apply app_eq_nil in AB. destruct AB as [-> _]. rewrite ecu_run_snoc.
    cbn [ecu_step]. fold e. rewrite E. discriminate.
  - destruct (e_tpc e) eqn:E; try (apply SAME; exact E).
    assert (N : e_tpc (ecu_run c tick m0 (es ++ [EvReadEnabled])) <> TIdle).
    { rewrite ecu_run_snoc. cbn [ecu_step]. fold e. rewrite E. cbn [set_tpc e_tpc]. destruct (th_enabled _); discriminate. }
    cbn [set_tpc e_tpc]. destruct (th_enabled (e_thr e)).
    + eapply under_way_more; [|exact N|exact IH]. auto.
    + eapply under_way_more; [|exact N|exact IH]. intros l _. left. reflexivity.
  - destruct (e_tpc e) eqn:E; try (apply SAME; exact E).
    assert (N : e_tpc (ecu_run c tick m0 (es ++ [EvReadDir])) <> TIdle).
    { rewrite ecu_run_snoc. cbn [ecu_step]. fold e. rewrite E. discriminate. }
    cbn [set_tpc e_tpc]. eapply under_way_more; [|exact N|exact IH]. cbn beta. intros l ->. right.
    unfold getTorqueMagnitude. fold e in F1, F3. rewrite F1, F3. cbn [negb]. now rewrite Z.eqb_refl.
  - destruct (e_tpc e) eqn:E; try (apply SAME; exact E).
    assert (N : e_tpc (ecu_run c tick m0 (es ++ [EvReadDir2])) <> TIdle).
    { rewrite ecu_run_snoc. cbn [ecu_step]. fold e. rewrite E. discriminate. }
    cbn [set_tpc e_tpc]. eapply under_way_more; [|exact N|exact IH]. auto.
  - destruct (e_tpc e) as [| | | |q d] eqn:E; try (apply SAME; exact E).
    destruct (SendTorqueCommand _ _ _ _ _); exact I.
  - apply SAME. reflexivity.
Qed.


Lemma pedal_curve : forall x, f_ok x = true ->
  exists y, pedal_torque x y /\
    (Rabs (FR (TorqueMap_Interpolate TorqueMap_Default x) - y) <= / 4000)%R.
Proof.
  intros x OK. destruct (f_isfin x) eqn:FN.
  - assert (Fx : fin x) by (split; auto).
    destruct (Rlt_le_dec (FR x) 0) as [L|L].
    { exists 0%R. split; [right; auto|]. rewrite fwd_tmap.
      assert (Q : (0 < FR (f_lit 1 10))%R) by (vm_compute (f_lit 1 10); rewrite FR_finite, bpow_neg_val; apply Rmult_lt_0_compat; [lra|apply Rinv_0_lt_compat, (IZR_lt 0); reflexivity]).
      rewrite zero_zone; auto; [|left; reflexivity|lra]. rewrite Rminus_0_r, Rabs_R0. lra. }
    destruct (Rlt_le_dec 1 (FR x)) as [G|G].
    { exists 0%R. split; [right; auto|]. rewrite fwd_tmap.
      rewrite zero_zone; auto; [|left; reflexivity]. rewrite Rminus_0_r, Rabs_R0. lra. }
    destruct (polygon_exists TorqueMap_Default x (or_introl eq_refl) Fx (conj L G)) as [y Hy].
    exists y. split; [left; auto|]. apply polygon_close; auto. left. reflexivity.
  - exists 0%R. split; [right; auto|]. rewrite fwd_tmap.
    rewrite zero_zone; auto; [|left; reflexivity]. rewrite Rminus_0_r, Rabs_R0. lra.
Qed.

(** What one request adds to the frames. *)
Lemma request_frame : forall ok c x, f_ok x = true -> ic_enabled c = true ->
  exists t, SendTorqueCommand true ok c (TorqueMap_Interpolate TorqueMap_Default x) DIR_FORWARD
            = Some (mkInvRes c [t] (if ok then INV_OK else INV_ERROR_CAN)) /\
    frame_enable (tx_data t) = true /\ tx_ok t = ok /\
    exists y, pedal_torque x y /\ stands_for (frame_torque (tx_data t)) y.
Proof.
  intros ok c x OK EN. destruct (envelope_fwd x OK) as [F B]. destruct (pedal_curve x OK) as (y & P & C).
  set (q := TorqueMap_Interpolate TorqueMap_Default x) in *. unfold SendTorqueCommand.
  assert (R : in_range q) by (unfold in_range; rewrite max_val; lra).
  rewrite (proj2 (range_test q F) R), EN. cbn [negb].
  destruct (torque_field q F R) as (m & M & B' & _). unfold SendCANCommand. rewrite M.
  eexists. split; [reflexivity|]. cbn [tx_data tx_ok].
  split; [apply enc_enable|]. split; [reflexivity|]. exists y. split; [exact P|].
  rewrite enc_torque by lia. pose proof (torque_field_err q m F R M). apply Rabs_le_inv in C.
  unfold stands_for. lra.
Qed.

Lemma frame_pedal : forall c tick m0 es ev t, vsm_init c tick = Some m0 -> Forall pedal_ok es ->
  sends c tick (ecu_run c tick m0 es) ev t -> asks_torque t = true ->
  exists es1 d es2 y, pedal_event c tick m0 es es1 (Some d) es2 /\
    pedal_torque (accel_in d) y /\ stands_for (frame_torque (tx_data t)) y.
Proof.
  intros c tick m0 es ev t HI OK (l & E & IN) A.
  destruct (frames_added c tick (ecu_run c tick m0 es) ev) as (l' & E' & _ & H).
  rewrite E in E'. apply app_inv_head in E'. subst l'.
  destruct (H t IN A) as (_ & _ & il & ok & ->). clear H.
  pose proof (origin_run c tick m0 es HI) as OR. unfold origin in OR.
  destruct (run_base c tick m0 es HI) as ([_ _ _ _ (F1 & F2 & F3)] & _).
  pose proof (ranges_run c tick m0 es HI OK) as [_ _ _ RG].
  cbn [ecu_step] in E. destruct (e_tpc (ecu_run c tick m0 es)) as [| | | |q d] eqn:PC;
    try (rewrite <- (app_nil_r (e_sent _)) in E at 1; apply app_inv_head in E; subst l; destruct IN).
  destruct OR as (es1 & live & es2 & PE & MP).
  destruct (SendTorqueCommand il ok (e_inv (ecu_run c tick m0 es)) q d) as [r|] eqn:SR;
    cbn [e_sent] in E;
    [|rewrite <- (app_nil_r (e_sent _)) in E at 1; apply app_inv_head in E; subst l; destruct IN].
  apply app_inv_head in E. subst l.
  destruct MP as [->| ->]; [pose proof (zero_frame_quiet _ _ _ _ _ _ SR IN); congruence|].
  destruct live as [dd|].
  - assert (OKd : f_ok (accelOf (Some dd)) = true).
    { destruct PE as (-> & _). apply Forall_app in OK. destruct OK as (_ & OK).
      inversion OK; subst; auto. }
    destruct il.
    2:{ unfold SendTorqueCommand in SR. destruct (flt _ _ || fgt _ _); cbn [negb] in SR;
          injection SR as <-; destruct IN. }
    destruct (ic_enabled (e_inv (ecu_run c tick m0 es))) eqn:EN.
    2:{ unfold SendTorqueCommand in SR. destruct (flt _ _ || fgt _ _); cbn [negb] in SR; [|rewrite EN in SR];
          injection SR as <-; destruct IN. }
    assert (D : d = DIR_FORWARD) by (apply RG).
    subst d. destruct (request_frame ok _ (accelOf (Some dd)) OKd EN) as (t' & S' & _ & _ & y & Y1 & Y2).
    rewrite S' in SR. injection SR as <-. cbn [ir_tx] in IN. destruct IN as [<-|[]].
    exists es1, dd, es2, y. auto.
  - cbn [accelOf] in SR.
    replace (TorqueMap_Interpolate TorqueMap_Default f_zero) with f_zero in SR by (vm_compute; reflexivity).
    pose proof (zero_frame_quiet _ _ _ _ _ _ SR IN). congruence.
Qed.

Lemma activation_run : forall c tick e live lock ok, e_tpc e = TIdle -> th_dir (e_thr e) = DIR_FORWARD ->
  th_fwd (e_thr e) = TorqueMap_Default ->
  fold_left (ecu_step c tick) (activation live lock ok) e =
  ecu_step c tick (set_tpc e (TRequest
     (if th_enabled (e_thr e) then TorqueMap_Interpolate TorqueMap_Default (accelOf live) else f_zero)
     DIR_FORWARD)) (EvRequest lock ok).
Proof.
  intros c tick e live lock ok ID D FW. destruct e as [vs pe th tp iv pn se bd fr si]. cbn in ID, D, FW. subst tp.
  unfold activation. cbn [fold_left ecu_step e_tpc set_tpc e_vsm e_pend e_thr e_inv e_pin e_sent e_bad e_from e_since].
  destruct (th_enabled th) eqn:EN; cbn [e_tpc];
  cbn [fold_left ecu_step e_tpc set_tpc e_vsm e_pend e_thr e_inv e_pin e_sent e_bad e_from e_since];
  unfold getTorqueMagnitude; rewrite D; cbn [negb]; rewrite ?FW, ?Z.eqb_refl; reflexivity.
Qed.

Lemma pedal_reaches : forall c tick m0 es d ok, vsm_init c tick = Some m0 -> Forall waits es ->
  let e := ecu_run c tick m0 es in
  vm_state (e_vsm e) = StActiveForward -> e_pend e = None -> e_tpc e = TIdle ->
  ic_enabled (e_inv e) = true -> f_ok (accel_in d) = true ->
  exists t y, e_sent (ecu_run c tick m0 (es ++ activation (Some d) true ok)) = e_sent e ++ [t] /\
    frame_enable (tx_data t) = true /\ frame_direction (tx_data t) = 1 /\
    pedal_torque (accel_in d) y /\ stands_for (frame_torque (tx_data t)) y.
Proof.
  intros c tick m0 es d ok HI W e ST PE ID EN OK.
  destruct (run_base c tick m0 es HI) as ([_ _ _ _ (F1 & F2 & F3)] & TE & _).
  specialize (TE W). cbv zeta in TE. fold e in F1, F2, F3, TE.
  unfold enabled_at in TE. rewrite ST, PE in TE. cbn [done_calls andb negb] in TE.
  destruct (request_frame ok (e_inv e) (accelOf (Some d)) OK EN) as (t & S & FE & _ & y & Y1 & Y2).
  exists t, y. split.
  - unfold ecu_run. rewrite fold_left_app. fold (ecu_run c tick m0 es). fold e.
    rewrite activation_run by auto. rewrite TE. cbn [ecu_step set_tpc e_tpc e_inv]. rewrite S. reflexivity.
  - split; [exact FE|]. split; [|auto]. revert S. unfold SendTorqueCommand.
    destruct (flt _ _ || fgt _ _); [discriminate|]. rewrite EN. cbn [negb]. unfold SendCANCommand.
    destruct (torqueToMsg _); [|discriminate]. intros S. injection S as <-. cbn [tx_data].
    now rewrite enc_dir.
Qed.

Lemma not_driving_quiet : forall c tick m0 es live lock ok, vsm_init c tick = Some m0 -> Forall waits es ->
  let e := ecu_run c tick m0 es in
  ~ driving e -> e_tpc e = TIdle ->
  exists l, e_sent (ecu_run c tick m0 (es ++ activation live lock ok)) = e_sent e ++ l /\
    Forall (fun t => frame_torque (tx_data t) = 0) l.
Proof.
  intros c tick m0 es live lock ok HI W e ND ID.
  destruct (run_base c tick m0 es HI) as (BA & TE & _). pose proof BA as [_ _ _ _ (F1 & F2 & F3)].
  specialize (TE W). cbv zeta in TE. fold e in F1, F2, F3, TE.
  assert (TF : th_enabled (e_thr e) = false).
  { rewrite TE. destruct (enabled_at e) eqn:EA; auto. exfalso. apply ND. now apply enabled_driving. }
  unfold ecu_run. rewrite fold_left_app. fold (ecu_run c tick m0 es). fold e.
  rewrite activation_run by auto. rewrite TF. cbn [ecu_step set_tpc e_tpc e_inv].
  destruct (SendTorqueCommand lock ok (e_inv e) f_zero DIR_FORWARD) as [r|] eqn:SR; cbn [e_sent set_tpc].
  - exists (ir_tx r). split; auto. apply Forall_forall. intros t IN.
    pose proof (zero_frame_quiet _ _ _ _ _ _ SR IN) as Q. unfold asks_torque in Q. lia.
  - exists []. split; [now rewrite app_nil_r|constructor].
Qed.
