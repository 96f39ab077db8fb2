From Coq Require Import Reals Psatz.
From Coq Require Import ZifyBool ZifyNat Floats.SpecFloat.
From Flocq Require Import Core.
From Verif.Base Require Import Words F32Real.
From Verif.Model Require Import Vehicle RealTime.
From Verif.Spec Require Import FaultSpec VsmSpec FreshSpec SenseSpec InverterSpec EcuSpec TorqueSpec RealTimeSpec VehicleSpec.
From Verif.Proof Require Import F32Facts TorqueProof InverterCmdProof FaultProof VsmProof EcuProof EcuFrames EcuPedal SenseProof
  FreshProof RealTimeProof.
Open Scope Z_scope.

Lemma veh_run_snoc : forall c tick m0 tr ev,
  veh_run c tick m0 (tr ++ [ev]) = veh_step c tick (ds_from_config c) (veh_run c tick m0 tr) ev.
Proof. intros. unfold veh_run. now rewrite fold_left_app. Qed.
Lemma veh_run_app : forall c tick m0 a b,
  veh_run c tick m0 (a ++ b) = fold_left (veh_step c tick (ds_from_config c)) b (veh_run c tick m0 a).
Proof. intros. unfold veh_run. now rewrite fold_left_app. Qed.

(** ** The kernel's part is a run of the sensing model *)
Lemma step_f : forall c tick d s ev,
  vh_f (veh_step c tick d s ev) = vh_f s \/
  exists fe, vh_f (veh_step c tick d s ev) = fresh_step d (vh_f s) fe.
Proof.
  intros c tick d s ev. unfold veh_step. destruct ev; cbn zeta.
  - right. eexists. reflexivity.
  - destruct (on_timer t); [now left|]. right. eexists. reflexivity.
  - destruct (may s t a); [|now left]. right. eexists. reflexivity.
  - left. destruct (is_inside _ && _ && _); reflexivity.
  - left. destruct (is_inside _ && _ && _); reflexivity.
  - left. destruct (is_inside _ && _ && _); reflexivity.
  - left. destruct (is_running _ && _ && _ && _); reflexivity.
  - left. match goal with |- context [if ?b then _ else _] => destruct b end; reflexivity.
Qed.

Lemma not_starved_init : forall c tick m0 a b, veh_not_starved c tick m0 (a ++ b) -> veh_not_starved c tick m0 a.
Proof. intros c tick m0 a b H x y E. apply (H x (y ++ b)). now rewrite E, app_assoc. Qed.

Lemma f_proj : forall c tick m0 tr, exists tr',
  vh_f (veh_run c tick m0 tr) = fresh_run (ds_from_config c) zero_vstate tr' /\
  (veh_not_starved c tick m0 tr -> not_starved (ds_from_config c) zero_vstate tr').
Proof.
  intros c tick m0 tr. induction tr as [|ev tr (tr' & E & N)] using rev_ind.
  - exists []. split; [reflexivity|]. intros _ a b Q. destruct a; [|discriminate]. vm_compute. reflexivity.
  - destruct (step_f c tick (ds_from_config c) (veh_run c tick m0 tr) ev) as [S|(fe & S)].
    + exists tr'. rewrite veh_run_snoc, S. split; [exact E|]. intros H. apply N. now apply not_starved_init in H.
    + exists (tr' ++ [fe]). rewrite veh_run_snoc, S, fresh_run_snoc, <- E. split; [reflexivity|].
      intros H a b Q. destruct b as [|x b _] using rev_ind.
      * rewrite app_nil_r in Q. subst a. rewrite fresh_run_snoc, <- E, <- S, <- veh_run_snoc.
        apply (H _ []). now rewrite app_nil_r.
      * rewrite app_assoc in Q. apply app_inj_tail in Q. destruct Q as (Q & _).
        apply (N (not_starved_init _ _ _ _ _ H) a b Q).
Qed.

Lemma veh_good : forall c tick m0 tr, veh_not_starved c tick m0 tr ->
  good (ds_from_config c) (vh_f (veh_run c tick m0 tr)).
Proof.
  intros c tick m0 tr H. destruct (f_proj c tick m0 tr) as (tr' & -> & N). apply run_good. auto.
Qed.

(** ** What one action changes *)
Lemma act_since : forall d s t a u,
  since (f_stage (act_step d s t a) u) = since (f_stage s u) \/
  (u = t /\ f_stage s t = Waiting /\ f_note s t <> 0 /\
   since (f_stage (act_step d s t a) u) = Some (f_now s) /\ f_note (act_step d s t a) u = 0) \/
  (u = t /\ a = ADone /\ f_stage (act_step d s t a) u = Waiting).
Proof.
  intros d s t a u. unfold act_step.
  destruct (Z.eq_dec u t) as [->|N].
  - destruct a; destruct (f_stage s t) eqn:E; auto; try (now left; rewrite E).
    + destruct (Z.eqb_spec (f_note s t) 0) as [|NZ]; [left; now rewrite E|]. right. left.
      cbn [set_stage f_stage f_note f_now]. rewrite !put_same. auto.
    + destruct ((t =? T_SENSE) && f_pub s); left; cbn [set_stage f_stage]; rewrite ?put_same, ?E; reflexivity.
    + destruct (f_holder s); left; cbn [set_holder set_stage f_stage]; rewrite ?put_same, ?E; reflexivity.
    + destruct (t =? T_SENSE); left; cbn [f_stage]; now rewrite E.
    + destruct (t =? T_SENSE); left; cbn [f_stage]; now rewrite E.
    + destruct ((t =? T_SENSE) && negb (f_pub s)); left; cbn [set_holder set_stage f_stage]; rewrite ?put_same, ?E; reflexivity.
    + destruct ((t =? T_SENSE) && negb (f_pub s)); [left; now rewrite E|]. right. right.
      cbn [set_stage f_stage]. rewrite put_same. auto.
  - left. destruct a; destruct (f_stage s t) eqn:E; auto.
    + destruct (f_note s t =? 0); auto. cbn [set_stage f_stage]. now rewrite put_other.
    + destruct ((t =? T_SENSE) && f_pub s); auto. cbn [set_stage f_stage]. now rewrite put_other.
    + destruct (f_holder s); auto. cbn [set_holder set_stage f_stage]. now rewrite put_other.
    + destruct (t =? T_SENSE); auto.
    + destruct (t =? T_SENSE); auto.
    + destruct ((t =? T_SENSE) && negb (f_pub s)); auto. cbn [set_holder set_stage f_stage]. now rewrite put_other.
    + destruct ((t =? T_SENSE) && negb (f_pub s)); auto. cbn [set_stage f_stage]. now rewrite put_other.
Qed.

Lemma act_now : forall d s t a, f_now (act_step d s t a) = f_now s.
Proof.
  intros. unfold act_step. destruct a, (f_stage s t); auto.
  - destruct (f_note s t =? 0); auto.
  - destruct ((t =? T_SENSE) && f_pub s); auto.
  - destruct (f_holder s); auto.
  - destruct (t =? T_SENSE); auto.
  - destruct (t =? T_SENSE); auto.
  - destruct ((t =? T_SENSE) && negb (f_pub s)); auto.
  - destruct ((t =? T_SENSE) && negb (f_pub s)); auto.
Qed.

Lemma act_note : forall d s t a u,
  f_note (act_step d s t a) u = f_note s u \/ f_note (act_step d s t a) u = 0.
Proof.
  intros. unfold act_step. destruct a, (f_stage s t); auto.
  - destruct (f_note s t =? 0); auto. cbn [set_stage f_note]. unfold put.
    destruct (u =? t); auto.
  - destruct ((t =? T_SENSE) && f_pub s); auto.
  - destruct (f_holder s); auto.
  - destruct (t =? T_SENSE); auto.
  - destruct (t =? T_SENSE); auto.
  - destruct ((t =? T_SENSE) && negb (f_pub s)); auto.
  - destruct ((t =? T_SENSE) && negb (f_pub s)); auto.
Qed.

(** A task that is not waiting keeps its notifications; so does any other task. *)
Lemma act_note_keep : forall d s t a u, (u = t -> f_stage s t <> Waiting) ->
  f_note (act_step d s t a) u = f_note s u.
Proof.
  intros d s t a u H. unfold act_step. destruct a; destruct (f_stage s t) eqn:E; auto.
  - destruct (f_note s t =? 0); auto. cbn [set_stage f_note]. unfold put.
    destruct (Z.eqb_spec u t) as [->|]; auto. now elim (H eq_refl).
  - destruct ((t =? T_SENSE) && f_pub s); auto.
  - destruct (f_holder s); auto.
  - destruct (t =? T_SENSE); auto.
  - destruct (t =? T_SENSE); auto.
  - destruct ((t =? T_SENSE) && negb (f_pub s)); auto.
  - destruct ((t =? T_SENSE) && negb (f_pub s)); auto.
Qed.

Lemma run_act : forall d s t a,
  fresh_step d s (FRun t a) = s \/ fresh_step d s (FRun t a) = act_step d s t a.
Proof.
  intros. cbn [fresh_step]. destruct (existsb (Z.eqb t) task_ids && kernel_allows s t); auto.
Qed.

Lemma since_waiting : forall g, since g = None <-> g = Waiting.
Proof. destruct g; cbn; split; congruence. Qed.

(** ** When activations began *)
Record times (f : fresh) : Prop := mkTimes {
  ti_now : 0 <= f_now f;
  ti_note : forall t, on_timer t = true -> f_note f t <> 0 -> 1 <= f_now f;
  ti_since : forall t a, on_timer t = true -> since (f_stage f t) = Some a -> 1 <= a <= f_now f }.

Lemma times_act : forall d s t a, times s -> times (act_step d s t a).
Proof.
  intros d s t a [N O S]. constructor; rewrite act_now; auto.
  - intros u T Z. apply (O u T). destruct (act_note d s t a u) as [E|E]; congruence.
  - intros u b T Q. destruct (act_since d s t a u) as [E|[(-> & W & NZ & E & _)|(-> & _ & E)]].
    + apply (S u b T). congruence.
    + rewrite E in Q. injection Q as <-. specialize (O t T NZ). lia.
    + rewrite E in Q. discriminate.
Qed.

Lemma times_run : forall c tick m0 tr, times (vh_f (veh_run c tick m0 tr)).
Proof.
  intros c tick m0 tr. induction tr as [|ev tr IH] using rev_ind.
  - constructor; cbn; try lia; discriminate.
  - rewrite veh_run_snoc. set (s := veh_run c tick m0 tr) in *. set (d := ds_from_config c).
    assert (K : vh_f (veh_step c tick d s ev) = vh_f s -> times (vh_f (veh_step c tick d s ev))) by congruence.
    unfold veh_step in *. destruct ev; cbn zeta in *.
    + cbn [with_f vh_f fresh_step]. destruct IH as [N O S].
      constructor; cbn [f_now f_note f_stage]; try lia. intros t a T Q. specialize (S t a T Q). lia.
    + destruct (on_timer t) eqn:T; [now apply K|]. cbn [with_f vh_f fresh_step].
      destruct (t =? T_SENSE); auto. destruct IH as [N O S]. constructor; cbn [f_now f_note f_stage]; auto.
      intros u U Z. apply (O u U). rewrite put_other in Z; [auto|congruence].
    + destruct (may s t a); auto. cbn [with_f vh_f].
      destruct (run_act d (vh_f s) t a) as [E|E]; rewrite E; auto. now apply times_act.
    + apply K. destruct (is_inside _ && _ && _); reflexivity.
    + apply K. destruct (is_inside _ && _ && _); reflexivity.
    + apply K. destruct (is_inside _ && _ && _); reflexivity.
    + apply K. destruct (is_running _ && _ && _ && _); reflexivity.
    + apply K. match goal with |- context [if ?b then _ else _] => destruct b end; reflexivity.
Qed.

(** ** The order of steps in the activations *)
Record order (s : vehicle) : Prop := mkOrder {
  or_read : f_stage (vh_f s) T_THROTTLE = Waiting -> vh_read s = false;
  or_tpc : vh_read s = false -> e_tpc (vh_e s) = TIdle;
  or_snap : f_stage (vh_f s) T_VSM = Waiting -> vh_snap s = None /\ vh_decided s = false;
  or_pend : vh_decided s = false -> e_pend (vh_e s) = None }.

Lemma is_waiting_iff : forall g, is_waiting g = true <-> g = Waiting.
Proof. destruct g; cbn; split; congruence. Qed.

(** A step of the kernel's part in which the control tasks end only as [may] says. *)
Lemma order_with_f : forall s f, order s ->
  (f_stage f T_THROTTLE = Waiting -> f_stage (vh_f s) T_THROTTLE <> Waiting -> e_tpc (vh_e s) = TIdle) ->
  (f_stage f T_VSM = Waiting -> f_stage (vh_f s) T_VSM <> Waiting -> e_pend (vh_e s) = None) ->
  order (with_f s f).
Proof.
  intros s f [R T S P] A B.
  constructor; cbn [with_f vh_f vh_e vh_read vh_snap vh_decided].
  - intros E. now rewrite E.
  - destruct (is_waiting (f_stage f T_THROTTLE)) eqn:E; auto. intros _.
    apply is_waiting_iff in E. destruct (f_stage (vh_f s) T_THROTTLE) eqn:F; auto; apply A; auto; discriminate.
  - intros E. now rewrite E.
  - destruct (is_waiting (f_stage f T_VSM)) eqn:E; auto. intros _.
    apply is_waiting_iff in E. destruct (f_stage (vh_f s) T_VSM) eqn:F.
    + now apply P, S.
    + apply B; auto; discriminate.
    + apply B; auto; discriminate.
    + apply B; auto; discriminate.
Qed.

(** A task goes back to the top of its loop only where [may] lets it. *)
Lemma ends_by_done : forall d s t a u,
  f_stage (fresh_step d s (FRun t a)) u = Waiting -> f_stage s u <> Waiting -> u = t /\ a = ADone.
Proof.
  intros d s t a u E N. destruct (run_act d s t a) as [Q|Q]; rewrite Q in E; [contradiction|].
  destruct (act_since d s t a u) as [F|[(_ & _ & _ & F & _)|(-> & -> & _)]]; auto.
  - rewrite E in F. symmetry in F. now apply since_waiting in F.
  - rewrite E in F. discriminate.
Qed.

(** The work of one task leaves the other's place alone. *)
Lemma tpc_other : forall c tick e ev, is_vsm ev = true \/ is_pc ev = true ->
  e_tpc (ecu_step c tick e ev) = e_tpc e.
Proof.
  intros c tick e ev H. destruct ev as [i|tl il ok1 ok2|live| | | |il ok|on]; destruct H as [H|H]; try discriminate; cbn [ecu_step].
  - destruct (e_pend e); auto. destruct (vsm_step _ _ _ _); reflexivity.
  - destruct (e_pend e) as [[[|[] l] m']|]; reflexivity.
  - reflexivity.
Qed.

Lemma order_run : forall c tick m0 tr, order (veh_run c tick m0 tr).
Proof.
  intros c tick m0 tr. induction tr as [|ev tr IH] using rev_ind.
  - constructor; cbn; auto.
  - rewrite veh_run_snoc. set (s := veh_run c tick m0 tr) in *. set (d := ds_from_config c).
    unfold veh_step. destruct ev; cbn zeta.
    + apply order_with_f; auto; cbn [fresh_step f_stage]; congruence.
    + destruct (on_timer t); auto. apply order_with_f; auto; cbn [fresh_step];
        destruct (t =? T_SENSE); cbn [f_stage]; congruence.
    + destruct (may s t a) eqn:M; auto. apply order_with_f; auto; intros E N;
        destruct (ends_by_done d _ _ _ _ E N) as (<- & ->); unfold may in M.
      * change (T_THROTTLE =? T_THROTTLE) with true in M. cbn iota in M.
        apply andb_prop in M. destruct M as (_ & M). destruct (e_tpc (vh_e s)); auto; discriminate.
      * change (T_VSM =? T_THROTTLE) with false in M. change (T_VSM =? T_VSM) with true in M. cbn iota in M.
        apply andb_prop in M. destruct M as (_ & M). destruct (e_pend (vh_e s)); auto; discriminate.
    + destruct (is_inside (f_stage (vh_f s) T_THROTTLE)) eqn:E; cbn [andb]; auto.
      destruct (kernel_allows (vh_f s) T_THROTTLE); cbn [andb]; auto.
      destruct (vh_read s) eqn:R; cbn [negb]; auto. destruct IH as [A B C D].
      constructor; cbn [vh_f vh_e vh_read vh_snap vh_decided]; auto; try discriminate.
      * intros Q. rewrite Q in E. discriminate.
      * intros Q. rewrite (proj1 (proj2 (non_vsm_frame c tick (vh_e s) (EvPedal _) eq_refl))). auto.
    + destruct (is_inside (f_stage (vh_f s) T_VSM)) eqn:E; cbn [andb]; auto.
      destruct (kernel_allows (vh_f s) T_VSM); cbn [andb]; auto.
      destruct (is_some (vh_snap s)); cbn [negb]; auto. destruct IH as [A B C D].
      constructor; cbn [vh_f vh_e vh_read vh_snap vh_decided]; auto.
      intros Q. rewrite Q in E. discriminate.
    + destruct (is_inside (f_stage (vh_f s) T_VSM)) eqn:E; cbn [andb]; auto.
      destruct (kernel_allows (vh_f s) T_VSM); cbn [andb]; auto.
      destruct (is_some (vh_snap s)); auto. destruct IH as [A B C D].
      constructor; cbn [vh_f vh_e vh_read vh_snap vh_decided]; auto.
    + destruct (is_running (f_stage (vh_f s) T_VSM)) eqn:E; cbn [andb]; auto.
      destruct (kernel_allows (vh_f s) T_VSM); cbn [andb]; auto.
      destruct (is_some (vh_snap s)); cbn [andb]; auto.
      destruct (vh_decided s); cbn [negb]; auto. destruct IH as [A B C D].
      constructor; cbn [vh_f vh_e vh_read vh_snap vh_decided]; auto; try discriminate.
      * intros Q. rewrite tpc_other by auto. auto.
      * intros Q. rewrite Q in E. discriminate.
    + match goal with |- context [if ?b then _ else _] => destruct b eqn:G end; auto.
      destruct IH as [A B C D].
      constructor; cbn [with_e vh_f vh_e vh_read vh_snap vh_decided]; auto.
      * intros Q. specialize (B Q).
        destruct ev; cbn in G; try discriminate; try (rewrite tpc_other by auto; exact B);
          rewrite Q, andb_false_r in G; discriminate.
      * intros Q. specialize (D Q).
        destruct (is_vsm ev) eqn:IV.
        -- destruct ev; try discriminate. rewrite Q, andb_false_r in G. discriminate.
        -- now rewrite (proj1 (proj2 (non_vsm_frame c tick (vh_e s) ev IV))).
Qed.

(** ** Published cycles *)
Lemma published_more : forall c tick m0 tr ev n cy, published c tick m0 tr n cy ->
  published c tick m0 (tr ++ [ev]) n cy.
Proof.
  intros c tick m0 tr ev n cy (a & b & E & L). exists a, (b ++ [ev]). split; auto.
  now rewrite E, <- app_assoc.
Qed.
Lemma published_now : forall c tick m0 tr n cy,
  f_last (vh_f (veh_run c tick m0 tr)) = Some (n, cy) -> published c tick m0 tr n cy.
Proof. intros c tick m0 tr n cy H. exists tr, []. split; [now rewrite app_nil_r|exact H]. Qed.

Lemma u16_init : forall c tick m0 a b, readings_u16 c tick m0 (a ++ b) -> readings_u16 c tick m0 a.
Proof.
  intros c tick m0 a b H n cy (x & y & E & L). apply (H n cy). exists x, (y ++ b).
  split; auto. now rewrite E, app_assoc.
Qed.

Lemma pedal_of_sum : forall c cy,
  fmul f_half (fadd (ADC_ApplyScaling (ds_accelA (ds_from_config c)) (snd (cy_A cy)))
                    (ADC_ApplyScaling (ds_accelB (ds_from_config c)) (snd (cy_B cy)))) = pedal_of c cy.
Proof. reflexivity. Qed.

Lemma pedal_range : forall c cy, calibrated c -> cycle_u16 cy ->
  fin (pedal_of c cy) /\ (0 <= FR (pedal_of c cy) <= 1)%R.
Proof.
  intros c cy H (RA & RB & _). inversion H as [|? ? (A1 & A2 & A3) H']; subst. inversion H' as [|? ? (B1 & B2 & B3) _]; subst.
  destruct (scale_range _ _ _ A1 A2 RA A3) as [Fa Va]. destruct (scale_range _ _ _ B1 B2 RB B3) as [Fb Vb].
  exact (average_range _ _ Fa Fb Va Vb).
Qed.

(** The average changes only when both channels are read. *)
Lemma publish_accel : forall c cy v,
  accel_in (ds_step (ds_from_config c) v (locked cy)) = accel_in v \/
  (accel_in (ds_step (ds_from_config c) v (locked cy)) = pedal_of c cy /\ both_read cy).
Proof.
  intros c cy v. unfold accel_in, ds_step, locked. rewrite <- pedal_of_sum.
  cbn [cy_lock cy_A cy_B cy_front cy_rear cy_button].
  generalize (ADC_ApplyScaling (ds_accelA (ds_from_config c)) (snd (cy_A cy))) as xA.
  generalize (ADC_ApplyScaling (ds_accelB (ds_from_config c)) (snd (cy_B cy))) as xB.
  intros xB xA.
  generalize (ADC_ApplyScaling (ds_brakeFront (ds_from_config c)) (snd (cy_front cy))) as xF.
  generalize (ADC_ApplyScaling (ds_brakeRear (ds_from_config c)) (snd (cy_rear cy))) as xR.
  intros xR xF. generalize (fmul f_half (fadd xA xB)) as av. intros av.
  cbn [set_inputs set_dash vs_inputs].
  assert (R : forall i, i_accel (put_rear xR (cy_rear cy) i) = i_accel i) by (intros; unfold put_rear; destruct (ok _); reflexivity).
  assert (F : forall i, i_accel (put_front xF (cy_front cy) i) = i_accel i) by (intros; unfold put_front; destruct (ok _); reflexivity).
  assert (B : forall i, i_accel (put_B xB (cy_B cy) i) = i_accel i) by (intros; unfold put_B; destruct (ok _); reflexivity).
  assert (A : forall i, i_accel (put_A xA (cy_A cy) i) = i_accel i) by (intros; unfold put_A; destruct (ok _); reflexivity).
  rewrite R, F. unfold put_accel. destruct (ok (cy_A cy) && ok (cy_B cy)) eqn:OK; cbn [i_accel].
  - right. split; auto. unfold ok in OK. apply andb_prop in OK. destruct OK. split; lia.
  - left. now rewrite B, A.
Qed.

Lemma accel_ok : forall c tick m0 tr, calibrated c -> readings_u16 c tick m0 tr ->
  f_ok (accel_in (f_vs (vh_f (veh_run c tick m0 tr)))) = true.
Proof.
  intros c tick m0 tr CA. induction tr as [|ev tr IH] using rev_ind; intros U; [reflexivity|].
  specialize (IH (u16_init _ _ _ _ _ U)).
  assert (SAME : f_vs (vh_f (veh_run c tick m0 (tr ++ [ev]))) = f_vs (vh_f (veh_run c tick m0 tr)) ->
     f_ok (accel_in (f_vs (vh_f (veh_run c tick m0 (tr ++ [ev]))))) = true) by (intros ->; exact IH).
  assert (PUB : forall n cy, f_last (vh_f (veh_run c tick m0 (tr ++ [ev]))) = Some (n, cy) -> cycle_u16 cy).
  { intros n cy L. apply (U n). now apply published_now. }
  rewrite veh_run_snoc in *. set (s := veh_run c tick m0 tr) in *. set (d := ds_from_config c) in *.
  destruct ev; try (apply SAME; unfold veh_step; cbn zeta;
    repeat match goal with |- context [if ?b then _ else _] => destruct b end; reflexivity).
  - apply SAME. unfold veh_step; cbn zeta. destruct (on_timer t); auto. cbn [with_f vh_f fresh_step].
    destruct (t =? T_SENSE); reflexivity.
  - unfold veh_step in *; cbn zeta in *. destruct (may s t a); [|exact IH]. cbn [with_f vh_f] in *.
    destruct (run_act d (vh_f s) t a) as [E|E]; rewrite E in *; [exact IH|].
    unfold act_step in *. destruct a; destruct (f_stage (vh_f s) t); auto.
    + destruct (f_note (vh_f s) t =? 0); auto.
    + destruct ((t =? T_SENSE) && f_pub (vh_f s)); auto.
    + destruct (f_holder (vh_f s)); auto.
    + destruct (t =? T_SENSE); auto. cbn [f_vs f_last] in *.
      specialize (PUB _ _ eq_refl).
      destruct (publish_accel c cy (f_vs (vh_f s))) as [Q|(Q & _)]; fold d in Q; rewrite Q; auto.
      apply (pedal_range c cy CA PUB).
    + destruct (t =? T_SENSE); auto.
    + destruct ((t =? T_SENSE) && negb (f_pub (vh_f s))); auto.
    + destruct ((t =? T_SENSE) && negb (f_pub (vh_f s))); auto.
Qed.

(** The pedal position is zero or some cycle so far read both channels. *)
Definition read_before c tick m0 tr : Prop :=
  exists a b n cy, tr = a ++ b /\ f_last (vh_f (veh_run c tick m0 a)) = Some (n, cy) /\ both_read cy.

Lemma accel_read : forall c tick m0 tr,
  accel_in (f_vs (vh_f (veh_run c tick m0 tr))) = f_zero \/ read_before c tick m0 tr.
Proof.
  intros c tick m0 tr. induction tr as [|ev tr IH] using rev_ind; [left; reflexivity|].
  assert (OLD : read_before c tick m0 tr -> read_before c tick m0 (tr ++ [ev])).
  { intros (a & b & n & cy & -> & L). exists a, (b ++ [ev]), n, cy. now rewrite app_assoc. }
  assert (SAME : accel_in (f_vs (vh_f (veh_run c tick m0 (tr ++ [ev])))) = accel_in (f_vs (vh_f (veh_run c tick m0 tr))) ->
     accel_in (f_vs (vh_f (veh_run c tick m0 (tr ++ [ev])))) = f_zero \/ read_before c tick m0 (tr ++ [ev]))
    by (intros ->; tauto).
  assert (NEW : forall n cy, f_last (vh_f (veh_run c tick m0 (tr ++ [ev]))) = Some (n, cy) -> both_read cy ->
     read_before c tick m0 (tr ++ [ev])).
  { intros n cy L B. exists (tr ++ [ev]), [], n, cy. now rewrite app_nil_r. }
  rewrite veh_run_snoc in *. set (s := veh_run c tick m0 tr) in *. set (d := ds_from_config c) in *.
  destruct ev; try (apply SAME; unfold veh_step; cbn zeta;
    repeat match goal with |- context [if ?b then _ else _] => destruct b end; reflexivity).
  - apply SAME. unfold veh_step; cbn zeta. destruct (on_timer t); auto. cbn [with_f vh_f fresh_step].
    destruct (t =? T_SENSE); reflexivity.
  - unfold veh_step in *; cbn zeta in *. destruct (may s t a); [|now apply SAME]. cbn [with_f vh_f] in *.
    destruct (run_act d (vh_f s) t a) as [E|E]; rewrite E in *; [now apply SAME|].
    unfold act_step in *. destruct a; destruct (f_stage (vh_f s) t); try (now apply SAME).
    + destruct (f_note (vh_f s) t =? 0); now apply SAME.
    + destruct ((t =? T_SENSE) && f_pub (vh_f s)); now apply SAME.
    + destruct (f_holder (vh_f s)); now apply SAME.
    + destruct (t =? T_SENSE); [|now apply SAME]. cbn [f_vs f_last] in *.
      destruct (publish_accel c cy (f_vs (vh_f s))) as [Q|(Q & B)]; fold d in Q; [now apply SAME|].
      right. now apply (NEW _ _ eq_refl).
    + destruct (t =? T_SENSE); now apply SAME.
    + destruct ((t =? T_SENSE) && negb (f_pub (vh_f s))); now apply SAME.
    + destruct ((t =? T_SENSE) && negb (f_pub (vh_f s))); now apply SAME.
Qed.

(** ** The control tasks' part is a run of the ECU model *)
Definition is_pedal (ev : ecu_event) : bool := match ev with EvPedal _ => true | _ => false end.

Lemma step_e : forall c tick d s ev,
  vh_e (veh_step c tick d s ev) = vh_e s \/
  (exists e, vh_e (veh_step c tick d s ev) = ecu_step c tick (vh_e s) e /\
     match ev with
     | VPedal => e = EvPedal (Some (f_vs (vh_f s)))
     | VDecide => e = EvVsm (mkVsmIn (vh_snap s) (vh_live s))
     | VWork e' => e = e' /\ is_pedal e' = false
     | _ => False
     end).
Proof.
  intros c tick d s ev. unfold veh_step. destruct ev; cbn zeta.
  - now left.
  - destruct (on_timer t); now left.
  - destruct (may s t a); now left.
  - destruct (is_inside _ && _ && _); [|now left]. right. eexists. split; reflexivity.
  - destruct (is_inside _ && _ && _); now left.
  - destruct (is_inside _ && _ && _); now left.
  - destruct (is_running _ && _ && _ && _); [|now left]. right. eexists. split; reflexivity.
  - match goal with |- context [if ?b then _ else _] => destruct b eqn:G end; [|now left]. right.
    exists ev. split; [reflexivity|]. split; auto. destruct ev; auto; discriminate.
Qed.

Lemma e_proj : forall c tick m0 tr, calibrated c -> readings_u16 c tick m0 tr ->
  exists es, vh_e (veh_run c tick m0 tr) = ecu_run c tick m0 es /\ Forall pedal_ok es.
Proof.
  intros c tick m0 tr CA. induction tr as [|ev tr IH] using rev_ind; intros U.
  - exists []. split; [reflexivity|constructor].
  - pose proof (u16_init _ _ _ _ _ U) as U'. destruct (IH U') as (es & E & P).
    destruct (step_e c tick (ds_from_config c) (veh_run c tick m0 tr) ev) as [S|(e & S & K)].
    + exists es. now rewrite veh_run_snoc, S.
    + exists (es ++ [e]). rewrite veh_run_snoc, S, ecu_run_snoc, <- E. split; auto.
      apply Forall_app. split; auto. constructor; [|constructor].
      destruct ev; try contradiction; try (subst e; exact I).
      * subst e. cbn [pedal_ok accelOf]. now apply accel_ok.
      * destruct K as (-> & K). destruct ev; try exact I. discriminate.
Qed.

Lemma hist_veh : forall c tick m0 tr, hist c tick m0 (vh_e (veh_run c tick m0 tr)).
Proof.
  intros c tick m0 tr. induction tr as [|ev tr IH] using rev_ind; [apply hist_init|].
  rewrite veh_run_snoc.
  destruct (step_e c tick (ds_from_config c) (veh_run c tick m0 tr) ev) as [S|(e & S & _)]; rewrite S; auto.
  now apply hist_step.
Qed.

(** ** Where the values in use come from *)

(** [v] is a vehicle state that task [t] saw in its present activation: it shows a
    cycle that began no earlier than the activation. *)
Definition current c tick m0 tr (t : Z) (v : vstate) : Prop :=
  exists at_ n cy, since (f_stage (vh_f (veh_run c tick m0 tr)) t) = Some at_ /\
    at_ <= n <= f_now (vh_f (veh_run c tick m0 tr)) /\ published c tick m0 tr n cy /\
    shows_cycle (ds_from_config c) cy v /\
    (stays_readable c tick m0 tr -> accel_in v = f_zero \/ both_read cy).

Lemma readable_init : forall c tick m0 tr ev, stays_readable c tick m0 (tr ++ [ev]) -> stays_readable c tick m0 tr.
Proof. intros c tick m0 tr ev H a b e n1 cy1 n2 cy2 ->. apply (H a b (e ++ [ev])). now rewrite !app_assoc. Qed.

Lemma now_mono : forall c tick d s ev, f_now (vh_f s) <= f_now (vh_f (veh_step c tick d s ev)).
Proof.
  intros c tick d s ev. unfold veh_step. destruct ev; cbn zeta.
  - cbn [with_f vh_f fresh_step f_now]. lia.
  - destruct (on_timer t); [lia|]. cbn [with_f vh_f fresh_step]. destruct (t =? T_SENSE); cbn [f_now]; lia.
  - destruct (may s t a); [|lia]. cbn [with_f vh_f].
    destruct (run_act d (vh_f s) t a) as [E|E]; rewrite E; [lia|]. rewrite act_now. lia.
  - destruct (is_inside _ && _ && _); cbn [vh_f]; lia.
  - destruct (is_inside _ && _ && _); cbn [vh_f]; lia.
  - destruct (is_inside _ && _ && _); cbn [vh_f]; lia.
  - destruct (is_running _ && _ && _ && _); cbn [vh_f]; lia.
  - match goal with |- context [if ?b then _ else _] => destruct b end; cbn [with_e vh_f]; lia.
Qed.

(** An activation that is not over keeps its beginning. *)
Lemma since_keep : forall c tick d s ev u,
  since (f_stage (vh_f s) u) <> None ->
  since (f_stage (vh_f (veh_step c tick d s ev)) u) = since (f_stage (vh_f s) u) \/
  f_stage (vh_f (veh_step c tick d s ev)) u = Waiting.
Proof.
  intros c tick d s ev u A. unfold veh_step. destruct ev; cbn zeta.
  - now left.
  - destruct (on_timer t); [now left|]. cbn [with_f vh_f fresh_step]. destruct (t =? T_SENSE); now left.
  - destruct (may s t a); [|now left]. cbn [with_f vh_f].
    destruct (run_act d (vh_f s) t a) as [E|E]; rewrite E; [now left|].
    destruct (act_since d (vh_f s) t a u) as [F|[(-> & W & _)|(_ & _ & F)]]; auto.
    rewrite W in A. now elim A.
  - left. destruct (is_inside _ && _ && _); reflexivity.
  - left. destruct (is_inside _ && _ && _); reflexivity.
  - left. destruct (is_inside _ && _ && _); reflexivity.
  - left. destruct (is_running _ && _ && _ && _); reflexivity.
  - left. match goal with |- context [if ?b then _ else _] => destruct b end; reflexivity.
Qed.

Lemma current_more : forall c tick m0 tr ev t v, current c tick m0 tr t v ->
  f_stage (vh_f (veh_run c tick m0 (tr ++ [ev]))) t <> Waiting ->
  current c tick m0 (tr ++ [ev]) t v.
Proof.
  intros c tick m0 tr ev t v (a & n & cy & S & L & P & H & R) N.
  rewrite veh_run_snoc in N.
  exists a, n, cy. rewrite veh_run_snoc. split.
  - destruct (since_keep c tick (ds_from_config c) (veh_run c tick m0 tr) ev t) as [E|E]; try congruence.
  - split; [|split; [now apply published_more|split; [exact H|intros SR; apply R; now apply readable_init in SR]]].
    pose proof (now_mono c tick (ds_from_config c) (veh_run c tick m0 tr) ev). lia.
Qed.

Lemma inside_current : forall c tick m0 tr t, veh_not_starved c tick m0 tr ->
  In t [T_THROTTLE; T_VSM] -> is_inside (f_stage (vh_f (veh_run c tick m0 tr)) t) = true ->
  current c tick m0 tr t (f_vs (vh_f (veh_run c tick m0 tr))).
Proof.
  intros c tick m0 tr t NS IN E. pose proof (veh_good c tick m0 tr NS) as G.
  pose proof (times_run c tick m0 tr) as T. set (s := vh_f (veh_run c tick m0 tr)) in *.
  destruct (f_stage s t) as [|a|a|a] eqn:F; try discriminate.
  assert (S : since (f_stage s t) = Some a) by now rewrite F.
  assert (TT : on_timer t = true) by (destruct IN as [<-|[<-|[]]]; reflexivity).
  assert (LOW : priority t < priority T_SENSE) by (apply low_tasks; destruct IN as [<-|[<-|[]]]; cbn; tauto).
  pose proof (ti_since s T t a TT S) as (L & U).
  pose proof (g_low _ _ G t a LOW S) as B. pose proof (g_now _ _ G) as C. pose proof (g_show _ _ G) as D.
  unfold stamp in *. destruct (f_last s) as [[n cy]|] eqn:FL; [|lia].
  exists a, n, cy. fold s. split; [exact S|]. split; [lia|]. split; [now apply published_now|].
  split; [exact (D n cy eq_refl)|]. intros SR.
  destruct (accel_read c tick m0 tr) as [Z|(x & y & n0 & cy0 & E0 & L0 & (B1 & B2))]; [now left|right].
  subst tr. destruct (SR x y [] n0 cy0 n cy) as (Q1 & Q2); auto; [now rewrite app_nil_r|]. split; auto.
Qed.

Lemma snap_current : forall c tick m0 tr v, veh_not_starved c tick m0 tr ->
  vh_snap (veh_run c tick m0 tr) = Some v -> current c tick m0 tr T_VSM v.
Proof.
  intros c tick m0 tr. induction tr as [|ev tr IH] using rev_ind; intros v NS SN; [discriminate|].
  pose proof (not_starved_init _ _ _ _ _ NS) as NS'.
  assert (NW : f_stage (vh_f (veh_run c tick m0 (tr ++ [ev]))) T_VSM <> Waiting).
  { intros W. destruct (or_snap _ (order_run c tick m0 (tr ++ [ev])) W). congruence. }
  assert (OLD : vh_snap (veh_run c tick m0 tr) = Some v -> current c tick m0 (tr ++ [ev]) T_VSM v)
    by (intros; apply current_more; auto).
  rewrite veh_run_snoc in SN. set (s := veh_run c tick m0 tr) in *. set (d := ds_from_config c) in *.
  assert (WF : forall f, vh_snap (with_f s f) = Some v -> vh_snap s = Some v).
  { intros f. cbn [with_f vh_snap]. destruct (is_waiting _); auto. discriminate. }
  unfold veh_step in SN. destruct ev; cbn zeta in SN.
  - apply OLD. exact (WF _ SN).
  - apply OLD. destruct (on_timer t); auto. exact (WF _ SN).
  - apply OLD. destruct (may s t a); auto. exact (WF _ SN).
  - apply OLD. destruct (is_inside _ && _ && _); exact SN.
  - destruct (is_inside (f_stage (vh_f s) T_VSM)) eqn:E; cbn [andb] in SN; auto.
    destruct (kernel_allows (vh_f s) T_VSM); cbn [andb] in SN; auto.
    destruct (negb (is_some (vh_snap s))); auto. cbn [vh_snap] in SN. injection SN as <-.
    apply current_more; auto. apply inside_current; cbn; auto.
  - apply OLD. destruct (is_inside _ && _ && _); exact SN.
  - apply OLD. destruct (is_running _ && _ && _ && _); exact SN.
  - apply OLD. match goal with H : context [if ?b then _ else _] |- _ => destruct b end; exact SN.
Qed.

(** The throttle task's values. *)
Definition from_pedal c tick m0 tr (x : f32) : Prop :=
  exists v, current c tick m0 tr T_THROTTLE v /\ x = accel_in v /\ f_ok x = true.
Definition thr_origin c tick m0 tr : Prop :=
  match e_tpc (vh_e (veh_run c tick m0 tr)) with
  | TIdle => True
  | TPedal x | TOn x => from_pedal c tick m0 tr x
  | TTorque q | TRequest q _ =>
      q = f_zero \/ exists x, from_pedal c tick m0 tr x /\ q = TorqueMap_Interpolate TorqueMap_Default x
  end.

Lemma from_more : forall c tick m0 tr ev x, from_pedal c tick m0 tr x ->
  f_stage (vh_f (veh_run c tick m0 (tr ++ [ev]))) T_THROTTLE <> Waiting ->
  from_pedal c tick m0 (tr ++ [ev]) x.
Proof. intros c tick m0 tr ev x (v & C & E) N. exists v. split; auto. now apply current_more. Qed.

Lemma thr_origin_run : forall c tick m0 tr, vsm_init c tick = Some m0 -> calibrated c ->
  veh_not_starved c tick m0 tr -> readings_u16 c tick m0 tr -> thr_origin c tick m0 tr.
Proof.
  intros c tick m0 tr HI CA. induction tr as [|ev tr IH] using rev_ind; intros NS U; [exact I|].
  pose proof (not_starved_init _ _ _ _ _ NS) as NS'. pose proof (u16_init _ _ _ _ _ U) as U'.
  specialize (IH NS' U').
  pose proof (order_run c tick m0 (tr ++ [ev])) as O'.
  assert (NW : e_tpc (vh_e (veh_run c tick m0 (tr ++ [ev]))) <> TIdle ->
               f_stage (vh_f (veh_run c tick m0 (tr ++ [ev]))) T_THROTTLE <> Waiting).
  { intros N W. apply N. apply (or_tpc _ O'). now apply (or_read _ O'). }
  assert (SAME : e_tpc (vh_e (veh_run c tick m0 (tr ++ [ev]))) = e_tpc (vh_e (veh_run c tick m0 tr)) ->
                 thr_origin c tick m0 (tr ++ [ev])).
  { intros E. unfold thr_origin in *. rewrite E in *.
    destruct (e_tpc (vh_e (veh_run c tick m0 tr))); auto.
    - apply from_more; auto. apply NW. discriminate.
    - apply from_more; auto. apply NW. discriminate.
    - destruct IH as [->|(x & F & ->)]; auto. right. exists x. split; auto. apply from_more; auto. apply NW. discriminate.
    - destruct IH as [->|(x & F & ->)]; auto. right. exists x. split; auto. apply from_more; auto. apply NW. discriminate. }
  destruct (e_proj c tick m0 tr CA U') as (es & EE & PO).
  destruct (run_base c tick m0 es HI) as ([_ _ _ _ (F1 & F2 & F3)] & _). rewrite <- EE in F1, F2, F3.
  pose proof (accel_ok c tick m0 tr CA U') as AO.
  pose proof (inside_current c tick m0 tr T_THROTTLE NS' (or_introl eq_refl)) as IC.
  unfold thr_origin in *. rewrite veh_run_snoc in SAME, NW |- *.
  set (s := veh_run c tick m0 tr) in *. set (d := ds_from_config c) in *.
  destruct (step_e c tick d s ev) as [E|(e & E & K)].
  { apply SAME. now rewrite E. }
  destruct (is_vsm e) eqn:IV; [apply SAME; rewrite E; apply tpc_other; auto|].
  destruct (is_pc e) eqn:IP; [apply SAME; rewrite E; apply tpc_other; auto|].
  rewrite E in *.
  destruct ev; try contradiction; [|subst e; discriminate|destruct K as (-> & K)].
  - subst e. cbn [ecu_step] in *. destruct (e_tpc (vh_e s)) eqn:PC; try (apply SAME; exact PC).
    cbn [set_tpc e_tpc accelOf]. exists (f_vs (vh_f s)). split; [|auto].
    assert (IT : is_inside (f_stage (vh_f s) T_THROTTLE) = true).
    { destruct (is_inside (f_stage (vh_f s) T_THROTTLE)) eqn:Q; auto. exfalso.
      unfold veh_step in E. cbn zeta in E. rewrite Q in E. cbn [andb] in E.
      apply (f_equal e_tpc) in E. rewrite PC in E. discriminate. }
    apply current_more; auto. rewrite veh_run_snoc. apply NW. discriminate.
  - assert (FM : forall x, from_pedal c tick m0 tr x -> f_stage (vh_f (veh_step c tick d s (VWork ev))) T_THROTTLE <> Waiting ->
              from_pedal c tick m0 (tr ++ [VWork ev]) x).
    { intros x F N. apply from_more; auto. now rewrite veh_run_snoc. }
    destruct ev as [i|tl il ok1 ok2|live| | | |il ok|on]; try discriminate; cbn [ecu_step] in *.
    + destruct (e_tpc (vh_e s)) eqn:PC; try (apply SAME; exact PC). cbn [set_tpc e_tpc] in *.
      destruct (th_enabled (e_thr (vh_e s))); [|now left]. apply FM; auto. apply NW. discriminate.
    + destruct (e_tpc (vh_e s)) eqn:PC; try (apply SAME; exact PC). cbn [set_tpc e_tpc] in *.
      right. exists accel. split; [apply FM; auto; apply NW; discriminate|].
      unfold getTorqueMagnitude. rewrite F1, F3. cbn [negb]. now rewrite Z.eqb_refl.
    + destruct (e_tpc (vh_e s)) eqn:PC; try (apply SAME; exact PC). cbn [set_tpc e_tpc] in *.
      destruct IH as [->|(x & F & ->)]; auto. right. exists x. split; auto. apply FM; auto. apply NW. discriminate.
    + destruct (e_tpc (vh_e s)) eqn:PC; try (apply SAME; exact PC).
      destruct (SendTorqueCommand _ _ _ _ _); exact I.
Qed.
