From Coq Require Import ZifyBool ZifyNat.
From Verif.Base Require Import Words.
From Verif.Model Require Import Reports.
From Verif.Spec Require Import FaultSpec FreshSpec RxSpec VehicleSpec ReportsSpec.
From Verif.Proof Require Import RxProof FreshProof VehicleProof VehicleClaims.
Open Scope Z_scope.

Lemma rp_run_snoc : forall c tick m0 tr ev,
  rp_run c tick m0 (tr ++ [ev]) = rp_step c tick (rp_run c tick m0 tr) ev.
Proof. intros. unfold rp_run. now rewrite fold_left_app. Qed.
Lemma rp_run_app : forall c tick m0 a b,
  rp_run c tick m0 (a ++ b) = fold_left (rp_step c tick) b (rp_run c tick m0 a).
Proof. intros. unfold rp_run. now rewrite fold_left_app. Qed.

(** ** The vehicle's part is a run of Vehicle *)
Definition veh_ev (s : reports) (ev : rp_event) : option veh_event :=
  let f := vh_f (rp_v s) in
  match ev with
  | RVeh (VRun t a) =>
      if is_rx_task t then if rx_may (rp_pc s t) a then Some (VRun t a) else None
      else Some (VRun t (match a with AWrite v => AWrite (keep_reports v (f_vs f)) | _ => a end))
  | RVeh e => Some e
  | RFrame _ | RReceive _ => None
  | RWrite t =>
      if is_rx_task t && is_inside (f_stage f t) && kernel_allows f t then
        match rp_pc s t with RxGot fr => Some (VRun t (AWrite (rx_apply t fr (f_vs f)))) | _ => None end
      else None
  end.

Lemma step_v : forall c tick s ev, rp_v (rp_step c tick s ev) =
  match veh_ev s ev with
  | Some e => veh_step c tick (ds_from_config c) (rp_v s) e
  | None => rp_v s
  end.
Proof.
  intros c tick s ev. unfold rp_step, veh_ev. destruct ev as [e|f|t|t]; cbn zeta.
  - destruct e; try reflexivity. destruct (is_rx_task t); [|reflexivity].
    destruct (rx_may (rp_pc s t) a); reflexivity.
  - reflexivity.
  - destruct (is_rx_task t && _ && _); [|reflexivity].
    destruct (rp_pc s t), (rp_q s t); reflexivity.
  - destruct (is_rx_task t && _ && _); [|reflexivity]. destruct (rp_pc s t); reflexivity.
Qed.

Definition opt_list {A} (o : option A) : list A := match o with Some x => [x] | None => [] end.
Fixpoint vtrace (c : config) (tick : Z) (s : reports) (tr : list rp_event) : list veh_event :=
  match tr with
  | [] => []
  | ev :: t => opt_list (veh_ev s ev) ++ vtrace c tick (rp_step c tick s ev) t
  end.
Definition vt c tick m0 tr := vtrace c tick (rp_init m0) tr.

Lemma vtrace_v : forall c tick tr s, rp_v (fold_left (rp_step c tick) tr s)
  = fold_left (veh_step c tick (ds_from_config c)) (vtrace c tick s tr) (rp_v s).
Proof.
  intros c tick tr. induction tr as [|ev tr IH]; intros s; [reflexivity|]. cbn [fold_left vtrace].
  rewrite IH, fold_left_app, step_v. destruct (veh_ev s ev); reflexivity.
Qed.
Lemma vt_run : forall c tick m0 tr, rp_v (rp_run c tick m0 tr) = veh_run c tick m0 (vt c tick m0 tr).
Proof. intros. unfold rp_run. rewrite vtrace_v. reflexivity. Qed.

Lemma vtrace_app : forall c tick a b s,
  vtrace c tick s (a ++ b) = vtrace c tick s a ++ vtrace c tick (fold_left (rp_step c tick) a s) b.
Proof.
  intros c tick a b. induction a as [|ev a IH]; intros s; [reflexivity|].
  cbn [app vtrace fold_left]. now rewrite IH, app_assoc.
Qed.
Lemma vt_app : forall c tick m0 a b, vt c tick m0 (a ++ b) = vt c tick m0 a ++ vtrace c tick (rp_run c tick m0 a) b.
Proof. intros. unfold vt. now rewrite vtrace_app. Qed.

Lemma vtrace_split : forall c tick tr s x y, vtrace c tick s tr = x ++ y ->
  exists t1 t2, tr = t1 ++ t2 /\ x = vtrace c tick s t1.
Proof.
  intros c tick tr. induction tr as [|ev tr IH]; intros s x y E; cbn [vtrace] in E.
  - symmetry in E. apply app_eq_nil in E. destruct E as (-> & _). exists [], []. auto.
  - destruct (veh_ev s ev) as [e|] eqn:V; cbn [opt_list app] in E.
    + destruct x as [|e' x]; [exists [], (ev :: tr); auto|].
      cbn [app] in E. injection E as <- E. destruct (IH _ x y E) as (t1 & t2 & -> & ->).
      exists (ev :: t1), t2. split; [reflexivity|]. cbn [vtrace]. now rewrite V.
    + destruct (IH _ x y E) as (t1 & t2 & -> & ->).
      exists (ev :: t1), t2. split; [reflexivity|]. cbn [vtrace]. now rewrite V.
Qed.

Lemma veh_ev_tick : forall s ev, veh_ev s ev = Some VTick -> ev = RVeh VTick.
Proof.
  intros s ev H. unfold veh_ev in H. destruct ev as [e|f|t|t]; cbn zeta in H; try discriminate.
  - destruct e; try congruence; try discriminate. destruct (is_rx_task t); [|discriminate].
    destruct (rx_may _ _); discriminate.
  - destruct (is_rx_task t && _ && _); [|discriminate]. destruct (rp_pc s t); discriminate.
Qed.

Lemma vtrace_tick : forall c tick tr s x y, vtrace c tick s tr = x ++ VTick :: y ->
  exists t1 t2, tr = t1 ++ RVeh VTick :: t2 /\ x = vtrace c tick s t1.
Proof.
  intros c tick tr. induction tr as [|ev tr IH]; intros s x y E; cbn [vtrace] in E.
  - now destruct x.
  - destruct (veh_ev s ev) as [e|] eqn:V; cbn [opt_list app] in E.
    + destruct x as [|e' x].
      * cbn [app] in E. injection E as -> _. exists [], tr. now rewrite (veh_ev_tick s ev V).
      * cbn [app] in E. injection E as <- E. destruct (IH _ x y E) as (t1 & t2 & -> & ->).
        exists (ev :: t1), t2. split; [reflexivity|]. cbn [vtrace]. now rewrite V.
    + destruct (IH _ x y E) as (t1 & t2 & -> & ->).
      exists (ev :: t1), t2. split; [reflexivity|]. cbn [vtrace]. now rewrite V.
Qed.

Lemma veh_ev_kind : forall s ev e, veh_ev s ev = Some e ->
  ev = RVeh e \/ (exists t a, e = VRun t a /\ ev <> RVeh VTick).
Proof.
  intros s ev e H. unfold veh_ev in H. destruct ev as [e'|f|t|t]; cbn zeta in H; try discriminate.
  - destruct e'; try (left; congruence).
    right. destruct (is_rx_task t); [destruct (rx_may _ _); [|discriminate]|]; injection H as <-; eexists _, _;
      (split; [reflexivity|discriminate]).
  - destruct (is_rx_task t && _ && _); [|discriminate]. destruct (rp_pc s t); try discriminate.
    injection H as <-. right. eexists _, _. split; [reflexivity|discriminate].
Qed.

Lemma vt_ticks : forall c tick tr s, veh_ticks (vtrace c tick s tr) = rp_ticks tr.
Proof.
  intros c tick tr. induction tr as [|ev tr IH]; intros s; [reflexivity|]. cbn [vtrace].
  destruct (veh_ev s ev) as [e|] eqn:V; cbn [opt_list app].
  - destruct (veh_ev_kind s ev e V) as [->|(t & a & -> & N)].
    + destruct e; cbn [veh_ticks rp_ticks]; now rewrite IH.
    + cbn [veh_ticks]. rewrite IH. destruct ev as [[]| | |]; try reflexivity. congruence.
  - rewrite IH. destruct ev as [[]| | |]; try reflexivity. discriminate.
Qed.

Lemma vt_waits : forall c tick tr s, Forall rp_waits tr -> Forall veh_waits (vtrace c tick s tr).
Proof.
  intros c tick tr. induction tr as [|ev tr IH]; intros s F; [constructor|]. inversion F; subst. cbn [vtrace].
  apply Forall_app. split; [|auto]. destruct (veh_ev s ev) as [e|] eqn:V; constructor; [|constructor].
  destruct (veh_ev_kind s ev e V) as [->|(t & a & -> & N)]; [assumption|exact I].
Qed.
Lemma vt_no_pc : forall c tick tr s, Forall rp_no_pc tr -> Forall veh_no_pc (vtrace c tick s tr).
Proof.
  intros c tick tr. induction tr as [|ev tr IH]; intros s F; [constructor|]. inversion F; subst. cbn [vtrace].
  apply Forall_app. split; [|auto]. destruct (veh_ev s ev) as [e|] eqn:V; constructor; [|constructor].
  destruct (veh_ev_kind s ev e V) as [->|(t & a & -> & N)]; [assumption|exact I].
Qed.

(** ** What an event does to the battery task *)
Lemma f_cases : forall c tick d s ev,
  vh_f (veh_step c tick d s ev) = vh_f s \/
  (ev = VTick /\ vh_f (veh_step c tick d s ev) = fresh_step d (vh_f s) FTick) \/
  (exists t, ev = VNotify t /\ on_timer t = false /\
     vh_f (veh_step c tick d s ev) = fresh_step d (vh_f s) (FNotify t)) \/
  (exists t a, ev = VRun t a /\ kernel_allows (vh_f s) t = true /\
     vh_f (veh_step c tick d s ev) = act_step d (vh_f s) t a).
Proof.
  intros c tick d s ev. unfold veh_step. destruct ev; cbn zeta.
  - right. left. auto.
  - destruct (on_timer t) eqn:O; [now left|]. right. right. left. exists t. auto.
  - destruct (may s t a); [|now left]. cbn [with_f vh_f fresh_step].
    destruct (existsb (Z.eqb t) task_ids); cbn [andb]; [|now left].
    destruct (kernel_allows (vh_f s) t) eqn:K; [|now left]. right. right. right. exists t, a. auto.
  - left. destruct (is_inside _ && _ && _); reflexivity.
  - left. destruct (is_inside _ && _ && _); reflexivity.
  - left. destruct (is_inside _ && _ && _); reflexivity.
  - left. destruct (is_running _ && _ && _ && _); reflexivity.
  - left. match goal with |- context [if ?b then _ else _] => destruct b end; reflexivity.
Qed.

Lemma act_battery : forall d s t a,
  vs_battery (f_vs (act_step d s t a)) = vs_battery (f_vs s) \/
  (exists v, a = AWrite v /\ vs_battery (f_vs (act_step d s t a)) = vs_battery v).
Proof.
  intros d s t a. unfold act_step. destruct a, (f_stage s t); try (now left).
  - left. destruct (f_note s t =? 0); reflexivity.
  - left. destruct ((t =? T_SENSE) && f_pub s); reflexivity.
  - left. destruct (f_holder s); reflexivity.
  - left. destruct (t =? T_SENSE); [|reflexivity]. reflexivity.
  - destruct (t =? T_SENSE); [now left|]. right. exists v. split; reflexivity.
  - left. destruct ((t =? T_SENSE) && negb (f_pub s)); reflexivity.
  - left. destruct ((t =? T_SENSE) && negb (f_pub s)); reflexivity.
Qed.

Lemma veh_battery : forall c tick d s ev,
  vs_battery (f_vs (vh_f (veh_step c tick d s ev))) = vs_battery (f_vs (vh_f s)) \/
  (exists t v, ev = VRun t (AWrite v) /\
     vs_battery (f_vs (vh_f (veh_step c tick d s ev))) = vs_battery v).
Proof.
  intros c tick d s ev. destruct (f_cases c tick d s ev) as [->|[(_ & ->)|[(t & _ & _ & ->)|(t & a & -> & _ & ->)]]]; auto.
  - left. cbn [fresh_step]. destruct (t =? T_SENSE); reflexivity.
  - destruct (act_battery d (vh_f s) t a) as [E|(v & -> & E)]; [now left|]. right. eauto.
Qed.

Lemma write_vs : forall c tick d s t v, is_rx_task t = true ->
  is_inside (f_stage (vh_f s) t) = true -> kernel_allows (vh_f s) t = true ->
  f_vs (vh_f (veh_step c tick d s (VRun t (AWrite v)))) = others_of v (f_vs (vh_f s)).
Proof.
  intros c tick d s t v R I K. unfold is_rx_task in R.
  assert (T : t = T_BMS \/ t = T_INV) by lia.
  unfold veh_step. cbn zeta.
  assert (M : may s t (AWrite v) = true) by (destruct T as [->| ->]; reflexivity). rewrite M.
  cbn [with_f vh_f fresh_step].
  assert (E : existsb (Z.eqb t) task_ids = true) by (destruct T as [->| ->]; reflexivity). rewrite E, K. cbn [andb].
  unfold act_step. destruct (f_stage (vh_f s) t); try discriminate.
  assert (S : (t =? T_SENSE) = false) by (destruct T as [->| ->]; reflexivity). now rewrite S.
Qed.

Lemma inv_battery : forall bus s x, vs_battery (inv_handle bus s x) = vs_battery s.
Proof.
  intros bus s [f l]. unfold inv_handle.
  repeat match goal with |- context [if ?b then _ else _] => destruct b end; try reflexivity;
    unfold publish; destruct (negb (fr_dlc f =? 8)); try reflexivity; destruct l; try reflexivity;
    match goal with |- context [let '(_, _) := ?u in _] => destruct u end; reflexivity.
Qed.

(** The queue and the loop of the battery task, and the battery values. *)
Definition bat (s : reports) : battery_t := vs_battery (f_vs (vh_f (rp_v s))).
Definition bstage (s : reports) : stage := f_stage (vh_f (rp_v s)) T_BMS.
Definition bnote (s : reports) : Z := f_note (vh_f (rp_v s)) T_BMS.

Inductive bstep (s s' : reports) (ev : rp_event) : Prop :=
| BArrive : forall g, ev = RFrame g -> rp_v s' = rp_v s -> rp_pc s' T_BMS = rp_pc s T_BMS ->
    (rp_q s' T_BMS = rp_q s T_BMS \/ rp_q s' T_BMS = rp_q s T_BMS ++ [g]) -> bstep s s' ev
| BEmpty : ev = RReceive T_BMS -> rp_v s' = rp_v s -> is_running (bstage s) = true ->
    rp_pc s T_BMS = RxLoop -> rp_q s T_BMS = [] -> rp_q s' T_BMS = [] -> rp_pc s' T_BMS = RxEmpty -> bstep s s' ev
| BTaken : forall g, ev = RReceive T_BMS -> rp_v s' = rp_v s -> is_running (bstage s) = true ->
    rp_pc s T_BMS = RxLoop -> rp_q s T_BMS = g :: rp_q s' T_BMS ->
    rp_pc s' T_BMS = (if rx_writes T_BMS g then RxGot g else RxLoop) -> bstep s s' ev
| BWrite : forall g, ev = RWrite T_BMS -> rp_pc s T_BMS = RxGot g -> rp_pc s' T_BMS = RxWrote ->
    rp_q s' T_BMS = rp_q s T_BMS -> is_inside (bstage s) = true ->
    f_vs (vh_f (rp_v s')) = others_of (rx_apply T_BMS g (f_vs (vh_f (rp_v s)))) (f_vs (vh_f (rp_v s))) -> bstep s s' ev
| BLeave : forall a, ev = RVeh (VRun T_BMS a) -> rp_q s' T_BMS = rp_q s T_BMS -> bat s' = bat s ->
    rp_pc s' T_BMS = RxLoop -> (a = AGive /\ rp_pc s T_BMS = RxWrote /\ is_inside (bstage s) = true \/
                                a = ADone /\ rp_pc s T_BMS = RxEmpty /\ is_running (bstage s) = true) -> bstep s s' ev
| BOther : rp_q s' T_BMS = rp_q s T_BMS -> bat s' = bat s -> rp_pc s' T_BMS = rp_pc s T_BMS ->
    (ev = RVeh (VRun T_BMS ADone) -> kernel_allows (vh_f (rp_v s)) T_BMS = false \/ is_running (bstage s) = false \/
       rp_pc s T_BMS <> RxEmpty) -> bstep s s' ev.

Lemma bms_cases : forall c tick s ev, bstep s (rp_step c tick s ev) ev.
Proof.
  intros c tick s ev. destruct ev as [e|g|t|t].
  - (* an event of the vehicle *)
    assert (NB : (forall t v, e <> VRun t (AWrite v)) ->
                 vs_battery (f_vs (vh_f (veh_step c tick (ds_from_config c) (rp_v s) e))) = bat s).
    { intros N. destruct (veh_battery c tick (ds_from_config c) (rp_v s) e) as [E|(t & v & E & _)]; auto.
      now elim (N t v). }
    destruct e; try (apply BOther; [reflexivity| |reflexivity|discriminate]; apply NB; discriminate).
    unfold rp_step. cbn zeta. destruct (is_rx_task t) eqn:R.
    + destruct (rx_may (rp_pc s t) a) eqn:M.
      2:{ apply BOther; auto. intros E. injection E as -> ->. right. right. intros Q. rewrite Q in M. discriminate. }
      assert (NW : forall t' v, VRun t a <> VRun t' (AWrite v)).
      { intros t' v E. injection E as -> ->. unfold rx_may in M. destruct (rp_pc s t'); discriminate. }
      destruct (Z.eq_dec t T_BMS) as [->|NT].
      2:{ apply BOther; cbn [rp_veh rp_q rp_pc];
            [reflexivity|unfold bat at 1; cbn [rp_veh rp_v]; now apply NB|apply put_other; congruence|congruence]. }
      assert (BB : bat (rp_veh c tick s (VRun T_BMS a) (put (rp_pc s) T_BMS (rx_after s T_BMS a))) = bat s)
        by (unfold bat at 1; cbn [rp_veh rp_v]; now apply NB).
      assert (PC : rp_pc (rp_veh c tick s (VRun T_BMS a) (put (rp_pc s) T_BMS (rx_after s T_BMS a))) T_BMS
                   = rx_after s T_BMS a) by (cbn [rp_veh rp_pc]; apply put_same).
      pose proof (eq_refl (rx_after s T_BMS a)) as RA. unfold rx_after in RA at 2.
      destruct (kernel_allows (vh_f (rp_v s)) T_BMS) eqn:K.
      * destruct a;
          try (apply BOther; [reflexivity|exact BB|exact (eq_trans PC RA)|discriminate]).
        -- destruct (f_stage (vh_f (rp_v s)) T_BMS) eqn:G;
             try (apply BOther; [reflexivity|exact BB|exact (eq_trans PC RA)|discriminate]).
           apply (BLeave _ _ _ AGive); [reflexivity|reflexivity|exact BB|exact (eq_trans PC RA)|]. left. unfold rx_may in M. unfold bstage. rewrite G.
           destruct (rp_pc s T_BMS); try discriminate. auto.
        -- destruct (f_stage (vh_f (rp_v s)) T_BMS) eqn:G;
             try (apply BOther; [reflexivity|exact BB|exact (eq_trans PC RA)|unfold bstage; rewrite G; auto]).
           apply (BLeave _ _ _ ADone); [reflexivity|reflexivity|exact BB|exact (eq_trans PC RA)|]. right. unfold rx_may in M. unfold bstage. rewrite G.
           destruct (rp_pc s T_BMS); try discriminate. auto.
      * apply BOther; [reflexivity|exact BB|exact (eq_trans PC RA)|auto].
    + apply BOther; try reflexivity.
      * unfold bat. cbn [rp_veh rp_v].
        destruct (veh_battery c tick (ds_from_config c) (rp_v s)
                   (VRun t match a with AWrite v => AWrite (keep_reports v (f_vs (vh_f (rp_v s)))) | _ => a end))
          as [E|(u & v & E & Q)]; [exact E|]. rewrite Q.
        destruct a; try discriminate. injection E as _ <-. reflexivity.
      * intros E. injection E as -> ->. discriminate.
  - (* a frame *)
    apply (BArrive _ _ _ g); try reflexivity. unfold rp_step. cbn [rp_q].
    change (is_rx_task T_BMS) with true. cbn [andb]. destruct (rx_accepts T_BMS g); [|now left].
    unfold queue_push. destruct (_ <? _)%nat; auto.
  - (* xQueueReceive *)
    unfold rp_step. cbn zeta.
    destruct (is_rx_task t && is_running (f_stage (vh_f (rp_v s)) t) && kernel_allows (vh_f (rp_v s)) t) eqn:G.
    2:{ apply BOther; auto; discriminate. }
    apply andb_prop in G. destruct G as (G & K). apply andb_prop in G. destruct G as (R & G).
    destruct (rp_pc s t) eqn:PC; try (apply BOther; auto; discriminate).
    destruct (Z.eq_dec t T_BMS) as [->|NT].
    + destruct (rp_q s T_BMS) as [|g q] eqn:Q.
      * apply BEmpty; auto.
      * apply (BTaken _ _ _ g); auto; cbn [rp_q rp_pc]; rewrite put_same; auto.
    + destruct (rp_q s t) as [|g q] eqn:Q; apply BOther; cbn [rp_q rp_pc]; auto; try discriminate;
        rewrite ?put_other by congruence; auto.
  - (* the write *)
    unfold rp_step. cbn zeta.
    destruct (is_rx_task t && is_inside (f_stage (vh_f (rp_v s)) t) && kernel_allows (vh_f (rp_v s)) t) eqn:G.
    2:{ apply BOther; auto; discriminate. }
    apply andb_prop in G. destruct G as (G & K). apply andb_prop in G. destruct G as (R & G).
    destruct (rp_pc s t) as [|g| |] eqn:PC; try (apply BOther; auto; discriminate).
    destruct (Z.eq_dec t T_BMS) as [->|NT].
    + apply (BWrite _ _ _ g); auto. now apply write_vs.
    + apply BOther; cbn [rp_veh rp_q rp_pc]; auto; try discriminate; [|now apply put_other; congruence].
      unfold bat. cbn [rp_veh rp_v]. rewrite write_vs by auto. unfold rx_apply.
      assert (E : (t =? T_BMS) = false) by now apply Z.eqb_neq. rewrite E.
      unfold others_of, set_dash, set_inputs. cbn [vs_battery]. apply inv_battery.
Qed.

(** ** Its activations *)
Lemma rp_stage : forall c tick s ev, ev <> RVeh VTick ->
  (since (bstage (rp_step c tick s ev)) = since (bstage s) /\ bnote (rp_step c tick s ev) = bnote s) \/
  (bstage s = Waiting /\ bnote s <> 0 /\ bstage (rp_step c tick s ev) <> Waiting) \/
  (bstage s <> Waiting /\ bstage (rp_step c tick s ev) = Waiting /\ rp_pc s T_BMS = RxEmpty /\
   rp_pc (rp_step c tick s ev) T_BMS = RxLoop).
Proof.
  intros c tick s ev NT. unfold bstage, bnote. rewrite step_v.
  destruct (veh_ev s ev) as [e|] eqn:V; [|now left].
  destruct (f_cases c tick (ds_from_config c) (rp_v s) e) as [->|[(-> & _)|[(t & -> & O & ->)|(t & a & -> & K & ->)]]].
  - now left.
  - now apply veh_ev_tick in V.
  - left. cbn [fresh_step]. destruct (t =? T_SENSE); [auto|]. cbn [f_stage f_note]. split; [reflexivity|].
    apply put_other. intros <-. discriminate.
  - destruct (act_cases (ds_from_config c) (vh_f (rp_v s)) t a T_BMS) as [E|[(<- & W & NZ & S & _)|(<- & -> & NW & W & _)]].
    + now left.
    + right. left. split; [exact W|]. split; [exact NZ|]. intros Q. rewrite Q in S. discriminate.
    + right. right. split; [exact NW|]. split; [exact W|].
      unfold veh_ev in V. destruct ev as [e|f|t|t]; cbn zeta in V; try discriminate.
      * destruct e; try discriminate. destruct (is_rx_task t) eqn:R.
        -- destruct (rx_may (rp_pc s t) a) eqn:M; [|discriminate]. injection V as -> ->.
           assert (PC : rp_pc s T_BMS = RxEmpty)
             by (unfold rx_may in M; destruct (rp_pc s T_BMS); try discriminate; reflexivity).
           split; [exact PC|]. unfold rp_step. rewrite R, M. cbn [rp_veh rp_pc]. rewrite put_same.
           unfold rx_after. rewrite K. destruct (f_stage (vh_f (rp_v s)) T_BMS) eqn:G; auto.
           ++ now elim NW.
           ++ unfold act_step in W. rewrite G in W. congruence.
           ++ unfold act_step in W. rewrite G in W. congruence.
        -- injection V as -> _. discriminate.
      * destruct (is_rx_task t && _ && _); [|discriminate]. destruct (rp_pc s t); discriminate.
Qed.

Lemma tick_kept : forall c tick s, let s' := rp_step c tick s (RVeh VTick) in
  bstage s' = bstage s /\ bnote s' = u32 (bnote s + 1) /\ rp_pc s' = rp_pc s /\ rp_q s' = rp_q s /\ bat s' = bat s.
Proof. intros. repeat split. Qed.

Lemma waiting_loop : forall c tick m0 tr, bstage (rp_run c tick m0 tr) = Waiting ->
  rp_pc (rp_run c tick m0 tr) T_BMS = RxLoop.
Proof.
  intros c tick m0 tr. induction tr as [|ev tr IH] using rev_ind; [reflexivity|].
  rewrite rp_run_snoc. set (s := rp_run c tick m0 tr) in *. intros W.
  assert (D : ev = RVeh VTick \/ ev <> RVeh VTick) by (destruct ev as [[]| | |]; auto; right; discriminate).
  destruct D as [->|NT]; [exact (IH W)|].
  destruct (rp_stage c tick s ev NT) as [(E & _)|[(_ & _ & NW)|(_ & _ & _ & Q)]]; [|contradiction|exact Q].
  assert (WS : bstage s = Waiting) by (apply since_waiting; rewrite <- E, W; reflexivity).
  specialize (IH WS).
  destruct (bms_cases c tick s ev); rewrite ?WS in *; try discriminate; congruence.
Qed.

(** ** Battery values in frames *)
Lemma fault_battery : forall c k v w, of_battery k -> vs_battery v = vs_battery w ->
  fault_cond c k v = fault_cond c k w.
Proof.
  intros c k v w H E. unfold fault_cond. cbn zeta. rewrite E.
  destruct H as [<-|[<-|[<-|[<-|[]]]]]; reflexivity.
Qed.

Lemma report_genuine : forall k g, is_report k g <-> genuine BMS_BUS (report_id k) (g, true) = true.
Proof.
  intros k g. unfold is_report, genuine. cbn [fst snd]. rewrite !andb_true_iff, !Z.eqb_eq. tauto.
Qed.

Lemma bms_one : forall g v, frame_bytes g ->
  rx_apply T_BMS g v = set_battery v (battery_after BMS_BUS [(g, true)] (vs_battery v)).
Proof.
  intros g v B. change (rx_apply T_BMS g v) with (BMSProcessing BMS_BUS v [(g, true)]).
  apply battery_refine. constructor; [exact B|constructor].
Qed.

Lemma other_frame : forall c k g v, of_battery k -> frame_bytes g -> ~ is_report k g ->
  fault_cond c k (rx_apply T_BMS g v) = fault_cond c k v.
Proof.
  intros c k g v K B N. rewrite bms_one by auto.
  assert (G : genuine BMS_BUS (report_id k) (g, true) = false).
  { destruct (genuine BMS_BUS (report_id k) (g, true)) eqn:E; auto. now apply report_genuine in E. }
  assert (L : forall A (dec : list Z -> A) p, latest BMS_BUS (report_id k) dec p [(g, true)] = p).
  { intros A dec p. unfold latest. cbn [rev app find]. now rewrite G. }
  unfold fault_cond. cbn zeta. 
  destruct K as [<-|[<-|[<-|[<-|[]]]]]; unfold set_battery, battery_after; cbn [vs_battery b_maxCellTemperature
    b_dcCurrent b_maxCellVoltage b_stateOfCharge]; cbn [report_id] in L; rewrite L; reflexivity.
Qed.

(** ** From the frame to the vehicle state *)
Section Path.
  Variables (c : config) (tick : Z) (m0 : vsm) (k : fault_kind) (f : can_frame).
  Hypothesis K : of_battery k.
  Hypothesis FB : frame_bytes f.
  Hypothesis FR : is_report k f.
  Hypothesis FF : reports_fault c k f.

  Definition okf (g : can_frame) : Prop := frame_bytes g /\ (is_report k g -> reports_fault c k g).

  Definition pending (s : reports) : Prop :=
    (exists old newer, rp_q s T_BMS = old ++ f :: newer /\ Forall okf newer) \/
    (rp_pc s T_BMS = RxGot f /\ Forall okf (rp_q s T_BMS)).
  Definition settled (s : reports) : Prop :=
    Forall okf (rp_q s T_BMS) /\ (forall g, rp_pc s T_BMS = RxGot g -> okf g) /\
    fault_cond c k (f_vs (vh_f (rp_v s))) = true.
  Definition busy (s : reports) : Prop :=
    (bstage s = Waiting /\ bnote s <> 0) \/ (bstage s <> Waiting /\ rp_pc s T_BMS <> RxEmpty).

  Definition ok_event (ev : rp_event) : Prop := match ev with RFrame g => okf g | _ => True end.

  Lemma wrote : forall g v, okf g -> fault_cond c k v = true \/ is_report k g ->
    fault_cond c k (others_of (rx_apply T_BMS g v) v) = true.
  Proof.
    intros g v (B & R) H.
    rewrite (fault_battery c k _ (rx_apply T_BMS g v) K) by reflexivity.
    assert (D : is_report k g \/ ~ is_report k g).
    { destruct (genuine BMS_BUS (report_id k) (g, true)) eqn:E; rewrite <- ?report_genuine in E; auto.
      right. intros Q. apply report_genuine in Q. congruence. }
    destruct D as [D|D].
    - rewrite bms_one by auto. now apply R.
    - rewrite other_frame; auto. destruct H; [assumption|contradiction].
  Qed.

  Lemma settled_step : forall s ev, ok_event ev -> settled s -> settled (rp_step c tick s ev).
  Proof.
    intros s ev OK (Q & P & V). pose proof (bms_cases c tick s ev) as BC. revert BC.
    generalize (rp_step c tick s ev). intros s' BC. destruct BC as
      [g -> V1 P1 Q1| -> V1 _ P0 Q0 Q1 P1|g -> V1 _ P0 Q0 P1|g -> P0 P1 Q1 _ V1|a -> Q1 B1 P1 _|Q1 B1 P1 _];
      unfold settled.
    - rewrite V1. split; [|split; [rewrite P1; exact P|exact V]].
      destruct Q1 as [->| ->]; auto. apply Forall_app. auto.
    - rewrite V1, Q1, P1. split; [constructor|]. split; [discriminate|exact V].
    - rewrite V1, P1. rewrite Q0 in Q. inversion Q; subst. split; [assumption|]. split; [|exact V].
      intros x. destruct (rx_writes T_BMS g); [|discriminate]. intros E. injection E as <-. assumption.
    - rewrite Q1, P1, V1. split; [exact Q|]. split; [discriminate|]. apply wrote; auto.
    - rewrite Q1, P1. split; [exact Q|]. split; [discriminate|].
      now rewrite (fault_battery c k _ (f_vs (vh_f (rp_v s))) K).
    - rewrite Q1, P1. split; [exact Q|]. split; [exact P|].
      now rewrite (fault_battery c k _ (f_vs (vh_f (rp_v s))) K).
  Qed.

  Lemma f_is_written : rx_writes T_BMS f = true.
  Proof.
    destruct FR as (A & B & D). unfold rx_writes. rewrite A, B, D.
    destruct K as [<-|[<-|[<-|[<-|[]]]]]; reflexivity.
  Qed.
  Lemma f_ok : okf f. Proof. split; auto. Qed.

  Lemma pending_step : forall s ev, ok_event ev -> pending s ->
    pending (rp_step c tick s ev) \/ settled (rp_step c tick s ev).
  Proof.
    intros s ev OK PE. pose proof (bms_cases c tick s ev) as BC. revert BC.
    generalize (rp_step c tick s ev). intros s' BC. destruct BC as
      [g -> V1 P1 Q1| -> V1 _ P0 Q0 Q1 P1|g -> V1 _ P0 Q0 P1|g -> P0 P1 Q1 _ V1|a -> Q1 B1 P1 LV|Q1 B1 P1 _];
      destruct PE as [(old & newer & Q & N)|(P & N)].
    - left. left. destruct Q1 as [->| ->]; [eauto|]. exists old, (newer ++ [g]). rewrite Q, <- app_assoc.
      split; [reflexivity|]. apply Forall_app. auto.
    - left. right. rewrite P1. split; [exact P|]. destruct Q1 as [->| ->]; auto. apply Forall_app. auto.
    - rewrite Q0 in Q. now destruct old.
    - congruence.
    - left. rewrite Q0 in Q. destruct old as [|o old]; cbn [app] in Q; injection Q as E1 E2.
      + right. rewrite P1, E1, E2, f_is_written. auto.
      + left. rewrite E2. eauto.
    - congruence.
    - left. left. rewrite Q1. eauto.
    - right. rewrite P0 in P. injection P as ->. unfold settled. rewrite Q1, P1, V1.
      split; [exact N|]. split; [discriminate|]. apply wrote; [exact f_ok|auto].
    - left. left. rewrite Q1. eauto.
    - destruct LV as [(_ & Q & _)|(_ & Q & _)]; congruence.
    - left. left. rewrite Q1. eauto.
    - left. right. rewrite Q1, P1. auto.
  Qed.

  (** Between two ticks. *)
  Lemma busy_step : forall s ev, ok_event ev -> ev <> RVeh VTick -> pending s -> busy s ->
    (bstage s = Waiting -> rp_pc s T_BMS = RxLoop) -> busy (rp_step c tick s ev).
  Proof.
    intros s ev OK NT PE B WL. unfold busy in *.
    pose proof (bms_cases c tick s ev) as BC. pose proof (rp_stage c tick s ev NT) as ST. revert BC ST.
    generalize (rp_step c tick s ev). intros s' BC [(E & N)|[(W & NZ & NW)|(NW & W & PC & _)]].
    - rewrite N. destruct B as [(W & NZ)|(NW & NE)].
      + left. split; auto. apply since_waiting. rewrite E, W. reflexivity.
      + right. split; [intros W; apply NW, since_waiting; now rewrite <- E, W|].
        destruct BC as
          [g -> V1 P1 Q1| -> V1 _ P0 Q0 Q1 P1|g -> V1 _ P0 Q0 P1|g -> P0 P1 Q1 _ V1|a -> Q1 B1 P1 LV|Q1 B1 P1 _];
          try congruence.
        * destruct PE as [(old & newer & Q & _)|(P & _)]; [|congruence]. rewrite Q0 in Q. now destruct old.
        * rewrite P1. destruct (rx_writes T_BMS g); discriminate.
    - right. split; [exact NW|]. specialize (WL W).
      destruct BC as
        [g -> V1 P1 Q1| -> V1 RU P0 Q0 Q1 P1|g -> V1 RU P0 Q0 P1|g -> P0 P1 Q1 _ V1|a -> Q1 B1 P1 LV|Q1 B1 P1 _];
        try congruence; rewrite W in RU; discriminate.
    - destruct B as [(W' & _)|(_ & NE)]; contradiction.
  Qed.
End Path.
