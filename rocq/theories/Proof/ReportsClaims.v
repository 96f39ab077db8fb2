From Coq Require Import ZifyBool ZifyNat.
From Verif.Base Require Import Words.
From Verif.Model Require Import Reports.
From Verif.Spec Require Import FaultSpec VsmSpec CanDriverSpec FreshSpec RxSpec InverterSpec EcuSpec VehicleSpec ReportsSpec.
From Verif.Proof Require Import FaultProof VsmProof RxProof FreshProof EcuProof RealTimeProof VehicleProof VehicleClaims ReportsProof.
Open Scope Z_scope.

(** ** The run as a whole *)
Lemma frames_app : forall a b, frames_in (a ++ b) = frames_in a ++ frames_in b.
Proof. induction a as [|[] a IH]; intros b; cbn [app frames_in]; rewrite ?IH; reflexivity. Qed.
Lemma rp_ticks_app : forall a b, rp_ticks (a ++ b) = rp_ticks a + rp_ticks b.
Proof.
  induction a as [|[[]| | |] a IH]; intros b; cbn [app rp_ticks]; rewrite ?IH; lia.
Qed.
Lemma rp_first_tick : forall b, 1 <= rp_ticks b ->
  exists b0 b1, b = b0 ++ RVeh VTick :: b1 /\ rp_ticks b0 = 0.
Proof.
  induction b as [|ev b IH]; cbn [rp_ticks]; [lia|]. intros H.
  assert (D : ev = RVeh VTick \/ ev <> RVeh VTick) by (destruct ev as [[]| | |]; auto; right; discriminate).
  destruct D as [->|N]; [exists [], b; auto|].
  destruct IH as (b0 & b1 & -> & Z0); [destruct ev as [[]| | |]; auto; congruence|].
  exists (ev :: b0), b1. split; [reflexivity|]. destruct ev as [[]| | |]; auto; congruence.
Qed.
Lemma no_tick : forall b ev, rp_ticks b = 0 -> In ev b -> ev <> RVeh VTick.
Proof.
  intros b ev Z0 IN ->. apply in_split in IN. destruct IN as (x & y & ->).
  rewrite rp_ticks_app in Z0. cbn [rp_ticks] in Z0.
  assert (P : forall l, 0 <= rp_ticks l) by (induction l as [|[[]| | |] l IH]; cbn [rp_ticks]; lia).
  pose proof (P x). pose proof (P y). lia.
Qed.

Lemma rp_idle_veh : forall s, rp_idle s -> veh_idle (rp_v s).
Proof. intros s H t IN. apply H. destruct IN as [<-|[<-|[]]]; cbn; auto. Qed.

Lemma keeps_later : forall c tick m0 a x y, rp_keeps_up c tick m0 a (x ++ y) -> rp_keeps_up c tick m0 (a ++ x) y.
Proof. intros c tick m0 a x y K b1 b2 E. rewrite <- app_assoc. apply (K (x ++ b1) b2). now rewrite E, app_assoc. Qed.

Lemma rp_keeps_veh : forall c tick m0 a b, rp_keeps_up c tick m0 a b ->
  veh_keeps_up c tick m0 (vt c tick m0 a) (vtrace c tick (rp_run c tick m0 a) b).
Proof.
  intros c tick m0 a b K x y E. destruct (vtrace_tick _ _ _ _ _ _ E) as (t1 & t2 & -> & ->).
  rewrite <- vt_app, <- vt_run. apply rp_idle_veh, (K t1 t2). reflexivity.
Qed.

(** The state manager's copy. *)
Lemma snap_next : forall c tick d s ev,
  vh_snap (veh_step c tick d s ev) = None \/ vh_snap (veh_step c tick d s ev) = vh_snap s \/
  (vh_snap (veh_step c tick d s ev) = Some (f_vs (vh_f s)) /\
   is_inside (f_stage (vh_f s) T_VSM) = true /\ vh_f (veh_step c tick d s ev) = vh_f s).
Proof.
  intros c tick d s ev. unfold veh_step. destruct ev; cbn zeta.
  - cbn [with_f vh_snap]. destruct (is_waiting _); auto.
  - destruct (on_timer t); auto. cbn [with_f vh_snap]. destruct (is_waiting _); auto.
  - destruct (may s t a); auto. cbn [with_f vh_snap]. destruct (is_waiting _); auto.
  - destruct (is_inside _ && _ && _); auto.
  - destruct (is_inside _) eqn:E; cbn [andb]; auto. destruct (kernel_allows _ _ && _); auto.
  - destruct (is_inside _ && _ && _); auto.
  - destruct (is_running _ && _ && _ && _); auto.
  - match goal with |- context [if ?b then _ else _] => destruct b end; auto.
Qed.

(** ** A report of the battery reaches the state manager *)
Section Reaction.
  Variables (c : config) (tick : Z) (m0 : vsm) (k : fault_kind) (f : can_frame).
  Hypothesis K : of_battery k.
  Hypothesis FB : frame_bytes f.
  Hypothesis FR : is_report k f.
  Hypothesis FF : reports_fault c k f.

  Lemma ok_events : forall b, (forall g, In g (frames_in b) -> okf c k g) -> Forall (ok_event c k) b.
  Proof.
    induction b as [|ev b IH]; intros H; constructor.
    - destruct ev; cbn [ok_event]; auto. apply H. now left.
    - apply IH. intros g IN. apply H. destruct ev; cbn [frames_in]; auto. now right.
  Qed.

  Lemma f_arrives : forall s, (length (rp_q s T_BMS) < RX_QUEUE_LENGTH)%nat ->
    pending c k f (rp_step c tick s (RFrame f)).
  Proof.
    intros s L. left. exists (rp_q s T_BMS), []. split; [|constructor]. unfold rp_step. cbn [rp_q].
    assert (A : rx_accepts T_BMS f = true).
    { destruct FR as (B & I & _). unfold rx_accepts. rewrite B, I.
      destruct K as [<-|[<-|[<-|[<-|[]]]]]; reflexivity. }
    change (is_rx_task T_BMS) with true. rewrite A. cbn [andb]. unfold queue_push.
    apply Nat.ltb_lt in L. now rewrite L.
  Qed.

  Lemma pending_run : forall b s, Forall (ok_event c k) b -> pending c k f s \/ settled c k s ->
    pending c k f (fold_left (rp_step c tick) b s) \/ settled c k (fold_left (rp_step c tick) b s).
  Proof.
    induction b as [|ev b IH]; intros s F H; [exact H|]. inversion F; subst. cbn [fold_left]. apply IH; auto.
    destruct H as [H|H]; [now apply pending_step|right; now apply settled_step].
  Qed.
  Lemma settled_run : forall b s, Forall (ok_event c k) b -> settled c k s ->
    settled c k (fold_left (rp_step c tick) b s).
  Proof.
    induction b as [|ev b IH]; intros s F H; [exact H|]. inversion F; subst. cbn [fold_left]. apply IH; auto.
    now apply settled_step.
  Qed.

  Lemma busy_run : forall a b, Forall (ok_event c k) b -> rp_ticks b = 0 ->
    let s := rp_run c tick m0 a in (pending c k f s /\ busy s) \/ settled c k s ->
    let s' := rp_run c tick m0 (a ++ b) in (pending c k f s' /\ busy s') \/ settled c k s'.
  Proof.
    intros a b F Z0 s H. revert F Z0. induction b as [|ev b IH] using rev_ind; intros F Z0 s'; subst s'.
    - now rewrite app_nil_r.
    - apply Forall_app in F. destruct F as (F & FE). inversion FE as [|? ? OK _]; subst.
      assert (NT : ev <> RVeh VTick) by (apply (no_tick (b ++ [ev])); auto; apply in_app_iff; cbn; auto).
      rewrite rp_ticks_app in Z0.
      assert (Zb : rp_ticks b = 0).
      { destruct ev as [[]| | |]; cbn [rp_ticks] in Z0; try lia. congruence. }
      specialize (IH F Zb). cbn zeta in IH. rewrite app_assoc, rp_run_snoc.
      destruct IH as [(P & B)|S]; [|right; now apply settled_step].
      destruct (pending_step c tick k f K FB FR FF _ ev OK P) as [P'|S']; [|now right].
      left. split; [exact P'|]. apply (busy_step c tick k f); auto. apply waiting_loop.
  Qed.

  (** Two ticks after it arrived, the frame is in the vehicle state. *)
  Lemma settles : forall a b0 b1,
    (length (rp_q (rp_run c tick m0 a) T_BMS) < RX_QUEUE_LENGTH)%nat ->
    Forall (ok_event c k) (b0 ++ RVeh VTick :: b1) -> rp_ticks b1 = 0 ->
    rp_idle (rp_run c tick m0 (a ++ RFrame f :: b0)) ->
    rp_idle (rp_run c tick m0 (a ++ RFrame f :: b0 ++ RVeh VTick :: b1)) ->
    settled c k (rp_run c tick m0 (a ++ RFrame f :: b0 ++ RVeh VTick :: b1)).
  Proof.
    intros a b0 b1 L F Z1 I0 I1. apply Forall_app in F. destruct F as (F0 & F1). inversion F1 as [|? ? _ F2]; subst.
    assert (P : pending c k f (rp_run c tick m0 (a ++ RFrame f :: b0)) \/ settled c k (rp_run c tick m0 (a ++ RFrame f :: b0))).
    { rewrite rp_run_app. cbn [fold_left]. apply pending_run; auto. left. now apply f_arrives. }
    set (x := a ++ RFrame f :: b0) in *.
    assert (E : a ++ RFrame f :: b0 ++ RVeh VTick :: b1 = (x ++ [RVeh VTick]) ++ b1).
    { unfold x. rewrite <- !app_assoc. reflexivity. }
    rewrite E in *. clear E.
    assert (Q : (pending c k f (rp_run c tick m0 (x ++ [RVeh VTick])) /\ busy (rp_run c tick m0 (x ++ [RVeh VTick])))
                \/ settled c k (rp_run c tick m0 (x ++ [RVeh VTick]))).
    { rewrite rp_run_snoc. destruct P as [P|S]; [|right; now apply settled_step].
      destruct (pending_step c tick k f K FB FR FF _ (RVeh VTick) I P) as [P'|S']; [|now right].
      left. split; [exact P'|]. left.
      destruct (tick_kept c tick (rp_run c tick m0 x)) as (E1 & E2 & _). rewrite E1, E2.
      destruct (I0 T_BMS) as (W & N0); [cbn; auto|]. fold (bstage (rp_run c tick m0 x)) in W.
      fold (bnote (rp_run c tick m0 x)) in N0. rewrite W, N0. split; [reflexivity|discriminate]. }
    destruct (busy_run _ b1 F2 Z1 Q) as [(_ & B)|S]; [|exact S]. exfalso.
    destruct (I1 T_BMS) as (W & N0); [cbn; auto|]. fold (bstage (rp_run c tick m0 ((x ++ [RVeh VTick]) ++ b1))) in W.
    fold (bnote (rp_run c tick m0 ((x ++ [RVeh VTick]) ++ b1))) in N0.
    destruct B as [(_ & B)|(B & _)]; [rewrite N0 in B|rewrite W in B]; congruence.
  Qed.

  (** From there every copy of the state manager shows it. *)
  Lemma copies : forall x y, settled c k (rp_run c tick m0 x) -> vh_snap (rp_v (rp_run c tick m0 x)) = None ->
    Forall (ok_event c k) y ->
    settled c k (rp_run c tick m0 (x ++ y)) /\
    (forall v, vh_snap (rp_v (rp_run c tick m0 (x ++ y))) = Some v -> fault_cond c k v = true).
  Proof.
    intros x y S N. induction y as [|ev y IH] using rev_ind; intros F.
    - rewrite app_nil_r. split; [exact S|]. intros v E. congruence.
    - apply Forall_app in F. destruct F as (F & FE). inversion FE as [|? ? OK _]; subst. destruct (IH F) as (S' & H).
      rewrite app_assoc, rp_run_snoc. split; [now apply settled_step|].
      intros v. rewrite step_v. destruct (veh_ev _ ev) as [e|]; auto.
      destruct (snap_next c tick (ds_from_config c) (rp_v (rp_run c tick m0 (x ++ y))) e) as [E|[E|(E & _)]]; rewrite E; auto.
      + discriminate.
      + intros Q. injection Q as <-. apply S'.
  Qed.

  Lemma report_stops : forall (np : Prop) a b, cfg_ok c tick -> tol_small c tick -> vsm_init c tick = Some m0 ->
    vm_state (e_vsm (vh_e (rp_v (rp_run c tick m0 a)))) <> StInit ->
    (length (rp_q (rp_run c tick m0 a) T_BMS) < RX_QUEUE_LENGTH)%nat ->
    (forall g, In g (frames_in b) -> okf c k g) ->
    rp_keeps_up c tick m0 (a ++ [RFrame f]) b -> Forall rp_waits b ->
    0 <= tolerance c tick k -> tolerance c tick k + 4 <= rp_ticks b -> (np -> Forall rp_no_pc b) ->
    stopped np (vh_e (rp_v (rp_run c tick m0 (a ++ RFrame f :: b)))).
  Proof.
    intros np a b HC HT HI NI L FO KU W T0 TK NP.
    destruct (rp_first_tick b) as (b0 & b' & -> & Z0); [lia|]. rewrite rp_ticks_app in TK. cbn [rp_ticks] in TK.
    destruct (rp_first_tick b') as (b1 & b2 & -> & Z1); [lia|]. rewrite rp_ticks_app in TK. cbn [rp_ticks] in TK.
    pose proof (ok_events _ FO) as OK.
    assert (I0 : rp_idle (rp_run c tick m0 (a ++ RFrame f :: b0))).
    { specialize (KU b0 _ eq_refl). now rewrite <- app_assoc in KU. }
    assert (I1 : rp_idle (rp_run c tick m0 (a ++ RFrame f :: b0 ++ RVeh VTick :: b1))).
    { specialize (KU (b0 ++ RVeh VTick :: b1) b2). rewrite <- app_assoc in KU. cbn [app] in KU.
      rewrite <- app_assoc in KU. apply KU. reflexivity. }
    set (x := a ++ RFrame f :: b0 ++ RVeh VTick :: b1) in *. set (y := RVeh VTick :: b2).
    assert (E : a ++ RFrame f :: b0 ++ RVeh VTick :: b1 ++ y = x ++ y).
    { unfold x. rewrite <- app_assoc. cbn [app]. rewrite <- app_assoc. reflexivity. }
    change (RVeh VTick :: b2) with y in OK, KU, W, NP |- *. rewrite E.
    assert (SP : b0 ++ RVeh VTick :: b1 ++ y = (b0 ++ RVeh VTick :: b1) ++ y) by now rewrite <- app_assoc.
    rewrite SP in OK, KU, W, NP. apply Forall_app in OK. destruct OK as (OK1 & OK2).
    apply Forall_app in W. destruct W as (_ & W).
    assert (ST : settled c k (rp_run c tick m0 x)) by (apply settles; auto).
    assert (SN : vh_snap (rp_v (rp_run c tick m0 x)) = None).
    { rewrite vt_run. apply order_run. rewrite <- vt_run. apply (I1 T_VSM). cbn; auto. }
    apply keeps_later in KU.
    assert (EX : (a ++ [RFrame f]) ++ b0 ++ RVeh VTick :: b1 = x) by now rewrite <- app_assoc.
    rewrite EX in KU. rewrite vt_run, vt_app.
    apply (snap_reaction np c tick m0 (vt c tick m0 x) _ k); auto.
    - unfold x. rewrite vt_app. apply not_init_later; auto. now rewrite <- vt_run.
    - rewrite <- vt_run. now apply rp_idle_veh.
    - now apply rp_keeps_veh.
    - now apply vt_waits.
    - intros u w v at_ EV SV _ _. destruct (vtrace_split _ _ _ _ _ _ EV) as (t1 & t2 & EY & ->).
      rewrite <- vt_app, <- vt_run in SV. rewrite EY in OK2. apply Forall_app in OK2.
      destruct (copies x t1 ST SN (proj1 OK2)) as (_ & H). now apply H.
    - rewrite vt_ticks. unfold y. cbn [rp_ticks]. lia.
    - intros Hn. apply vt_no_pc. specialize (NP Hn). now apply Forall_app in NP.
  Qed.
End Reaction.

(** Frames sent by a step. *)
Lemma rp_sends_veh : forall c tick s ev t, rp_sends c tick s ev t ->
  exists e, veh_ev s ev = Some e /\ veh_sends c tick (rp_v s) e t.
Proof.
  intros c tick s ev t (l & E & IN). rewrite step_v in E. destruct (veh_ev s ev) as [e|].
  - exists e. split; [reflexivity|]. exists l. auto.
  - rewrite <- app_nil_r in E at 1. apply app_inv_head in E. subst l. destruct IN.
Qed.

Lemma stopped_rp : forall (np : Prop) c tick m0 a b, (np -> Forall rp_no_pc b) ->
  stopped np (vh_e (rp_v (rp_run c tick m0 a))) -> stopped np (vh_e (rp_v (rp_run c tick m0 (a ++ b)))).
Proof.
  intros np c tick m0 a b NP S. rewrite vt_run in *. rewrite vt_app. apply stopped_veh; auto.
  intros H. apply vt_no_pc. auto.
Qed.

(** ** How long the queue gets *)
Lemma queue_step : forall c tick s ev,
  Z.of_nat (length (rp_q (rp_step c tick s ev) T_BMS))
  <= Z.of_nat (length (rp_q s T_BMS)) + Z.of_nat (length (on_bms (frames_in [ev]))).
Proof.
  intros c tick s ev. assert (A := bms_cases c tick s ev).
  destruct ev as [e|g|t|t];
    try (revert A; generalize (rp_step c tick s); intros st A; destruct A as
      [h E V1 P1 Q1|E V1 _ P0 Q0 Q1 P1|h E V1 _ P0 Q0 P1|h E P0 P1 Q1 _ V1|a E Q1 B1 P1 LV|Q1 B1 P1 _]; try discriminate E;
      rewrite ?Q1, ?Q0; cbn [length]; lia).
  clear A. unfold rp_step. cbn [rp_q frames_in on_bms filter]. change (is_rx_task T_BMS) with true. cbn [andb].
  destruct (rx_accepts T_BMS g) eqn:A; [|destruct (fr_bus g =? BMS_BUS); cbn [length]; lia].
  unfold rx_accepts in A. change (rx_bus T_BMS) with BMS_BUS in A. apply andb_prop in A. destruct A as (-> & _).
  unfold queue_push. destruct (_ <? _)%nat; rewrite ?app_length; cbn [length]; lia.
Qed.
Lemma on_bms_app : forall a b, on_bms (a ++ b) = on_bms a ++ on_bms b.
Proof. intros. unfold on_bms. apply filter_app. Qed.
Lemma queue_run : forall c tick b s,
  Z.of_nat (length (rp_q (fold_left (rp_step c tick) b s) T_BMS))
  <= Z.of_nat (length (rp_q s T_BMS)) + Z.of_nat (length (on_bms (frames_in b))).
Proof.
  intros c tick b. induction b as [|ev b IH]; intros s; cbn [fold_left]; [cbn; lia|].
  specialize (IH (rp_step c tick s ev)). pose proof (queue_step c tick s ev) as Q.
  change (ev :: b) with ([ev] ++ b). rewrite frames_app, on_bms_app, app_length. lia.
Qed.

Lemma busy_or_empty : forall c tick s ev, ev <> RVeh VTick -> busy s ->
  (bstage s = Waiting -> rp_pc s T_BMS = RxLoop) ->
  busy (rp_step c tick s ev) \/ rp_q (rp_step c tick s ev) T_BMS = [].
Proof.
  intros c tick s ev NT B WL. unfold busy in *.
  pose proof (bms_cases c tick s ev) as BC. pose proof (rp_stage c tick s ev NT) as ST. revert BC ST.
  generalize (rp_step c tick s ev). intros s' BC [(E & N)|[(W & NZ & NW)|(NW & W & PC & _)]].
  - rewrite N. destruct B as [(W & NZ)|(NW & NE)].
    + left. left. split; auto. apply since_waiting. rewrite E, W. reflexivity.
    + assert (NW' : bstage s' <> Waiting) by (intros W; apply NW, since_waiting; now rewrite <- E, W).
      destruct BC as
        [g -> V1 P1 Q1| -> V1 _ P0 Q0 Q1 P1|g -> V1 _ P0 Q0 P1|g -> P0 P1 Q1 _ V1|a -> Q1 B1 P1 LV|Q1 B1 P1 _];
        try (left; right; split; [exact NW'|congruence]).
      * now right.
      * left. right. split; [exact NW'|]. rewrite P1. destruct (rx_writes T_BMS g); discriminate.
  - left. right. split; [exact NW|]. specialize (WL W).
    destruct BC as
      [g -> V1 P1 Q1| -> V1 RU P0 Q0 Q1 P1|g -> V1 RU P0 Q0 P1|g -> P0 P1 Q1 _ V1|a -> Q1 B1 P1 LV|Q1 B1 P1 _];
      try congruence; rewrite W in RU; discriminate.
  - destruct B as [(W' & _)|(_ & NE)]; contradiction.
Qed.

Lemma emptied : forall c tick m0 x b1, rp_idle (rp_run c tick m0 x) -> rp_ticks b1 = 0 ->
  let s := rp_run c tick m0 (x ++ RVeh VTick :: b1) in
  busy s \/ Z.of_nat (length (rp_q s T_BMS)) <= Z.of_nat (length (on_bms (frames_in b1))).
Proof.
  intros c tick m0 x b1 I0. induction b1 as [|ev b IH] using rev_ind; intros Z1 s; unfold s.
  - left. left. rewrite rp_run_snoc. destruct (tick_kept c tick (rp_run c tick m0 x)) as (E1 & E2 & _). rewrite E1, E2.
    destruct (I0 T_BMS) as (W & N0); [cbn; auto|]. fold (bstage (rp_run c tick m0 x)) in W.
    fold (bnote (rp_run c tick m0 x)) in N0. rewrite W, N0. split; [reflexivity|discriminate].
  - assert (NT : ev <> RVeh VTick) by (apply (no_tick (b ++ [ev])); auto; apply in_app_iff; cbn; auto).
    rewrite rp_ticks_app in Z1.
    assert (Zb : rp_ticks b = 0).
    { destruct ev as [[]| | |]; cbn [rp_ticks] in Z1; try lia. congruence. }
    specialize (IH Zb). cbn zeta in IH. change (x ++ RVeh VTick :: b ++ [ev]) with (x ++ (RVeh VTick :: b) ++ [ev]).
    rewrite app_assoc, rp_run_snoc, frames_app, on_bms_app, app_length.
    destruct IH as [B|L].
    + destruct (busy_or_empty c tick (rp_run c tick m0 (x ++ RVeh VTick :: b)) ev NT B (waiting_loop _ _ _ _)) as [B'|E].
      * now left.
      * right. rewrite E. cbn [length]. lia.
    + right. pose proof (queue_step c tick (rp_run c tick m0 (x ++ RVeh VTick :: b)) ev). lia.
Qed.

Lemma queue_two_periods : forall c tick m0 x b1 b2, rp_idle (rp_run c tick m0 x) -> rp_ticks b1 = 0 ->
  rp_idle (rp_run c tick m0 (x ++ RVeh VTick :: b1)) ->
  Z.of_nat (length (rp_q (rp_run c tick m0 (x ++ RVeh VTick :: b1 ++ b2)) T_BMS))
  <= Z.of_nat (length (on_bms (frames_in (b1 ++ b2)))).
Proof.
  intros c tick m0 x b1 b2 I0 Z1 I1.
  change (x ++ RVeh VTick :: b1 ++ b2) with (x ++ (RVeh VTick :: b1) ++ b2). rewrite app_assoc, rp_run_app.
  pose proof (queue_run c tick b2 (rp_run c tick m0 (x ++ RVeh VTick :: b1))) as Q.
  rewrite frames_app, on_bms_app, app_length.
  destruct (emptied c tick m0 x b1 I0 Z1) as [B|L]; [|lia]. exfalso.
  destruct (I1 T_BMS) as (W & N0); [cbn; auto|]. fold (bstage (rp_run c tick m0 (x ++ RVeh VTick :: b1))) in W.
  fold (bnote (rp_run c tick m0 (x ++ RVeh VTick :: b1))) in N0.
  destruct B as [(_ & B)|(B & _)]; [rewrite N0 in B|rewrite W in B]; congruence.
Qed.

(** ** A silent battery *)
Lemma not_battery : forall g, (0 <= fr_id g < 0x300 \/ 0x400 <= fr_id g < 0x800) ->
  Z.land (fr_id g) DEVICEIDMASK <> BMS_CAN_DEVICEID.
Proof.
  intros g H E. unfold DEVICEIDMASK, BMS_CAN_DEVICEID in E.
  assert (S : Z.shiftr (Z.land (fr_id g) 0xF00) 8 = Z.land (Z.shiftr (fr_id g) 8) 15) by now rewrite Z.shiftr_land.
  rewrite E in S. change (Z.shiftr 768 8) with 3 in S. rewrite Z.shiftr_div_pow2 in S by lia.
  change 15 with (Z.ones 4) in S. rewrite Z.land_ones in S by lia. change (2 ^ 8) with 256 in S. change (2 ^ 4) with 16 in S.
  assert (R : 0 <= fr_id g / 256 < 8) by (split; [apply Z.div_pos; lia|apply Z.div_lt_upper_bound; lia]).
  rewrite Z.mod_small in S by lia.
  pose proof (Z.div_mod (fr_id g) 256). pose proof (Z.mod_pos_bound (fr_id g) 256). lia.
Qed.

Lemma silent_keeps : forall c tick m0 a b, battery_handled (rp_run c tick m0 a) -> battery_silent b ->
  let s := rp_run c tick m0 (a ++ b) in
  rp_q s T_BMS = [] /\ (forall g, rp_pc s T_BMS <> RxGot g) /\ bat s = bat (rp_run c tick m0 a).
Proof.
  intros c tick m0 a b (Q & W). induction b as [|ev b IH] using rev_ind; intros S s; unfold s.
  - rewrite app_nil_r. split; [exact Q|]. split; [|reflexivity]. intros g. rewrite waiting_loop by exact W. discriminate.
  - assert (Sb : battery_silent b) by (intros g IN; apply S; rewrite frames_app; apply in_app_iff; auto).
    specialize (IH Sb). cbn zeta in IH. destruct IH as (Qb & Pb & Bb).
    assert (SE : forall g, ev = RFrame g -> rx_accepts T_BMS g = false).
    { intros g ->. unfold rx_accepts. change (rx_bus T_BMS) with BMS_BUS. change (T_BMS =? T_BMS) with true. cbn iota.
      destruct (Z.eqb_spec (fr_bus g) BMS_BUS) as [E|]; [|reflexivity]. cbn [andb]. apply Z.eqb_neq, not_battery, S; auto.
      rewrite frames_app. apply in_app_iff. cbn; auto. }
    rewrite app_assoc, rp_run_snoc. set (r := rp_run c tick m0 (a ++ b)) in *.
    assert (FQ : forall g, ev = RFrame g -> rp_q (rp_step c tick r ev) T_BMS = []).
    { intros g E. specialize (SE g E). subst ev. unfold rp_step. cbn [rp_q]. now rewrite SE, andb_false_r. }
    pose proof (bms_cases c tick r ev) as BC. revert BC FQ.
    generalize (rp_step c tick r ev). intros s' BC FQ. destruct BC as
      [g E V1 P1 Q1|E V1 _ P0 Q0 Q1 P1|g E V1 _ P0 Q0 P1|g E P0 P1 Q1 _ V1|x E Q1 B1 P1 LV|Q1 B1 P1 _].
    + split; [now apply (FQ g)|]. unfold bat in *. rewrite P1, V1. auto.
    + unfold bat in *. rewrite Q1, P1, V1. split; [reflexivity|]. split; [discriminate|exact Bb].
    + congruence.
    + now elim (Pb g).
    + rewrite Q1, P1, B1. split; [exact Qb|]. split; [discriminate|exact Bb].
    + rewrite Q1, P1, B1. auto.
Qed.

(** ** The vehicle goes on driving *)
Lemma no_fault_step : forall c s v, classify (fm_faults s) = FS_NoFault ->
  (forall k, fault_cond c k v = false) -> snd (fm_step c s (Some v)) = FS_NoFault /\
  classify (fm_faults (fst (fm_step c s (Some v)))) = FS_NoFault.
Proof.
  intros c s v C H. rewrite fm_step_report. cut (fm_faults (fst (fm_step c s (Some v))) = fm_faults s).
  { intros ->. auto. }
  pose proof (H AccelRange) as H1. pose proof (H AccelDisagree) as H2. pose proof (H BrakeRange) as H3.
  pose proof (H PedalAbuse) as H4. pose proof (H CellOverTemp) as H5. pose proof (H PackOverCurrent) as H6.
  pose proof (H CellOverVoltage) as H7. pose proof (H LowCharge) as H8. pose proof (H BmsIndicator) as H9.
  unfold fault_cond, flt in *. cbn zeta in *.
  assert (N1 : forall x y, negb (x && y) = negb x || negb y) by (intros [] []; reflexivity). rewrite N1 in H1, H3.
  unfold fm_step, isFaultAccelPedal, isFaultBrakePedal, isFaultBMS, fgt, flt.
  rewrite !within_out, H1, H2. cbn [handleTimedCondition or_unless]. rewrite H3.
  destruct (ci_abuseEnabled (cf_inputs c) =? 1).
  - cbn [andb] in H4. rewrite H4, H5, H6, H7, H8, H9.
    cbn [handleTimedCondition or_unless negb fst fm_or fm_faults isFaultInverter isLVErrorBMS isLVErrorInverter].
    unfold isFaultInverter, isLVErrorBMS, isLVErrorInverter. now rewrite !Z.lor_0_r, !Z.lor_diag.
  - rewrite H5, H6, H7, H8, H9.
    cbn [handleTimedCondition or_unless negb fst fm_or fm_faults isFaultInverter isLVErrorBMS isLVErrorInverter].
    unfold isFaultInverter, isLVErrorBMS, isLVErrorInverter. now rewrite !Z.lor_0_r, !Z.lor_diag.
Qed.

Lemma forward_clear : forall c tick m0 h, vsm_init c tick = Some m0 ->
  vm_state (vsm_run c tick m0 h) = StActiveForward ->
  classify (fm_faults (vm_fm (vsm_run c tick m0 h))) = FS_NoFault.
Proof.
  intros c tick m0 h HI. induction h as [|i h IH] using rev_ind.
  - destruct (init_inv _ _ _ HI) as (_ & E & _). cbn [vsm_run]. rewrite E. discriminate.
  - rewrite run_app. cbn [vsm_run]. pose proof (run_init_inv c tick m0 h HI) as IV. revert IH IV.
    set (m := vsm_run c tick m0 h). intros IH IV.
    rewrite (proj1 (step_state c tick m i)), step_fm. intros E.
    assert (N : report c m i = FS_NoFault).
    { unfold inv in IV. unfold vsm_handle in E. destruct (vm_state m) eqn:S;
        unfold stateInit, stateLvStartup, stateLvReady, stateHvActive, stateHvCharging, stateActiveNeutral,
          stateActiveForward, stateFault in E; try (rewrite IV in E);
        destruct (report c m i) eqn:R; auto; cbn in E; try discriminate; congruence. }
    unfold report in N. destruct (vi_snap i) as [d|]; [|discriminate].
    now rewrite fm_step_report in N.
Qed.

Lemma forward_stays : forall c tick m i v, inv m -> vm_state m = StActiveForward ->
  classify (fm_faults (vm_fm m)) = FS_NoFault -> vi_snap i = Some v ->
  (forall k, fault_cond c k v = false) ->
  (forall w, vi_live i = Some w -> d_buttonPressed (vs_dash w) = false) ->
  let m' := fst (vsm_step c tick m i) in
  inv m' /\ vm_state m' = StActiveForward /\ classify (fm_faults (vm_fm m')) = FS_NoFault /\
  snd (vsm_step c tick m i) = [].
Proof.
  intros c tick m i v IV S C SN F L. destruct (no_fault_step c (vm_fm m) v C F) as (R & C').
  assert (H : h_next (vsm_handle c tick m (report c m i) (vi_live i)) = StActiveForward /\
              h_cmds (vsm_handle c tick m (report c m i) (vi_live i)) = []).
  { unfold report. rewrite SN, R. unfold vsm_handle. rewrite S. unfold stateActiveForward. cbn [is_no_fault].
    unfold inv in IV. destruct (vi_live i) as [w|]; [rewrite (L w eq_refl)|]; cbn [andb h_next h_cmds]; split; congruence. }
  destruct (step_state c tick m i) as (E & IV'). split; [exact IV'|].
  rewrite E, step_fm, SN, step_cmds. split; [apply H|]. split; [exact C'|apply H].
Qed.

Definition cruising (c : config) (thr : throttle) (e : ecu) : Prop :=
  let ok m := inv m /\ vm_state m = StActiveForward /\ classify (fm_faults (vm_fm m)) = FS_NoFault in
  ok (e_vsm e) /\ (forall l m', e_pend e = Some (l, m') -> l = [] /\ ok m') /\ e_thr e = thr.

Lemma cruising_run : forall c tick m0 a b,
  vsm_init c tick = Some m0 -> vm_state (e_vsm (vh_e (veh_run c tick m0 a))) = StActiveForward ->
  f_stage (vh_f (veh_run c tick m0 a)) T_VSM = Waiting ->
  (forall b1 b2 v, b = b1 ++ b2 -> vh_snap (veh_run c tick m0 (a ++ b1)) = Some v ->
     forall k, fault_cond c k v = false) ->
  (forall b1 b2 v, b = b1 ++ b2 -> vh_live (veh_run c tick m0 (a ++ b1)) = Some v ->
     d_buttonPressed (vs_dash v) = false) ->
  cruising c (e_thr (vh_e (veh_run c tick m0 a))) (vh_e (veh_run c tick m0 (a ++ b))).
Proof.
  intros c tick m0 a b HI FW W. set (thr := e_thr (vh_e (veh_run c tick m0 a))).
  induction b as [|ev b IH] using rev_ind; intros SN LV.
  - rewrite app_nil_r. destruct (hist_veh c tick m0 a) as (h & V & _).
    split; [|split; [|reflexivity]].
    + split; [rewrite V; now apply run_init_inv|]. split; [exact FW|]. rewrite V in *. now apply forward_clear.
    + intros l m' E. pose proof (order_run c tick m0 a) as O. destruct (or_snap _ O W) as (_ & D).
      rewrite (or_pend _ O D) in E. discriminate.
  - specialize (IH ltac:(intros b1 b2 v E; apply (SN b1 (b2 ++ [ev])); now rewrite E, app_assoc)
                   ltac:(intros b1 b2 v E; apply (LV b1 (b2 ++ [ev])); now rewrite E, app_assoc)).
    specialize (SN b [ev]). specialize (LV b [ev]).
    rewrite app_assoc, veh_run_snoc. pose proof (order_run c tick m0 (a ++ b)) as O.
    set (s := veh_run c tick m0 (a ++ b)) in *.
    destruct IH as ((IV & ST & CL) & PE & TH).
    assert (KEEP : cruising c thr (vh_e s)) by (split; auto).
    assert (NV : forall e, is_vsm e = false -> cruising c thr (ecu_step c tick (vh_e s) e)).
    { intros e NV. pose proof (non_vsm_frame c tick (vh_e s) e NV) as FE. unfold frame_eq in FE.
      destruct FE as (F1 & F2 & F3 & _). unfold cruising. rewrite F1, F2, F3. exact KEEP. }
    unfold veh_step. destruct ev; cbn zeta; try exact KEEP.
    + destruct (on_timer t); exact KEEP.
    + destruct (may s t a0); exact KEEP.
    + destruct (is_inside _ && _ && _); [|exact KEEP]. cbn [vh_e]. now apply NV.
    + destruct (is_inside _ && _ && _); exact KEEP.
    + destruct (is_inside _ && _ && _); exact KEEP.
    + destruct (vh_snap s) as [v|] eqn:Q.
      2:{ cbn [is_some]. rewrite andb_false_r. exact KEEP. }
      destruct (is_running _ && _ && _ && _); [|exact KEEP]. cbn [vh_e ecu_step].
      destruct (e_pend (vh_e s)) as [p|] eqn:P; [exact KEEP|].
      destruct (forward_stays c tick (e_vsm (vh_e s)) (mkVsmIn (Some v) (vh_live s)) v) as (A1 & A2 & A3 & A4); auto.
      destruct (vsm_step c tick (e_vsm (vh_e s)) (mkVsmIn (Some v) (vh_live s))) as (m', cmds). cbn [fst snd] in *.
      split; [cbn [e_vsm]; auto|]. split; [|exact TH]. cbn [e_pend]. intros l m2 EE. injection EE as <- <-. auto.
    + match goal with |- context [if ?b then _ else _] => destruct b eqn:G end; [|exact KEEP]. cbn [with_e vh_e].
      destruct (is_vsm ev) eqn:V; [|now apply NV]. destruct ev; try discriminate.
      cbn [ecu_step]. destruct (e_pend (vh_e s)) as [(l, m')|] eqn:P; [|exact KEEP].
      destruct (PE l m' eq_refl) as (-> & OK). unfold ecu_commit. cbn zeta.
      split; [exact OK|]. split; [|exact TH]. cbn [e_pend]. discriminate.
Qed.

(** ** The activations of the state manager after an idle moment *)
Lemma vsm_late : forall c tick m0 a b,
  f_stage (vh_f (veh_run c tick m0 a)) T_VSM = Waiting -> f_note (vh_f (veh_run c tick m0 a)) T_VSM = 0 ->
  let N := f_now (vh_f (veh_run c tick m0 a)) in let f := vh_f (veh_run c tick m0 (a ++ b)) in
  N <= f_now f /\ (f_note f T_VSM <> 0 -> N < f_now f) /\
  (forall at_, since (f_stage f T_VSM) = Some at_ -> N < at_).
Proof.
  intros c tick m0 a b W Z0 N. induction b as [|ev b IH] using rev_ind; intros f; unfold f.
  - rewrite app_nil_r, W, Z0. split; [unfold N; lia|]. split; [congruence|discriminate].
  - rewrite app_assoc, veh_run_snoc. cbn zeta in IH. destruct IH as (L & NT & SI).
    set (s := veh_run c tick m0 (a ++ b)) in *.
    destruct (f_cases c tick (ds_from_config c) s ev) as [->|[(_ & ->)|[(t & _ & O & ->)|(t & x & _ & _ & ->)]]].
    + auto.
    + cbn [fresh_step f_now f_note f_stage]. split; [lia|]. split; [lia|]. exact SI.
    + cbn [fresh_step]. destruct (t =? T_SENSE); [auto|]. cbn [f_now f_note f_stage]. split; [exact L|]. split; [|exact SI].
      rewrite put_other; [exact NT|]. intros <-. discriminate.
    + rewrite act_now. split; [exact L|].
      destruct (act_cases (ds_from_config c) (vh_f s) t x T_VSM) as [(E1 & E2)|[(<- & E1 & E2 & E3 & E4)|(<- & _ & _ & E3 & E4)]].
      * rewrite E1, E2. auto.
      * rewrite E3, E4. split; [congruence|]. intros at_ Q. injection Q as <-. auto.
      * rewrite E3, E4. split; [exact NT|discriminate].
Qed.

(** The second look of the state manager. *)
Lemma live_current : forall c tick m0 tr v, veh_not_starved c tick m0 tr ->
  vh_live (veh_run c tick m0 tr) = Some v -> current c tick m0 tr T_VSM v.
Proof.
  intros c tick m0 tr. induction tr as [|ev tr IH] using rev_ind; intros v NS SN; [discriminate|].
  pose proof (not_starved_init _ _ _ _ _ NS) as NS'.
  rewrite veh_run_snoc in SN. set (s := veh_run c tick m0 tr) in *. set (d := ds_from_config c) in *.
  assert (SAME : vh_live s = Some v -> vh_f (veh_step c tick d s ev) = vh_f s -> current c tick m0 (tr ++ [ev]) T_VSM v).
  { intros Q E. apply current_more; auto. rewrite veh_run_snoc. fold s d. rewrite E.
    destruct (IH v NS' Q) as (at_ & n & cy & SI & _). fold s in SI. intros W. rewrite W in SI. discriminate. }
  assert (WF : forall f, veh_step c tick d s ev = with_f s f -> current c tick m0 (tr ++ [ev]) T_VSM v).
  { intros f E. rewrite E in SN. cbn [with_f vh_live] in SN. destruct (is_waiting (f_stage f T_VSM)) eqn:W; [discriminate|].
    apply current_more; auto. rewrite veh_run_snoc. fold s d. rewrite E. cbn [with_f vh_f].
    intros Q. rewrite Q in W. discriminate. }
  unfold veh_step in SN, SAME, WF. destruct ev; cbn zeta in SN, SAME, WF.
  - now apply (WF (fresh_step d (vh_f s) FTick)).
  - destruct (on_timer t); [now apply SAME|]. now apply (WF (fresh_step d (vh_f s) (FNotify t))).
  - destruct (may s t a); [|now apply SAME]. now apply (WF (fresh_step d (vh_f s) (FRun t a))).
  - destruct (is_inside _ && _ && _); now apply SAME.
  - destruct (is_inside _ && _ && _); now apply SAME.
  - destruct (is_inside (f_stage (vh_f s) T_VSM)) eqn:E; cbn [andb] in SN, SAME; [|now apply SAME].
    destruct (kernel_allows (vh_f s) T_VSM && is_some (vh_snap s)) eqn:G; [|now apply SAME].
    cbn [vh_live] in SN. injection SN as <-. apply current_more; [apply inside_current; cbn; auto|].
    rewrite veh_run_snoc. fold s d. unfold veh_step. cbn zeta. rewrite E, <- andb_assoc, G. cbn [andb vh_f].
    intros W. rewrite W in E. discriminate.
  - destruct (is_running _ && _ && _ && _); now apply SAME.
  - match goal with H : context [if ?b then _ else _] |- _ => destruct b end; now apply SAME.
Qed.

(** ** Battery values in the state manager's copy *)
Definition of_pedals (k : fault_kind) : Prop := In k [AccelRange; AccelDisagree; BrakeRange; PedalAbuse].
Lemma kinds : forall k, of_pedals k \/ of_battery k \/ k = BmsIndicator.
Proof. destruct k; cbn; tauto. Qed.

Lemma copies_of : forall c tick m0 a (P : vstate -> Prop) b, vh_snap (rp_v (rp_run c tick m0 a)) = None ->
  (forall b1 b2, b = b1 ++ b2 -> P (f_vs (vh_f (rp_v (rp_run c tick m0 (a ++ b1)))))) ->
  forall v, vh_snap (rp_v (rp_run c tick m0 (a ++ b))) = Some v -> P v.
Proof.
  intros c tick m0 a P b N. induction b as [|ev b IH] using rev_ind; intros H v.
  - rewrite app_nil_r. congruence.
  - specialize (IH ltac:(intros b1 b2 E; apply (H b1 (b2 ++ [ev])); now rewrite E, app_assoc)).
    rewrite app_assoc, rp_run_snoc, step_v. destruct (veh_ev _ ev) as [e|]; auto.
    destruct (snap_next c tick (ds_from_config c) (rp_v (rp_run c tick m0 (a ++ b))) e) as [E|[E|(E & _)]]; rewrite E; auto.
    + discriminate.
    + intros Q. injection Q as <-. apply (H b [ev]). reflexivity.
Qed.

Lemma rp_published_vt : forall c tick m0 tr n cy, published c tick m0 (vt c tick m0 tr) n cy -> rp_published c tick m0 tr n cy.
Proof.
  intros c tick m0 tr n cy (x & y & E & L). unfold vt in E. destruct (vtrace_split _ _ _ _ _ _ E) as (t1 & t2 & -> & ->).
  exists t1, t2. split; [reflexivity|]. rewrite vt_run. exact L.
Qed.
Lemma rp_starved_vt : forall c tick m0 tr, rp_not_starved c tick m0 tr -> veh_not_starved c tick m0 (vt c tick m0 tr).
Proof.
  intros c tick m0 tr H x y E. unfold vt in E. destruct (vtrace_split _ _ _ _ _ _ E) as (t1 & t2 & -> & ->).
  specialize (H t1 t2 eq_refl). now rewrite vt_run in H.
Qed.

Lemma silent_drives : forall c tick m0 a b, vsm_init c tick = Some m0 ->
  vm_state (e_vsm (vh_e (rp_v (rp_run c tick m0 a)))) = StActiveForward ->
  rp_idle (rp_run c tick m0 a) -> battery_handled (rp_run c tick m0 a) -> battery_silent b ->
  (forall k, of_battery k \/ k = BmsIndicator -> fault_cond c k (f_vs (vh_f (rp_v (rp_run c tick m0 a)))) = false) ->
  rp_not_starved c tick m0 (a ++ b) ->
  (forall n cy, rp_published c tick m0 (a ++ b) n cy -> f_now (vh_f (rp_v (rp_run c tick m0 a))) < n -> cycle_clear c cy) ->
  cruising c (e_thr (vh_e (rp_v (rp_run c tick m0 a)))) (vh_e (rp_v (rp_run c tick m0 (a ++ b)))).
Proof.
  intros c tick m0 a b HI FW ID BH BS BC NS PU.
  destruct (ID T_VSM) as (W & Z0); [cbn; auto|].
  assert (SN0 : vh_snap (rp_v (rp_run c tick m0 a)) = None).
  { rewrite vt_run in *. apply order_run. exact W. }
  assert (CUR : forall t1 t2 v, b = t1 ++ t2 -> current c tick m0 (vt c tick m0 (a ++ t1)) T_VSM v ->
                exists cy, cycle_clear c cy /\ shows_cycle (ds_from_config c) cy v).
  { intros t1 t2 v E (at_ & n & cy & SI & L & P & SH & _). exists cy. split; [|exact SH].
    apply (PU n cy).
    - apply rp_published_vt. rewrite E, app_assoc, vt_app. now apply published_init.
    - rewrite vt_run in *. rewrite vt_app in SI.
      destruct (vsm_late c tick m0 (vt c tick m0 a) (vtrace c tick (rp_run c tick m0 a) t1) W Z0) as (_ & _ & H).
      specialize (H at_ SI). lia. }
  assert (NSP : forall t1 t2, b = t1 ++ t2 -> veh_not_starved c tick m0 (vt c tick m0 (a ++ t1))).
  { intros t1 t2 E. apply rp_starved_vt. intros x y Q. apply (NS x (y ++ t2)). now rewrite E, !app_assoc, Q, <- app_assoc. }
  rewrite !(vt_run c tick m0), vt_app.
  apply cruising_run; auto; rewrite <- ?vt_run; auto.
  - intros b1 b2 v E SV k. destruct (vtrace_split _ _ _ _ _ _ E) as (t1 & t2 & EB & ->). rewrite <- vt_app in SV.
    destruct (CUR t1 t2 v EB) as (cy & (_ & CL) & SH); [apply snap_current; eauto|].
    rewrite <- vt_run in SV.
    assert (BV : vs_battery v = vs_battery (f_vs (vh_f (rp_v (rp_run c tick m0 a))))).
    { revert SV. apply (copies_of c tick m0 a (fun v => vs_battery v = vs_battery (f_vs (vh_f (rp_v (rp_run c tick m0 a)))))); auto.
      intros x y Q. apply (silent_keeps c tick m0 a x BH). intros g IN. apply BS. rewrite EB, Q, !frames_app.
      apply in_app_iff. left. apply in_app_iff. auto. }
    destruct (kinds k) as [H|[H|H]].
    + now apply (CL v k).
    + rewrite <- (BC k (or_introl H)). now apply fault_battery.
    + rewrite <- (BC k (or_intror H)). subst k. unfold fault_cond. cbn zeta. now rewrite BV.
  - intros b1 b2 v E SV. destruct (vtrace_split _ _ _ _ _ _ E) as (t1 & t2 & EB & ->). rewrite <- vt_app in SV.
    destruct (CUR t1 t2 v EB) as (cy & (BT & _) & SH); [apply live_current; eauto|].
    unfold shows_cycle in SH. cbn zeta in SH. destruct SH as (_ & _ & _ & _ & _ & SH). congruence.
Qed.

(** ** The interrupt and the events of the model *)
Notation rx_cap := (fun _ : Z => RX_QUEUE_LENGTH).
Definition registered : can_world := Eval vm_compute in
  match can_run rx_cap can_init
    [CanReg BMS_BUS BMS_CAN_DEVICEID DEVICEIDMASK T_BMS; CanReg INVERTER_BUS INVERTER_CAN_DEVICEID DEVICEIDMASK T_INV]
  with Some w => w | None => can_init end.

Lemma one_frame : forall c tick bus g s qs, bus = BMS_BUS \/ bus = INVERTER_BUS -> fr_bus g = bus ->
  (forall t, is_rx_task t = true -> qs t = rp_q s t) ->
  exists q1, dispatch rx_cap qs (ci_queues (cw_inst registered bus)) (Z.to_nat (ci_num (cw_inst registered bus))) g = Some q1 /\
    forall t, is_rx_task t = true -> q1 t = rp_q (rp_step c tick s (RFrame g)) t.
Proof.
  intros c tick bus g s qs B GB Q.
  assert (D : dispatch rx_cap qs (ci_queues (cw_inst registered bus)) (Z.to_nat (ci_num (cw_inst registered bus))) g =
    Some (let t := if bus =? BMS_BUS then T_BMS else T_INV in
          if Z.land (fr_id g) DEVICEIDMASK =? (if bus =? BMS_BUS then BMS_CAN_DEVICEID else INVERTER_CAN_DEVICEID)
          then set_at qs t (queue_push RX_QUEUE_LENGTH (qs t) g) else qs)).
  { destruct B as [->| ->]; reflexivity. }
  rewrite D. eexists. split; [reflexivity|]. intros t R. unfold rp_step. cbn [rp_q]. rewrite R.
  assert (T : t = T_BMS \/ t = T_INV) by (unfold is_rx_task in R; lia). unfold rx_accepts. rewrite GB, <- (Q t R). cbn zeta.
  destruct B as [->| ->]; destruct T as [->| ->];
    change (rx_bus T_BMS) with BMS_BUS; change (rx_bus T_INV) with INVERTER_BUS; rewrite ?Z.eqb_refl;
    change (BMS_BUS =? INVERTER_BUS) with false; change (INVERTER_BUS =? BMS_BUS) with false;
    change (T_INV =? T_BMS) with false; cbn [andb];
    destruct (Z.land _ _ =? _); unfold set_at; rewrite ?Z.eqb_refl; try reflexivity.
Qed.

Lemma interrupt_frames : forall c tick bus hs s qs st,
  bus = BMS_BUS \/ bus = INVERTER_BUS -> Forall (fun h => hw_ext h = false) hs ->
  (forall t, is_rx_task t = true -> qs t = rp_q s t) ->
  exists qs', rx_loop rx_cap bus (cw_inst registered bus) qs st (map (fun h => (h, true)) hs) = Some qs' /\
    forall t, is_rx_task t = true ->
      qs' t = rp_q (fold_left (rp_step c tick) (map (fun h => RFrame (as_received bus h)) hs) s) t.
Proof.
  intros c tick bus hs. induction hs as [|h hs IH]; intros s qs st B F Q.
  - exists qs. split; [reflexivity|exact Q].
  - inversion F as [|? ? E F']; subst. cbn [map rx_loop negb fold_left]. rewrite E.
    fold (as_received bus h).
    destruct (one_frame c tick bus (as_received bus h) s qs B eq_refl Q) as (q1 & D & H). rewrite D.
    apply IH; auto.
Qed.

(** ** Checking concrete runs *)
Definition rp_idleb (s : reports) : bool :=
  forallb (fun t => is_waiting (f_stage (vh_f (rp_v s)) t) && (f_note (vh_f (rp_v s)) t =? 0)) [T_THROTTLE; T_VSM; T_BMS].
Fixpoint rp_checkb (c : config) (tick : Z) (idl : bool) (p : Z -> ds_cycle -> bool) (s : reports)
         (tr : list rp_event) : bool :=
  (f_wait (vh_f (rp_v s)) <? 4294967296) &&
  match f_last (vh_f (rp_v s)) with Some (n, cy) => p n cy | None => true end &&
  match tr with
  | [] => true
  | ev :: t =>
      match ev with RVeh VTick => negb idl || rp_idleb s | _ => true end &&
      rp_checkb c tick idl p (rp_step c tick s ev) t
  end.

Lemma rp_idleb_ok : forall s, rp_idleb s = true -> rp_idle s.
Proof.
  intros s H t IN. unfold rp_idleb in H. rewrite forallb_forall in H. specialize (H t IN).
  apply andb_prop in H. destruct H as (A & B). apply is_waiting_iff in A. split; [auto|lia].
Qed.

Lemma rp_checkb_prefix : forall c tick idl p tr s a b, rp_checkb c tick idl p s tr = true -> tr = a ++ b ->
  let x := fold_left (rp_step c tick) a s in
  f_wait (vh_f (rp_v x)) < 4294967296 /\
  (forall n cy, f_last (vh_f (rp_v x)) = Some (n, cy) -> p n cy = true) /\
  (idl = true -> forall b', b = RVeh VTick :: b' -> rp_idle x).
Proof.
  induction tr as [|ev tr IH]; intros s a b H E.
  - destruct a; [|discriminate]. cbn [rp_checkb] in H. apply andb_prop in H. destruct H as (H & _).
    apply andb_prop in H. destruct H as (H1 & H2). cbn [app] in E. subst b. cbn [fold_left]. cbv zeta.
    split; [lia|]. split; [intros n cy L; now rewrite L in H2|]. intros _ b' Q. discriminate.
  - cbn [rp_checkb] in H. apply andb_prop in H. destruct H as (H & H3).
    apply andb_prop in H. destruct H as (H1 & H2). apply andb_prop in H3. destruct H3 as (H3 & H4).
    destruct a as [|e a].
    + cbn [app] in E. subst b. cbn [fold_left]. cbv zeta.
      split; [lia|]. split; [intros n cy L; now rewrite L in H2|]. intros -> b' Q. injection Q as -> _.
      cbn [negb orb] in H3. now apply rp_idleb_ok.
    + cbn [app] in E. injection E as <- E. cbn [fold_left]. exact (IH _ a b H4 E).
Qed.

Lemma rp_checkb_ok : forall c tick m0 idl p tr, rp_checkb c tick idl p (rp_init m0) tr = true ->
  rp_not_starved c tick m0 tr /\ (forall n cy, rp_published c tick m0 tr n cy -> p n cy = true) /\
  (idl = true -> forall a b, tr = a ++ b -> rp_keeps_up c tick m0 a b).
Proof.
  intros c tick m0 idl p tr H. split; [|split].
  - intros a b E. apply (rp_checkb_prefix c tick idl p tr _ a b H E).
  - intros n cy (a & b & E & L). destruct (rp_checkb_prefix c tick idl p tr _ a b H E) as (_ & Q & _). exact (Q n cy L).
  - intros I a b -> b1 b2 ->. rewrite app_assoc in H.
    destruct (rp_checkb_prefix c tick idl p _ _ (a ++ b1) (RVeh VTick :: b2) H eq_refl) as (_ & _ & Q). exact (Q I b2 eq_refl).
Qed.
