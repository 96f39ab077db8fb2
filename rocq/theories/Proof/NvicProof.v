From Verif.Model Require Import Nvic.
From Verif.Spec Require Import NvicSpec.
From Coq Require Import Lia ZifyBool ZifyNat Sorted.

(** What remains to be done leaves the mask as it was found. *)
Fixpoint fine (ops : list op) (d : nat) (sv : list Z) : Prop :=
  match ops with
  | [] => d = 0%nat /\ sv = []
  | Check :: t => fine t d sv
  | Raise :: t => fine t (S d) ((if Nat.eqb d 0 then 0 else MAX_SYSCALL) :: sv)
  | Restore :: t =>
      match sv, d with
      | v :: sv', S d' => v = (if Nat.eqb d' 0 then 0 else MAX_SYSCALL) /\ fine t d' sv'
      | _, _ => False
      end
  | SetMask :: t => d = 0%nat /\ fine t 1 sv
  | ClearMask :: t => d = 1%nat /\ fine t 0 sv
  | EnterCritical :: t => fine t (S d) sv
  | ExitCritical :: t => match d with S d' => fine t d' sv | O => False end
  | Access :: t => (0 < d)%nat /\ fine t d sv
  end.

Definition ctx_ok (prio : irq -> Z) (c : ctx) : Prop :=
  fine (c_ops c) (c_depth c) (c_saved c) /\
  match c_irq c with
  | Some i => c_ops c <> [] -> MAX_SYSCALL <= prio i
  | None => True
  end /\
  match c_irq c with
  | Some _ => ~ In EnterCritical (c_ops c)
  | None => True
  end.

Definition d0 (c : ctx) : Prop := c_depth c = 0%nat.
Definition idle (c : ctx) : Prop := c_ops c = [] /\ c_depth c = 0%nat /\ c_irq c <> None.

Definition inv (prio : irq -> Z) (s : cpu) : Prop :=
  Forall (ctx_ok prio) (ctxs s) /\
  ((Forall d0 (ctxs s) /\ basepri s = 0) \/
   (exists up c low, ctxs s = up ++ c :: low /\ Forall idle up /\ (0 < c_depth c)%nat /\
                     Forall d0 low /\ basepri s = MAX_SYSCALL)).

Lemma fine_app a b : forall d sv d1 sv1,
  (forall d' sv', d' = d1 -> sv' = sv1 -> fine b d' sv') ->
  True -> fine a d sv -> d1 = 0%nat -> sv1 = [] -> fine (a ++ b) d sv.
Proof.
  induction a as [|o a IH]; intros d sv d1 sv1 B _ A -> ->.
  - destruct A as [-> ->]. now apply B.
  - destruct o; cbn [fine app] in *; try (eapply IH; eauto; fail);
      try (destruct A as [A1 A2]; split; [exact A1|eapply IH; eauto]; fail).
    + destruct sv as [|v sv]; [easy|]. destruct d; [easy|].
      destruct A as [A1 A2]; split; [exact A1|eapply IH; eauto].
    + destruct d; [easy|eapply IH; eauto].
Qed.

Lemma fine_calls l : fine (calls_ops l) 0 [].
Proof.
  induction l as [|c l IH]; [split; reflexivity|].
  cbn [calls_ops flat_map]. eapply fine_app with (d1 := 0%nat) (sv1 := []);
    try (intros; subst; exact IH); auto.
  destruct c as [| | |[]|[]| |]; cbn; intuition lia.
Qed.

Lemma no_enter_calls l : ~ In EnterCritical (calls_ops l).
Proof.
  intros H. apply in_flat_map in H. destruct H as (c & _ & H).
  destruct c as [| | |[]|[]| |]; cbn in H; intuition discriminate.
Qed.

Lemma fine_section_gen n : forall d rest,
  fine rest d [] -> fine (section_ops n ++ rest) d [].
Proof.
  induction n as [|n IH]; intros d rest H; cbn [section_ops app]; [exact H|].
  cbn [fine]. split; [lia|]. rewrite <- app_assoc. apply IH. cbn [fine app].
  split; [lia|exact H].
Qed.
Lemma fine_section n : fine (section_ops n) 0 [].
Proof.
  rewrite <- (app_nil_r (section_ops n)). apply fine_section_gen. split; reflexivity.
Qed.

Lemma kcall_eqb_true a b : kcall_eqb a b = true -> a = b.
Proof.
  destruct a as [| | |x|x| |], b as [| | |y|y| |]; cbn; try discriminate; try reflexivity;
    intros H; apply Bool.eqb_prop in H; now subst.
Qed.
Lemma kcall_eqb_refl a : kcall_eqb a a = true.
Proof. destruct a as [| | |[]|[]| |]; reflexivity. Qed.

Lemma calls_allowed i l :
  forallb (fun c => existsb (kcall_eqb c) (kernel_calls i)) l = true -> incl l (kernel_calls i).
Proof.
  intros H c IN. rewrite forallb_forall in H. specialize (H c IN).
  apply existsb_exists in H. destruct H as (c' & IN' & E). apply kcall_eqb_true in E. now subst.
Qed.

Lemma d0_not_inside low : Forall d0 low -> existsb inside low = false.
Proof.
  intros H. apply Bool.not_true_iff_false. intros E. apply existsb_exists in E.
  destruct E as (c & IN & E). rewrite Forall_forall in H. specialize (H c IN). unfold d0 in H.
  unfold inside in E. rewrite H in E. discriminate.
Qed.

Lemma inv_start prio : inv prio cpu_start.
Proof.
  split.
  - constructor; [|constructor]. repeat split.
  - left. split; [|reflexivity]. constructor; [reflexivity|constructor].
Qed.

(** The head context, when it has work to do, is the one inside, or nobody is. *)
Lemma inv_head prio bp c low :
  inv prio (mkCpu bp (c :: low)) -> c_ops c <> [] ->
  Forall d0 low /\ bp = (if Nat.eqb (c_depth c) 0 then 0 else MAX_SYSCALL).
Proof.
  intros [OK [[D B]|(up & c' & lo & E & UP & IN & D & B)]] W; cbn [ctxs basepri] in *.
  - inversion D; subst. unfold d0 in *. split; auto. rewrite H1. reflexivity.
  - destruct up as [|u up]; cbn in E; injection E as -> ->.
    + split; auto. destruct (Nat.eqb_spec (c_depth c') 0); lia.
    + inversion UP; subst. destruct H1 as (X & _). contradiction.
Qed.

Lemma inv_mk prio bp c low :
  ctx_ok prio c -> Forall (ctx_ok prio) low -> Forall d0 low ->
  bp = (if Nat.eqb (c_depth c) 0 then 0 else MAX_SYSCALL) ->
  inv prio (mkCpu bp (c :: low)).
Proof.
  intros OK OKL D B. split; cbn [ctxs basepri]; [now constructor|].
  destruct (Nat.eqb_spec (c_depth c) 0).
  - left. split; auto.
  - right. exists [], c, low. repeat split; auto. lia.
Qed.

Lemma tail_ne (o : op) t : o :: t <> [].
Proof. discriminate. Qed.

Lemma inv_exec prio s c low :
  inv prio s -> ctxs s = c :: low -> 
  exists s', exec prio (basepri s) c low = Some s' /\ inv prio s'.
Proof.
  intros I E. destruct s as [bp cs]; cbn [ctxs basepri] in *. subst cs.
  pose proof I as [OK _]. cbn [ctxs] in OK. inversion OK as [|x l OKc OKl]; subst.
  destruct c as [ow ops d sv]. destruct ops as [|o t].
  - destruct OKc as ((Z0 & Z1) & _). cbn [c_depth c_saved c_ops] in *. subst.
    unfold exec; cbn [c_ops c_irq]. destruct ow as [i|].
    + eexists; split; [reflexivity|]. destruct I as [_ [[D B]|(up & c' & lo & EE & UP & IN & D & B)]];
        cbn [ctxs basepri] in *; (split; cbn [ctxs basepri]; [exact OKl|]).
      * left. inversion D; subst. auto.
      * destruct up as [|u up]; cbn in EE.
        -- injection EE as <- <-. cbn [c_depth] in IN. lia.
        -- injection EE as <- ->. inversion UP; subst. right. exists up, c', lo. auto.
    + eexists; split; [reflexivity|exact I].
  - pose proof (inv_head prio bp _ low I (tail_ne o t)) as [D B]. cbn [c_depth] in B.
    destruct OKc as (F & P & N). cbn [c_ops c_depth c_saved c_irq] in *.
    assert (P' : match ow with Some i => MAX_SYSCALL <= prio i | None => True end)
      by (destruct ow; [apply P, tail_ne|exact Logic.I]).
    assert (N' : match ow with Some i => ~ In EnterCritical t | None => True end)
      by (destruct ow; [intros X; apply N; now right|exact Logic.I]).
    assert (OK' : forall d' sv', fine t d' sv' -> ctx_ok prio (mkCtx ow t d' sv')).
    { intros d' sv' F'. repeat split; cbn; auto; destruct ow; auto. }
    unfold exec; cbn [c_ops c_irq c_depth c_saved].
    destruct o; cbn [fine] in F.
    + destruct ow as [i|].
      * replace (prio i <? MAX_SYSCALL) with false by lia. rewrite Bool.andb_false_r.
        eexists; split; [reflexivity|]. now apply inv_mk; auto.
      * eexists; split; [reflexivity|]. now apply inv_mk; auto.
    + eexists; split; [reflexivity|]. apply inv_mk; auto. apply OK'. now subst bp.
    + destruct sv as [|v sv]; [easy|]. destruct d as [|d]; [easy|]. destruct F as [V F].
      eexists; split; [reflexivity|]. apply inv_mk; auto.
    + destruct F as [-> F]. eexists; split; [reflexivity|]. apply inv_mk; auto.
    + destruct F as [-> F]. eexists; split; [reflexivity|]. apply inv_mk; auto.
    + destruct ow as [i|]; [elim N; now left|].
      eexists; split; [reflexivity|]. apply inv_mk; auto.
    + destruct d as [|d]; [easy|]. eexists; split; [reflexivity|]. apply inv_mk; auto.
      cbn [c_depth]. destruct (Nat.eqb_spec d 0); auto.
    + destruct F as [F0 F]. rewrite (d0_not_inside low D).
      eexists; split; [reflexivity|]. apply inv_mk; auto.
Qed.

Lemma inv_step prio s e :
  respects_limit prio -> inv prio s -> exists s', nvic_step prio s e = Some s' /\ inv prio s'.
Proof.
  intros LIM I. destruct e as [n|i l|]; cbn [nvic_step].
  - destruct s as [bp cs]; cbn [ctxs basepri].
    destruct cs as [|[ow ops d sv] [|c2 lo]]; try (destruct ow, ops; eexists; split; eauto; fail);
      try (eexists; split; eauto; fail).
    destruct ow as [i|]; [eexists; split; eauto|].
    destruct ops as [|o t]; [|eexists; split; eauto].
    eexists; split; [reflexivity|].
    destruct I as [OK I]. cbn [ctxs] in OK. inversion OK as [|x y OKc _]; subst.
    destruct OKc as ((D & S) & _). cbn in D, S. subst.
    apply inv_mk; auto.
    + split; [|split; exact Logic.I]. cbn [c_ops c_depth c_saved]. apply fine_section.
    + cbn [c_depth Nat.eqb]. destruct I as [[_ B]|(up & c' & lo & EE & UP & IN & DD & B)]; auto.
      cbn [ctxs basepri] in *. destruct up as [|u [|u' up]]; cbn in EE; try discriminate.
      injection EE as <- <-. cbn in IN. lia.
  - destruct (forallb _ l && takes prio s i) eqn:T; [|eexists; split; eauto].
    apply andb_prop in T. destruct T as [AL T]. apply calls_allowed in AL.
    eexists; split; [reflexivity|].
    assert (OKn : ctx_ok prio (mkCtx (Some i) (calls_ops l) 0 [])).
    { split; [apply fine_calls|]. cbn [c_irq c_ops]. split; [|apply no_enter_calls].
      intros NE. apply LIM. intros E. rewrite E in AL. apply incl_l_nil in AL. subst l.
      now apply NE. }
    destruct I as [OK I]. split; cbn [ctxs basepri]; [now constructor|].
    destruct I as [[D B]|(up & c' & lo & EE & UP & IN & DD & B)].
    + left. split; auto. constructor; auto. reflexivity.
    + right. exists (mkCtx (Some i) (calls_ops l) 0 [] :: up), c', lo.
      rewrite EE. repeat split; auto. constructor; auto.
      unfold takes in T. destruct (ctxs s) as [|c0 cs]; [discriminate|].
      rewrite B in T. unfold MAX_SYSCALL in T.
      assert (prio i < 5) by lia.
      assert (kernel_calls i = []).
      { destruct (kernel_calls i) eqn:K; auto. exfalso.
        assert (MAX_SYSCALL <= prio i) by (apply LIM; rewrite K; discriminate).
        unfold MAX_SYSCALL in *. lia. }
      rewrite H0 in AL. apply incl_l_nil in AL. subst l. repeat split. discriminate.
  - destruct (ctxs s) as [|c low] eqn:E; [eexists; split; eauto|].
    now apply inv_exec.
Qed.

Lemma inv_run prio tr : respects_limit prio -> forall s, inv prio s ->
  exists s', nvic_run prio s tr = Some s' /\ inv prio s'.
Proof.
  intros LIM. induction tr as [|e tr IH]; intros s I; cbn [nvic_run]; [eauto|].
  destruct (inv_step prio s e LIM I) as (s' & -> & I'). auto.
Qed.

(** ** Nesting *)
Definition lt_prio prio (a b : irq) : Prop := prio a < prio b.

Definition shaped (prio : irq -> Z) (s : cpu) : Prop :=
  StronglySorted (lt_prio prio) (handlers s) /\
  exists up t, ctxs s = up ++ [t] /\ c_irq t = None /\ Forall (fun c => c_irq c <> None) up.

Lemma handlers_cons bp c l :
  handlers (mkCpu bp (c :: l)) =
  (match c_irq c with Some i => [i] | None => [] end) ++ handlers (mkCpu bp l).
Proof. reflexivity. Qed.

Lemma takes_below_all prio s i :
  takes prio s i = true -> shaped prio s -> Forall (lt_prio prio i) (handlers s).
Proof.
  intros T [SO (up & t & E & TN & UP)]. unfold takes in T. destruct s as [bp cs]; cbn [ctxs] in *.
  subst cs. destruct up as [|u up].
  - cbn. rewrite TN. constructor.
  - cbn [app] in *. inversion UP; subst. apply andb_prop in T. destruct T as [T _].
    rewrite handlers_cons in *. unfold ctx_prio in T. destruct (c_irq u) as [j|]; [|easy].
    cbn [app] in *. inversion SO; subst. constructor; [unfold lt_prio; lia|].
    eapply Forall_impl; [|eassumption]. unfold lt_prio. intros; lia.
Qed.

Lemma exec_irqs prio bp c low s' :
  exec prio bp c low = Some s' ->
  (ctxs s' = low /\ c_irq c <> None) \/ (exists c', ctxs s' = c' :: low /\ c_irq c' = c_irq c).
Proof.
  unfold exec. destruct c as [ow ops d sv]; cbn [c_ops c_irq c_depth c_saved].
  destruct ops as [|o t].
  - destruct ow; intros H; injection H as <-; [left|right]; cbn; eauto. split; auto. discriminate.
  - intros H. right.
    destruct o; repeat match type of H with
      | context[match ?x with _ => _ end] => destruct x; try discriminate
      end; injection H as <-; cbn [ctxs]; eauto.
Qed.

Lemma shaped_step prio s e s' : shaped prio s -> nvic_step prio s e = Some s' -> shaped prio s'.
Proof.
  intros SH H. destruct e as [n|i l|]; cbn [nvic_step] in H.
  - destruct s as [bp cs]; cbn [ctxs basepri] in *.
    destruct cs as [|[ow ops d sv] [|c2 lo]]; try (destruct ow, ops; injection H as <-; exact SH);
      try (injection H as <-; exact SH).
    destruct ow as [i|]; [injection H as <-; exact SH|].
    destruct ops; injection H as <-; [|exact SH].
    split; [cbn; constructor|]. exists [], (mkCtx None (section_ops n) d sv). repeat split; auto.
  - destruct (forallb _ l && takes prio s i) eqn:T; injection H as <-; [|exact SH].
    apply andb_prop in T. destruct T as [_ T].
    pose proof (takes_below_all prio s i T SH) as LT.
    destruct SH as [SO (up & t & E & TN & UP)]. split.
    + rewrite handlers_cons. cbn [c_irq app]. constructor; auto.
    + exists (mkCtx (Some i) (calls_ops l) 0 [] :: up), t. cbn [ctxs]. rewrite E.
      repeat split; auto. constructor; auto. discriminate.
  - destruct s as [bp cs]; cbn [ctxs basepri] in *. destruct cs as [|c low]; [injection H as <-; exact SH|].
    apply exec_irqs in H. destruct s' as [bp' cs']; cbn [ctxs] in H.
    destruct SH as [SO (up & t & E & TN & UP)]. cbn [ctxs] in E.
    destruct H as [[-> NN]|(c' & -> & EQ)].
    + destruct up as [|u up]; cbn in E; injection E as -> ->; [contradiction|].
      inversion UP; subst. split.
      * rewrite handlers_cons in SO. destruct (c_irq u); [|easy]. inversion SO; subst.
        exact H3.
      * exists up, t. auto.
    + split.
      * rewrite handlers_cons in *. rewrite EQ. exact SO.
      * destruct up as [|u up]; cbn in E; injection E as -> ->.
        -- exists [], c'. rewrite EQ. auto.
        -- inversion UP; subst. exists (c' :: up), t. repeat split; auto.
           constructor; auto. now rewrite EQ.
Qed.

Lemma shaped_run prio tr : forall s s', shaped prio s -> nvic_run prio s tr = Some s' -> shaped prio s'.
Proof.
  induction tr as [|e tr IH]; intros s s' SH H; cbn [nvic_run] in H; [now injection H as <-|].
  destruct (nvic_step prio s e) as [s1|] eqn:E; [|discriminate].
  eapply IH; [eapply shaped_step; eassumption|eassumption].
Qed.

Lemma shaped_start prio : shaped prio cpu_start.
Proof. split; [constructor|]. exists [], (mkCtx None [] 0 []). repeat split; auto. Qed.

Lemma sorted_nodup prio l : StronglySorted (lt_prio prio) l -> NoDup (map prio l).
Proof.
  induction l as [|a l IH]; intros H; [constructor|]. inversion H; subst. cbn. constructor; auto.
  intros IN. apply in_map_iff in IN. destruct IN as (b & E & IN).
  rewrite Forall_forall in H3. specialize (H3 b IN). unfold lt_prio in H3. lia.
Qed.

Lemma nested_le_levels prio levels tr s :
  (forall i, In (prio i) levels) -> nvic_run prio cpu_start tr = Some s ->
  (length (handlers s) <= length levels)%nat.
Proof.
  intros L R. apply shaped_run in R; [|apply shaped_start]. destruct R as [SO _].
  rewrite <- (map_length prio). apply NoDup_incl_length; [now apply sorted_nodup|].
  intros x IN. apply in_map_iff in IN. destruct IN as (b & <- & _). apply L.
Qed.
