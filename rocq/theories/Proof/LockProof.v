(** Every task body takes one mutex at a time and gives it back within [K] steps;
    what follows for all schedules. *)
From Verif Require Import Model.Locks Spec.LockSpec.
From Coq Require Import PeanoNat.

Definition K : nat := 12.

(** [fine h p]: [p] keeps the rules when the mutex [h] is held, with so many steps left. *)
Inductive fine : option (lock * nat) -> prog -> Prop :=
| f_idle : fine None Idle
| f_take l f k : fine (Some (l, K)) (k true) -> (f = false -> fine None (k false)) ->
    fine None (Take l f k)
| f_give l n k : fine None k -> fine (Some (l, S n)) (Give l k)
| f_touch l n k : fine (Some (l, n)) k -> fine (Some (l, S n)) (Touch l k)
| f_thr k : fine None k -> fine None (Touch THR k)
| f_work k : fine None k -> fine None (Work k)
| f_work_in l n k : fine (Some (l, n)) k -> fine (Some (l, S n)) (Work k)
| f_pick k : (forall n, fine None (k n)) -> fine None (Pick k)
| f_pick_in l n k : (forall m, fine (Some (l, n)) (k m)) -> fine (Some (l, S n)) (Pick k).

Lemma lock_eqb_spec a b : reflect (a = b) (lock_eqb a b).
Proof. destruct a, b; constructor; congruence. Qed.
Lemma lock_eqb_refl a : lock_eqb a a = true. Proof. destruct a; reflexivity. Qed.

Lemma upd_same o l v : upd o l v l = v.
Proof. unfold upd. now rewrite lock_eqb_refl. Qed.
Lemma upd_other o l v x : x <> l -> upd o l v x = o x.
Proof. unfold upd. destruct (lock_eqb_spec x l); congruence. Qed.

Lemma nth_set_same i p ps q : nth_error ps i = Some q -> nth_error (set_nth i p ps) i = Some p.
Proof. revert ps. induction i; destruct ps; cbn; try discriminate; auto. Qed.
Lemma nth_set_other i j p ps : j <> i -> nth_error (set_nth i p ps) j = nth_error ps j.
Proof. revert j ps. induction i; destruct ps, j; cbn; auto; congruence. Qed.
Lemma set_nth_length i p ps : length (set_nth i p ps) = length ps.
Proof. revert ps. induction i; destruct ps; cbn; auto. Qed.

(** ** The invariant *)
Definition task_ok (s : sys) (i : nat) (p : prog) : Prop :=
  exists h, fine h p /\
    (forall l, s_owner s l = Some i <-> exists n, h = Some (l, n)).

Definition inv (s : sys) : Prop :=
  s_halt s = false /\
  (forall i p, nth_error (s_prog s) i = Some p -> task_ok s i p) /\
  (forall l a, s_owner s l = Some a <-> holds_at (s_trace s) a l) /\
  (forall t1 b l t2, s_trace s = t1 ++ (b, Accessed l) :: t2 -> l <> THR -> holds_at t1 b l) /\
  (forall t1 t2 l a b, s_trace s = t1 ++ t2 -> holds_at t1 a l -> holds_at t1 b l -> a = b).

Lemma holds_nil a l : ~ holds_at [] a l.
Proof. intros (t1 & t2 & E & _). destruct t1; discriminate. Qed.

Lemma snoc_inv {A} (l : list A) x t1 y t2 :
  l ++ [x] = t1 ++ y :: t2 ->
  (t2 = [] /\ t1 = l /\ y = x) \/ (exists t2', t2 = t2' ++ [x] /\ l = t1 ++ y :: t2').
Proof.
  intro E. destruct t2 as [|z t2] using rev_ind.
  - left. apply app_inj_tail in E. destruct E; auto.
  - right. clear IHt2. change (t1 ++ y :: t2 ++ [z]) with (t1 ++ (y :: t2) ++ [z]) in E.
    rewrite app_assoc in E. apply app_inj_tail in E. destruct E as [E ->]. eauto.
Qed.

Lemma holds_snoc tr i o a l :
  holds_at (tr ++ [(i, o)]) a l <->
  (i = a /\ o = Took l) \/ (holds_at tr a l /\ ~ (i = a /\ o = Gave l)).
Proof.
  split.
  - intros (t1 & t2 & E & N). destruct (snoc_inv _ _ _ _ _ E) as [(-> & -> & Y)|(t & -> & ->)].
    + left. split; congruence.
    + right. split.
      * exists t1, t. split; auto. intro. apply N. apply in_or_app; auto.
      * intros [-> ->]. apply N. apply in_or_app. right. now left.
  - intros [[-> ->]|[(t1 & t2 & -> & N) M]].
    + exists tr, []. split; auto.
    + exists t1, (t2 ++ [(i, o)]). split.
      * now rewrite <- app_assoc.
      * intro X. apply in_app_or in X. destruct X as [X|[X|[]]]; auto.
        apply M. split; congruence.
Qed.

(** A new entry keeps the two trace facts when the new trace has one holder per mutex. *)
Lemma trace_snoc tr i o :
  (forall t1 b l t2, tr = t1 ++ (b, Accessed l) :: t2 -> l <> THR -> holds_at t1 b l) ->
  (forall t1 t2 l a b, tr = t1 ++ t2 -> holds_at t1 a l -> holds_at t1 b l -> a = b) ->
  (forall l, o = Accessed l -> l <> THR -> holds_at tr i l) ->
  (forall l a b, holds_at (tr ++ [(i, o)]) a l -> holds_at (tr ++ [(i, o)]) b l -> a = b) ->
  (forall t1 b l t2, tr ++ [(i, o)] = t1 ++ (b, Accessed l) :: t2 -> l <> THR -> holds_at t1 b l) /\
  (forall t1 t2 l a b, tr ++ [(i, o)] = t1 ++ t2 -> holds_at t1 a l -> holds_at t1 b l -> a = b).
Proof.
  intros G X A H. split.
  - intros t1 b l t2 E N. destruct (snoc_inv _ _ _ _ _ E) as [(-> & -> & Y)|(t & -> & E2)].
    + inversion Y; subst. now apply A.
    + eapply G; eauto.
  - intros t1 t2 l a b E. destruct t2 as [|y t2].
    + rewrite app_nil_r in E. subst t1. apply H.
    + destruct (snoc_inv _ _ _ _ _ E) as [(-> & -> & Y)|(t & -> & E2)].
      * apply (X tr [] l a b). now rewrite app_nil_r.
      * eapply X; eauto.
Qed.

Lemma entry_dec (u v : nat * obs) : {u = v} + {u <> v}.
Proof. repeat decide equality. Defined.

Section Step.
Variable bodies : list prog.
Hypothesis bodies_fine : Forall (fine None) bodies.

Lemma init_inv : inv (sys_init bodies).
Proof.
  unfold sys_init. repeat split; cbn.
  - intros i p E. exists None. split.
    + apply nth_error_In in E. apply in_map_iff in E. destruct E as (x & <- & _). constructor.
    + intros l. split; [discriminate|intros [n D]; discriminate].
  - discriminate.
  - intro H. now apply holds_nil in H.
  - intros t1 b l t2 E. destruct t1; discriminate.
  - intros t1 t2 l a b E H. destruct t1; [now apply holds_nil in H|discriminate].
Qed.

Lemma body_fine i : fine None (nth i bodies Idle).
Proof.
  destruct (nth_in_or_default i bodies Idle) as [H| ->]; [|constructor].
  rewrite Forall_forall in bodies_fine. auto.
Qed.

(** No lock operation: only the program of [i] changes. *)
Lemma quiet_inv s i p q h h' :
  inv s -> nth_error (s_prog s) i = Some p -> fine h p ->
  (forall l, s_owner s l = Some i <-> exists n, h = Some (l, n)) ->
  fine h' q -> (forall l, (exists n, h = Some (l, n)) <-> (exists n, h' = Some (l, n))) ->
  inv (mkSys (set_nth i q (s_prog s)) (s_owner s) false (s_trace s)).
Proof.
  intros (Hh & Ht & Ho & Hg & Hx) E F O F' EQ. repeat split; cbn; auto.
  - intros j r Er. destruct (Nat.eq_dec j i) as [->|NE].
    + erewrite nth_set_same in Er by eauto. inversion Er; subst r.
      exists h'. split; auto. cbn. intro l. rewrite O. apply EQ.
    + rewrite nth_set_other in Er by auto. apply Ht in Er. exact Er.
  - apply Ho.
  - apply Ho.
Qed.

Lemma access_inv s i p q h h' l0 :
  inv s -> nth_error (s_prog s) i = Some p -> fine h p ->
  (forall l, s_owner s l = Some i <-> exists n, h = Some (l, n)) ->
  fine h' q -> (forall l, (exists n, h = Some (l, n)) <-> (exists n, h' = Some (l, n))) ->
  (l0 <> THR -> s_owner s l0 = Some i) ->
  inv (mkSys (set_nth i q (s_prog s)) (s_owner s) false (s_trace s ++ [(i, Accessed l0)])).
Proof.
  intros I E F O F' EQ A.
  destruct (quiet_inv s i p q h h' I E F O F' EQ) as (_ & Ht' & _).
  destruct I as (Hh & Ht & Ho & Hg & Hx).
  assert (HS : forall l a, holds_at (s_trace s ++ [(i, Accessed l0)]) a l <-> holds_at (s_trace s) a l).
  { intros l a. rewrite holds_snoc. split.
    - intros [[_ D]|[H _]]; [discriminate|auto].
    - intro H. right. split; auto. intros [_ D]; discriminate. }
  destruct (trace_snoc (s_trace s) i (Accessed l0) Hg Hx) as [G X].
  - intros l D N. inversion D; subst l. apply Ho. now apply A.
  - intros l a b Ha Hb. rewrite HS in Ha, Hb. rewrite <- Ho in Ha, Hb. congruence.
  - repeat split; cbn; auto; intros; try (apply HS; apply Ho; assumption).
    apply Ho. apply HS. assumption.
Qed.

Lemma take_inv s i p l k f :
  inv s -> nth_error (s_prog s) i = Some p -> p = Take l f k ->
  fine (Some (l, K)) (k true) ->
  (forall x, s_owner s x <> Some i) -> s_owner s l = None ->
  inv (mkSys (set_nth i (k true) (s_prog s)) (upd (s_owner s) l (Some i)) false
         (s_trace s ++ [(i, Took l)])).
Proof.
  intros (Hh & Ht & Ho & Hg & Hx) E -> F O N.
  assert (HS : forall x a, holds_at (s_trace s ++ [(i, Took l)]) a x <->
                           upd (s_owner s) l (Some i) x = Some a).
  { intros x a. rewrite holds_snoc. unfold upd. destruct (lock_eqb_spec x l) as [->|NE].
    - split.
      + intros [[-> _]|[H _]]; auto. apply Ho in H. congruence.
      + intro D. left. split; congruence.
    - rewrite Ho. split.
      + intros [[_ D]|[H _]]; [congruence|auto].
      + intro H. right. split; auto. intros [_ D]; discriminate. }
  destruct (trace_snoc (s_trace s) i (Took l) Hg Hx) as [G X].
  - discriminate.
  - intros x a b Ha Hb. rewrite HS in Ha, Hb. congruence.
  - split; [reflexivity|]. split; [|split; [|split]]; cbn; auto.
    + intros j r Er. destruct (Nat.eq_dec j i) as [->|NE].
      * erewrite nth_set_same in Er by eauto. inversion Er; subst r.
        exists (Some (l, K)). split; auto. cbn. intro x. unfold upd.
        destruct (lock_eqb_spec x l) as [->|NX]; split; eauto.
        -- intro D. now apply O in D.
        -- intros [n D]. congruence.
      * rewrite nth_set_other in Er by auto. destruct (Ht _ _ Er) as (h & Fh & Oh).
        exists h. split; auto. cbn. intro x. rewrite <- Oh. unfold upd.
        destruct (lock_eqb_spec x l) as [->|NX]; [|tauto]. rewrite N. split; congruence.
    + intros x a. symmetry. apply HS.
Qed.

Lemma give_inv s i l k n :
  inv s -> nth_error (s_prog s) i = Some (Give l k) -> fine None k ->
  (forall x, s_owner s x = Some i <-> exists m : nat, Some (l, n) = Some (x, m)) ->
  inv (mkSys (set_nth i k (s_prog s)) (upd (s_owner s) l None) false
         (s_trace s ++ [(i, Gave l)])).
Proof.
  intros (Hh & Ht & Ho & Hg & Hx) E F O.
  assert (Ol : s_owner s l = Some i) by (apply O; eauto).
  assert (HS : forall x a, holds_at (s_trace s ++ [(i, Gave l)]) a x <->
                           upd (s_owner s) l None x = Some a).
  { intros x a. rewrite holds_snoc. unfold upd. destruct (lock_eqb_spec x l) as [->|NE].
    - split; [|discriminate]. intros [[_ D]|[H M]]; [discriminate|].
      apply Ho in H. exfalso. apply M. split; congruence.
    - rewrite Ho. split.
      + intros [[_ D]|[H _]]; [congruence|auto].
      + intro H. right. split; auto. intros [_ D]. inversion D; congruence. }
  destruct (trace_snoc (s_trace s) i (Gave l) Hg Hx) as [G X].
  - discriminate.
  - intros x a b Ha Hb. rewrite HS in Ha, Hb. congruence.
  - split; [reflexivity|]. split; [|split; [|split]]; cbn; auto.
    + intros j r Er. destruct (Nat.eq_dec j i) as [->|NE].
      * erewrite nth_set_same in Er by eauto. inversion Er; subst r.
        exists None. split; auto. cbn. intro x. unfold upd.
        destruct (lock_eqb_spec x l) as [->|NX]; split; try discriminate.
        -- intros [m D]; discriminate.
        -- intro D. apply O in D. destruct D as [m D]. congruence.
        -- intros [m D]; discriminate.
      * rewrite nth_set_other in Er by auto. destruct (Ht _ _ Er) as (h & Fh & Oh).
        exists h. split; auto. cbn. intro x. rewrite <- Oh. unfold upd.
        destruct (lock_eqb_spec x l) as [->|NX]; [|tauto]. rewrite Ol. split; congruence.
    + intros x a. symmetry. apply HS.
Qed.

Lemma miss_inv s i p l f k :
  inv s -> nth_error (s_prog s) i = Some p -> p = Take l f k -> fine None p ->
  (forall x, s_owner s x = Some i <-> exists n, None = Some (x, n : nat)) ->
  fine None (k false) ->
  inv (mkSys (set_nth i (k false) (s_prog s)) (s_owner s) false (s_trace s ++ [(i, Missed l)])).
Proof.
  intros I E Ep F O F'.
  assert (EQ : forall x : lock, (exists n, @None (lock * nat) = Some (x, n)) <->
                                (exists n, @None (lock * nat) = Some (x, n))) by tauto.
  destruct (quiet_inv s i p (k false) None None I E F O F' EQ) as (_ & Ht' & _).
  destruct I as (Hh & Ht & Ho & Hg & Hx).
  assert (HS : forall x a, holds_at (s_trace s ++ [(i, Missed l)]) a x <-> holds_at (s_trace s) a x).
  { intros x a. rewrite holds_snoc. split.
    - intros [[_ D]|[H _]]; [discriminate|auto].
    - intro H. right. split; auto. intros [_ D]; discriminate. }
  destruct (trace_snoc (s_trace s) i (Missed l) Hg Hx) as [G X].
  - discriminate.
  - intros x a b Ha Hb. rewrite HS in Ha, Hb. rewrite <- Ho in Ha, Hb. congruence.
  - split; [reflexivity|]. split; [|split; [|split]]; cbn; auto.
    intros x a. rewrite HS. apply Ho.
Qed.

Lemma step_inv s e : inv s -> inv (sys_step bodies s e).
Proof.
  intros I. destruct e as [i n]. unfold sys_step.
  pose proof I as (Hh & Ht & _). rewrite Hh.
  destruct (nth_error (s_prog s) i) as [p|] eqn:E; auto.
  destruct (Ht _ _ E) as (h & F & O).
  destruct F as [|l f k F1 F2|l m k F1|l m k F1|k F1|k F1|l m k F1|k F1|l m k F1].
  - eapply (quiet_inv s i _ _ None None); eauto; [constructor|apply body_fine|tauto].
  - assert (NO : forall x, s_owner s x <> Some i).
    { intros x D. apply O in D. destruct D as [m D]; discriminate. }
    destruct (s_owner s l) eqn:Ol.
    + destruct (negb f && (0 <? n)) eqn:B; auto.
      apply andb_prop in B. destruct B as [B _]. apply negb_true_iff in B.
      eapply miss_inv; eauto. now constructor.
    + eapply take_inv; eauto.
  - assert (Ol : s_owner s l = Some i) by (apply O; eauto).
    rewrite Ol, Nat.eqb_refl. eapply give_inv; eauto.
  - eapply (access_inv s i _ _ (Some (l, S m)) (Some (l, m))); eauto.
    + now constructor.
    + intro x. split; intros [y D]; inversion D; eauto.
    + intros _. apply O. eauto.
  - eapply (access_inv s i _ _ None None); eauto; [now constructor|tauto|congruence].
  - eapply (quiet_inv s i _ _ None None); eauto; [now constructor|tauto].
  - eapply (quiet_inv s i _ _ (Some (l, S m)) (Some (l, m))); eauto.
    + now constructor.
    + intro x. split; intros [y D]; inversion D; eauto.
  - eapply (quiet_inv s i _ _ None None); eauto; [now constructor|tauto].
  - eapply (quiet_inv s i _ _ (Some (l, S m)) (Some (l, m))); eauto.
    + now constructor.
    + intro x. split; intros [y D]; inversion D; eauto.
Qed.

Lemma fold_inv sch s : inv s -> inv (fold_left (sys_step bodies) sch s).
Proof. revert s. induction sch; cbn; auto using step_inv. Qed.

(** ** Progress *)

Lemma step_trace s e : exists t, s_trace (sys_step bodies s e) = s_trace s ++ t.
Proof.
  destruct e as [i n]. unfold sys_step.
  assert (Z : exists t, s_trace s = s_trace s ++ t) by (exists []; now rewrite app_nil_r).
  destruct (s_halt s); auto. destruct (nth_error (s_prog s) i) as [[| | | | |]|]; cbn; eauto.
  - destruct (s_owner s l); cbn; eauto. destruct (negb forever && _); cbn; eauto.
  - destruct (s_owner s l); cbn; eauto. destruct (_ =? _); cbn; eauto.
Qed.

Lemma fold_trace sch s : exists t, s_trace (fold_left (sys_step bodies) sch s) = s_trace s ++ t.
Proof.
  revert s. induction sch as [|e sch IH]; intro s; cbn.
  - exists []. now rewrite app_nil_r.
  - destruct (step_trace s e) as [t E]. destruct (IH (sys_step bodies s e)) as [t2 E2].
    exists (t ++ t2). rewrite E2, E. now rewrite app_assoc.
Qed.

(** A step of another task leaves [a]'s program alone. *)
Lemma step_other s i n a : i <> a ->
  nth_error (s_prog (sys_step bodies s (i, n))) a = nth_error (s_prog s) a.
Proof.
  intro NE. unfold sys_step. destruct (s_halt s); auto.
  destruct (nth_error (s_prog s) i) as [[| | | | |]|]; cbn; rewrite ?nth_set_other by congruence; auto.
  - destruct (s_owner s l); cbn; rewrite ?nth_set_other by congruence; auto.
    destruct (negb forever && _); cbn; rewrite ?nth_set_other by congruence; auto.
  - destruct (s_owner s l); cbn; rewrite ?nth_set_other by congruence; auto.
    destruct (_ =? _); cbn; rewrite ?nth_set_other by congruence; auto.
Qed.

(** A holder's own step either gives the mutex back or uses up one of its steps. *)
Lemma step_holder s a l n x p :
  inv s -> nth_error (s_prog s) a = Some p -> fine (Some (l, n)) p -> s_owner s l = Some a ->
  s_trace (sys_step bodies s (a, x)) = s_trace s ++ [(a, Gave l)] \/
  (exists q m, n = S m /\ nth_error (s_prog (sys_step bodies s (a, x))) a = Some q /\
     fine (Some (l, m)) q).
Proof.
  intros (Hh & _) E F O. unfold sys_step. rewrite Hh, E.
  inversion F; subst; cbn.
  - left. rewrite O, Nat.eqb_refl. reflexivity.
  - right. erewrite nth_set_same by eauto. eauto.
  - right. erewrite nth_set_same by eauto. eauto.
  - right. erewrite nth_set_same by eauto. eauto.
Qed.

(** While a holder has not given its mutex back it is still the owner. *)
Lemma still_owner s sch a l t :
  inv s -> s_owner s l = Some a ->
  s_trace (fold_left (sys_step bodies) sch s) = s_trace s ++ t -> ~ In (a, Gave l) t ->
  s_owner (fold_left (sys_step bodies) sch s) l = Some a.
Proof.
  intros I O E N. pose proof (fold_inv sch s I) as (_ & _ & Ho' & _).
  destruct I as (_ & _ & Ho & _). apply Ho'. apply Ho in O.
  destruct O as (t1 & t2 & E1 & N1). exists t1, (t2 ++ t). split.
  - rewrite E, E1. now rewrite <- app_assoc.
  - intro X. apply in_app_or in X. tauto.
Qed.

Lemma holder_gives sch : forall s a l n p,
  inv s -> nth_error (s_prog s) a = Some p -> fine (Some (l, n)) p -> s_owner s l = Some a ->
  n <= turns a sch ->
  exists t, s_trace (fold_left (sys_step bodies) sch s) = s_trace s ++ t /\ In (a, Gave l) t.
Proof.
  induction sch as [|[i x] sch IH]; intros s a l n p I E F O T.
  - cbn in T. exfalso. inversion F; subst; lia.
  - cbn [fold_left]. unfold turns in T. cbn [filter fst] in T.
    destruct (step_trace s (i, x)) as [t0 E0].
    destruct (fold_trace sch (sys_step bodies s (i, x))) as [t1 E1].
    destruct (Nat.eqb_spec i a) as [->|NE].
    + destruct (step_holder s a l n x p I E F O) as [Et|(q & m & -> & Eq & Fq)].
      * exists ([(a, Gave l)] ++ t1). split.
        -- rewrite E1, Et. rewrite <- !app_assoc. reflexivity.
        -- now left.
      * cbn [length] in T.
        destruct (in_dec entry_dec (a, Gave l) t0) as [Y|Y].
        { exists (t0 ++ t1). split; [rewrite E1, E0; now rewrite app_assoc|].
          apply in_or_app; auto. }
        destruct (IH (sys_step bodies s (a, x)) a l m q) as (t2 & E2 & G2); auto.
        { now apply step_inv. }
        { apply (still_owner s [(a, x)] a l t0); auto. }
        { unfold turns. lia. }
        exists (t0 ++ t2). split; [rewrite E2, E0; now rewrite app_assoc|].
        apply in_or_app; auto.
    + destruct (in_dec entry_dec (a, Gave l) t0) as [Y|Y].
      { exists (t0 ++ t1). split; [rewrite E1, E0; now rewrite app_assoc|].
        apply in_or_app; auto. }
      destruct (IH (sys_step bodies s (i, x)) a l n p) as (t2 & E2 & G2); auto.
      { now apply step_inv. }
      { now rewrite step_other. }
      { apply (still_owner s [(i, x)] a l t0); auto. }
      exists (t0 ++ t2). split; [rewrite E2, E0; now rewrite app_assoc|].
      apply in_or_app; auto.
Qed.

Lemma owner_fine s a l : inv s -> s_owner s l = Some a ->
  forall p, nth_error (s_prog s) a = Some p -> exists n, fine (Some (l, n)) p.
Proof.
  intros (_ & Ht & _) O p E. destruct (Ht _ _ E) as (h & F & Oh).
  apply Oh in O. destruct O as [n ->]. eauto.
Qed.

(** [n] never exceeds [K] along a run; kept as a separate invariant. *)
Definition small (s : sys) : Prop :=
  forall i p, nth_error (s_prog s) i = Some p ->
    forall l, s_owner s l = Some i -> exists n, n <= K /\ fine (Some (l, n)) p.

Lemma owner_step s i n l a : inv s ->
  s_owner (sys_step bodies s (i, n)) l = Some a -> s_owner s l = Some a \/
  (i = a /\ s_owner s l = None /\ exists f k, nth_error (s_prog s) i = Some (Take l f k)).
Proof.
  intros (Hh & _). unfold sys_step. rewrite Hh.
  destruct (nth_error (s_prog s) i) as [[|l0 f k|l0 k| | |]|] eqn:E; cbn; auto.
  - destruct (s_owner s l0) eqn:O; cbn.
    + destruct (negb f && _); cbn; auto.
    + unfold upd. destruct (lock_eqb_spec l l0) as [->|NE]; auto.
      intro D. inversion D; subst. right. eauto.
  - destruct (s_owner s l0) eqn:O; cbn; auto.
    destruct (_ =? _); cbn; auto. unfold upd. destruct (lock_eqb_spec l l0); auto. discriminate.
Qed.

Lemma small_init : small (sys_init bodies).
Proof. intros i p E l D. discriminate. Qed.

Lemma small_step s e : inv s -> small s -> small (sys_step bodies s e).
Proof.
  intros I S j p E l O. destruct e as [i n].
  pose proof (step_inv s (i, n) I) as I'.
  destruct (Nat.eq_dec i j) as [->|NE].
  - destruct (owner_step s j n l j I O) as [Oj|(_ & On & f & k & Et)].
    + destruct (nth_error (s_prog s) j) as [q|] eqn:Eq.
      * destruct (S j q Eq l Oj) as (m & Hm & Fm).
        destruct (step_holder s j l m n q I Eq Fm Oj) as [Et|(q' & m' & -> & Eq' & Fq')].
        -- exfalso. destruct I' as (_ & _ & Ho' & _). apply Ho' in O.
           rewrite Et in O. apply holds_snoc in O.
           destruct O as [[_ D]|[_ N]]; [discriminate|]. now apply N.
        -- rewrite Eq' in E. inversion E; subst. exists m'. split; [lia|auto].
      * exfalso. unfold sys_step in E. destruct I as (Hh & _). rewrite Hh, Eq in E. congruence.
    + unfold sys_step in E. destruct I as (Hh & Ht & _). rewrite Hh, Et, On in E. cbn in E.
      erewrite nth_set_same in E by eauto. inversion E; subst.
      destruct (Ht _ _ Et) as (h & F & _). inversion F; subst. exists K. auto.
  - rewrite step_other in E by auto.
    destruct (owner_step s i n l j I O) as [Oj|(D & _)]; [|congruence].
    eapply S; eauto.
Qed.

Lemma fold_small sch s : inv s -> small s -> small (fold_left (sys_step bodies) sch s).
Proof.
  revert s. induction sch as [|e sch IH]; cbn; auto.
  intros s I S. apply IH; auto using step_inv, small_step.
Qed.

(** ** Any task can be brought to the end of its round *)
Lemma length_step s e : length (s_prog (sys_step bodies s e)) = length (s_prog s).
Proof.
  destruct e as [i n]. unfold sys_step.
  destruct (s_halt s); auto. destruct (nth_error (s_prog s) i) as [[| | | | |]|]; cbn;
    rewrite ?set_nth_length; auto.
  - destruct (s_owner s l); cbn; rewrite ?set_nth_length; auto.
    destruct (negb forever && _); cbn; rewrite ?set_nth_length; auto.
  - destruct (s_owner s l); cbn; rewrite ?set_nth_length; auto.
    destruct (_ =? _); cbn; rewrite ?set_nth_length; auto.
Qed.

Lemma fold_length sch s : length (s_prog (fold_left (sys_step bodies) sch s)) = length (s_prog s).
Proof. revert s. induction sch; cbn; auto. intro s. rewrite IHsch. apply length_step. Qed.

(** Running only the holder of [l] frees it, and changes nothing for the others. *)
Lemma holder_alone n : forall s a l p,
  inv s -> nth_error (s_prog s) a = Some p -> fine (Some (l, n)) p -> s_owner s l = Some a ->
  exists m, s_owner (fold_left (sys_step bodies) (repeat (a, 0) m) s) l = None.
Proof.
  induction n as [|n IH]; intros s a l p I E F O; [inversion F|].
  assert (D : (exists k, p = Give l k) \/
     exists q, nth_error (s_prog (sys_step bodies s (a, 0))) a = Some q /\ fine (Some (l, n)) q /\
       s_owner (sys_step bodies s (a, 0)) l = Some a).
  { unfold sys_step. destruct I as (Hh & _). rewrite Hh, E.
    inversion F; subst; cbn; eauto;
      right; erewrite nth_set_same by eauto; eauto. }
  destruct D as [[k ->]|(q & Eq & Fq & Oq)].
  - exists 1. cbn. unfold sys_step. destruct I as (Hh & _). rewrite Hh, E, O, Nat.eqb_refl.
    cbn. apply upd_same.
  - destruct (IH (sys_step bodies s (a, 0)) a l q) as [m Hm]; auto using step_inv.
    exists (S m). exact Hm.
Qed.

Lemma other_fold m a i s : a <> i ->
  nth_error (s_prog (fold_left (sys_step bodies) (repeat (a, 0) m) s)) i = nth_error (s_prog s) i.
Proof.
  intro NE. revert s. induction m; cbn [repeat fold_left]; auto.
  intro s. rewrite IHm. now apply step_other.
Qed.

(** The mutex [l] can be freed for a task [i] that does not hold it. *)
Lemma can_free s i l h : inv s -> fine None h -> nth_error (s_prog s) i = Some h ->
  (forall x, s_owner s x <> Some i) ->
  (forall x a, s_owner s x = Some a -> a < length (s_prog s)) ->
  exists sch, let s' := fold_left (sys_step bodies) sch s in
    s_owner s' l = None /\ nth_error (s_prog s') i = Some h.
Proof.
  intros I F E N B. destruct (s_owner s l) as [a|] eqn:O.
  - assert (Na : a <> i) by (intros ->; eapply N; eauto).
    destruct (nth_error (s_prog s) a) as [p|] eqn:Ea.
    + destruct (owner_fine s a l I O p Ea) as [n Fp].
      destruct (holder_alone n s a l p I Ea Fp O) as [m Hm].
      exists (repeat (a, 0) m). split; auto. rewrite other_fold; auto.
    + apply nth_error_None in Ea. specialize (B l a O). lia.
  - exists []. auto.
Qed.

Lemma owner_bound_step s e : inv s ->
  (forall x a, s_owner s x = Some a -> a < length (s_prog s)) ->
  forall x a, s_owner (sys_step bodies s e) x = Some a -> a < length (s_prog (sys_step bodies s e)).
Proof.
  intros I B x a O. rewrite length_step. destruct e as [i n].
  destruct (owner_step s i n x a I O) as [H|(<- & _ & f & k & E)]; eauto.
  apply nth_error_Some. congruence.
Qed.

Lemma owner_bound_fold sch : forall s, inv s ->
  (forall x a, s_owner s x = Some a -> a < length (s_prog s)) ->
  forall x a, s_owner (fold_left (sys_step bodies) sch s) x = Some a ->
              a < length (s_prog (fold_left (sys_step bodies) sch s)).
Proof.
  induction sch as [|e sch IH]; cbn; auto. intros s I B. apply IH; auto using step_inv.
  now apply owner_bound_step.
Qed.

Lemma take_step s i l f k : s_halt s = false -> nth_error (s_prog s) i = Some (Take l f k) ->
  s_owner s l = None -> nth_error (s_prog (sys_step bodies s (i, 0))) i = Some (k true).
Proof.
  intros Hh E O. unfold sys_step. rewrite Hh, E, O. cbn. eapply nth_set_same; eauto.
Qed.

Lemma can_finish p : forall h s i,
  inv s -> fine h p -> nth_error (s_prog s) i = Some p ->
  (forall x a, s_owner s x = Some a -> a < length (s_prog s)) ->
  exists sch, nth_error (s_prog (fold_left (sys_step bodies) sch s)) i = Some Idle.
Proof.
  assert (one : forall q s i n, 
     (forall h s i, inv s -> fine h q -> nth_error (s_prog s) i = Some q ->
        (forall x a, s_owner s x = Some a -> a < length (s_prog s)) ->
        exists sch, nth_error (s_prog (fold_left (sys_step bodies) sch s)) i = Some Idle) ->
     inv s -> (forall x a, s_owner s x = Some a -> a < length (s_prog s)) ->
     nth_error (s_prog (sys_step bodies s (i, n))) i = Some q ->
     exists sch, nth_error (s_prog (fold_left (sys_step bodies) sch s)) i = Some Idle).
  { intros q s i n IH I B E. pose proof (step_inv s (i, n) I) as I'.
    destruct I' as (H1 & Ht' & H2). destruct (Ht' _ _ E) as (h & F & _).
    destruct (IH h (sys_step bodies s (i, n)) i) as [sch Hs]; auto.
    - repeat split; auto; apply H2.
    - now apply owner_bound_step.
    - exists ((i, n) :: sch). exact Hs. }
  induction p as [|l f k IH|l k IH|l k IH|k IH|k IH]; intros h s i I F E B.
  - exists []. exact E.
  - assert (F' := F). inversion F'; subst.
    assert (NO : forall x, s_owner s x <> Some i).
    { intros x D. destruct I as (_ & Ht & _). destruct (Ht _ _ E) as (h & Fh & Oh).
      inversion Fh; subst. apply Oh in D. destruct D as [m D]; discriminate. }
    destruct (can_free s i l _ I F E NO B) as (sch & O & E').
    destruct (one (k true) (fold_left (sys_step bodies) sch s) i 0) as [sch2 Hs].
    + apply IH.
    + now apply fold_inv.
    + now apply owner_bound_fold.
    + pose proof (fold_inv sch s I) as (Hh & _). eapply take_step; eauto.
    + exists (sch ++ sch2). rewrite fold_left_app. exact Hs.
  - eapply (one k s i 0); eauto. unfold sys_step. destruct I as (Hh & Ht & _). rewrite Hh, E.
    destruct (Ht _ _ E) as (h' & Fh & Oh). inversion Fh; subst.
    assert (O : s_owner s l = Some i) by (apply Oh; eauto).
    rewrite O, Nat.eqb_refl. cbn. eapply nth_set_same; eauto.
  - eapply (one k s i 0); eauto. unfold sys_step. destruct I as (Hh & _). rewrite Hh, E.
    cbn. eapply nth_set_same; eauto.
  - eapply (one k s i 0); eauto. unfold sys_step. destruct I as (Hh & _). rewrite Hh, E.
    cbn. eapply nth_set_same; eauto.
  - eapply (one (k 0) s i 0); eauto. unfold sys_step. destruct I as (Hh & _). rewrite Hh, E.
    cbn. eapply nth_set_same; eauto.
Qed.
End Step.

(** ** The tasks of the VCU keep the rules *)
Lemma f_either a b : fine None a -> fine None b -> fine None (either a b).
Proof. intros. constructor. intros [|n]; auto. Qed.
Lemma f_either_in l n a b : fine (Some (l, n)) a -> fine (Some (l, n)) b -> fine (Some (l, S n)) (either a b).
Proof. intros. constructor. intros [|m]; auto. Qed.
Lemma f_iter n body k : (forall q, fine None q -> fine None (body q)) -> fine None k ->
  fine None (Nat.iter n body k).
Proof. intros. induction n; cbn; auto. Qed.
Lemma f_loop body k : (forall q, fine None q -> fine None (body q)) -> fine None k ->
  fine None (loop body k).
Proof. intros. constructor. intro n. now apply f_iter. Qed.
Lemma f_touches l n m k : fine (Some (l, m)) k -> fine (Some (l, n + m)) (touches l n k).
Proof. intro. unfold touches. induction n; cbn; auto. now constructor. Qed.
Lemma f_touches_le l n k : n < K -> fine None k -> fine (Some (l, K)) (touches l n (Give l k)).
Proof.
  intros L F. replace K with (n + S (K - n - 1)) by (unfold K in *; lia).
  apply f_touches. now constructor.
Qed.

Lemma f_update_release n k : n < K -> fine None (k true) -> fine None (update_release n k).
Proof. intros. constructor; [now apply f_touches_le|discriminate]. Qed.
Lemma f_update_if n k : n < K -> fine None (k true) -> fine None (update_if n k).
Proof. intros. constructor; [now apply f_touches_le|discriminate]. Qed.
Lemma f_CopyState k : fine None (k true) -> fine None (CopyState k).
Proof. intros. constructor; [apply f_touches_le; auto; unfold K; lia|discriminate]. Qed.
Lemma f_Log_Print k : fine None k -> fine None (Log_Print k).
Proof. intros. constructor; [apply f_touches_le; auto; unfold K; lia|auto]. Qed.
Lemma f_Log_Set k : fine None k -> fine None (Log_SetSerialStream k).
Proof. intros. constructor; [apply f_touches_le; auto; unfold K; lia|auto]. Qed.
Lemma f_CRC k : fine None k -> fine None (CRC_Calculate k).
Proof. intros. constructor; [|auto]. unfold K. now repeat constructor. Qed.
Lemma f_SetTorqueEnabled k : fine None k -> fine None (SetTorqueEnabled k).
Proof. intros. constructor; [|discriminate]. unfold K. constructor. now constructor. Qed.
Lemma f_SetMotorDirection k : fine None k -> fine None (SetMotorDirection k).
Proof. intros. constructor; [|discriminate]. unfold K. constructor. now constructor. Qed.
Lemma f_SendTorqueCommand k : fine None k -> fine None (SendTorqueCommand k).
Proof.
  intros. apply f_either; auto. constructor; [|discriminate]. unfold K.
  constructor. apply f_either_in; [now constructor|]. unfold CAN_SendMessage. constructor. now constructor.
Qed.
Lemma f_SendInverterEnabled k : fine None k -> fine None (SendInverterEnabled k).
Proof.
  intros. constructor; [|discriminate]. unfold K, CAN_SendMessage.
  constructor. apply f_either_in; [now constructor|]. constructor.
  apply f_either_in; repeat (constructor; auto).
Qed.
Lemma f_SetOutputEnabled k : fine None k -> fine None (SetOutputEnabled k).
Proof. intros. apply f_either; auto. apply f_update_if; [unfold K; lia|now constructor]. Qed.

Create HintDb fine.
#[export] Hint Resolve f_idle f_work f_thr f_either f_CopyState f_Log_Print f_Log_Set f_CRC
  f_SetTorqueEnabled f_SetMotorDirection f_SendTorqueCommand f_SendInverterEnabled
  f_SetOutputEnabled : fine.

Ltac ue := apply f_update_release || apply f_update_if; [unfold K; lia|].

Lemma tasks_fine : Forall (fine None) tasks.
Proof.
  unfold tasks. repeat apply Forall_cons; [..|apply Forall_nil].
  - unfold throttle_task. ue. constructor. apply f_either; [auto with fine|].
    unfold touches. cbn. auto with fine.
  - unfold sm_task. apply f_CopyState. constructor. intro st.
    do 7 (destruct st as [|st]; [solve [auto 6 with fine | apply f_either; [auto with fine|];
      ue; auto 6 with fine | repeat (apply f_either; [solve [auto with fine]|]); auto with fine]|]).
    auto with fine.
  - apply f_loop; auto with fine. intros q Q. constructor. intros [|[|[|n]]]; auto; ue; auto.
  - apply f_loop; auto with fine. intros q Q. constructor. intros [|[|[|[|[|n]]]]]; auto; ue; auto.
  - unfold sdc_task. ue. auto with fine.
  - unfold wheelspeed_task. repeat (apply f_either; [solve [auto with fine]|]). ue. auto with fine.
  - unfold gps_task. apply f_either; auto with fine. apply f_loop; auto with fine.
    intros q Q. apply f_either; auto. ue. auto.
  - constructor. intro n. ue. auto with fine.
  - unfold watchdog_task. auto with fine.
  - unfold pcinterface_task.
    assert (DP : forall q, fine None q -> fine None (DebugPrint q)) by (intros; unfold DebugPrint; auto with fine).
    assert (HM : forall q, fine None q -> fine None (handleMessage q)).
    { intros q Q. constructor. intros [|[|[|n]]]; auto.
      - apply f_loop; auto. intros r R. constructor. intros [|[|m]]; auto with fine.
      - unfold handleMsgTestSdc. auto with fine.
      - unfold handleMsgTestPdm. apply f_Log_Print. apply f_iter; auto. auto with fine. }
    assert (FL : fine None (flushLogMessage Idle)).
    { apply f_loop; auto with fine. }
    assert (PD : fine None (periodicCanDebug (flushLogMessage Idle))).
    { unfold periodicCanDebug, CAN_SendMessage. auto 7 with fine. }
    apply f_loop.
    + intros q Q. constructor. apply f_loop; auto with fine.
    + unfold HandlePeriodic. apply f_either; auto with fine. apply f_CopyState.
      apply f_iter; auto with fine.
  - apply f_loop; auto with fine. apply f_Log_Set. apply f_loop; auto with fine.
Qed.

Lemma run_inv sch : inv (sys_run tasks sch).
Proof. apply fold_inv; [apply tasks_fine|apply init_inv; apply tasks_fine]. Qed.
Lemma run_small sch : small (sys_run tasks sch).
Proof. apply fold_small; [apply tasks_fine|apply init_inv; apply tasks_fine|apply small_init]. Qed.
