(** Proofs for C99: the lists of ready tasks, who holds what, and inherited priorities. *)
From Coq Require Import ZifyBool ZifyNat Sorting.Sorted Sorting.Permutation.
From Verif.Base Require Import Words.
From Verif.Model Require Import KMutex.
From Verif.Spec Require Import KMutexSpec.
Open Scope Z_scope.

Lemma upd_same : forall {A} (f : Z -> A) i v, upd f i v i = v.
Proof. intros. unfold upd. now rewrite Z.eqb_refl. Qed.
Lemma upd_other : forall {A} (f : Z -> A) i v x, x <> i -> upd f i v x = f x.
Proof. intros A f i v x N. unfold upd. destruct (Z.eqb_spec x i); [congruence|reflexivity]. Qed.
Lemma existsb_in : forall t l, existsb (Z.eqb t) l = true <-> In t l.
Proof.
  intros t l. rewrite existsb_exists. split; [intros (x & I & E); apply Z.eqb_eq in E; now subst x|].
  intros I. exists t. split; [exact I|apply Z.eqb_refl].
Qed.

Lemma nodup_snoc : forall (l : list Z) t, NoDup l -> ~ In t l -> NoDup (l ++ [t]).
Proof. intros l t N I. apply (Permutation_NoDup (Permutation_cons_append l t)). now constructor. Qed.

(** ** The lists of ready tasks *)
(** [f t]: the priority of [t] if it is ready. *)
Record lists (rd : Z -> list Z) (top : Z) (f : Z -> option Z) : Prop := {
  l_in : forall t p, In t (rd p) <-> f t = Some p;
  l_nodup : forall p, NoDup (rd p);
  l_range : forall t p, f t = Some p -> 0 <= p < MAX_PRIORITIES;
  l_top0 : 0 <= top;
  l_top : forall p, 0 <= p -> Z.testbit top p = true <-> rd p <> [] }.

Lemma lists_ext : forall rd top f g, lists rd top f -> (forall t, f t = g t) -> lists rd top g.
Proof.
  intros rd top f g [A B C D E] X. split; auto.
  - intros t p. rewrite <- X. apply A.
  - intros t p. rewrite <- X. apply C.
Qed.
Lemma lists_add : forall rd top f t p, lists rd top f -> f t = None -> 0 <= p < MAX_PRIORITIES ->
  lists (upd rd p (rd p ++ [t])) (Z.setbit top p) (upd f t (Some p)).
Proof.
  intros rd top f t p [A B C D E] N R. split.
  - intros x q. unfold upd. destruct (Z.eqb_spec q p) as [EQ|NE].
    + subst q. rewrite in_app_iff, A. cbn. destruct (Z.eqb_spec x t) as [EX|NX].
      * subst x. rewrite N. intuition congruence.
      * intuition congruence.
    + rewrite A. destruct (Z.eqb_spec x t) as [EX|NX]; [subst x; rewrite N; intuition congruence|reflexivity].
  - intros q. unfold upd. destruct (Z.eqb_spec q p) as [EQ|NE]; [|auto]. apply nodup_snoc; auto. rewrite A, N. discriminate.
  - intros x q. unfold upd. destruct (Z.eqb_spec x t); [intros X; injection X as <-; exact R|apply C].
  - apply Z.lor_nonneg. split; [exact D|]. unfold Z.shiftl. apply Z.shiftl_nonneg. lia.
  - intros q Q. unfold upd. destruct (Z.eqb_spec q p) as [EQ|NE].
    + subst q. rewrite Z.setbit_eq by lia. split; [|reflexivity]. intros _ X. now apply app_eq_nil in X as [_ X].
    + rewrite Z.setbit_neq by lia. apply E. exact Q.
Qed.

Definition without (t : Z) (l : list Z) : list Z := filter (fun u => negb (u =? t)) l.
Lemma without_in : forall t l x, In x (without t l) <-> In x l /\ x <> t.
Proof. intros t l x. unfold without. rewrite filter_In. destruct (Z.eqb_spec x t); cbn; intuition congruence. Qed.
Lemma lists_leave : forall rd top f t p q, lists rd top f -> f t = Some p -> (q = p \/ exists v, v <> t /\ f v = Some p) ->
  let rd' := upd rd p (without t (rd p)) in
  lists rd' (match rd' p, rd' q with [], [] => Z.clearbit top q | _, _ => top end) (upd f t None).
Proof.
  intros rd top f t p q [A B C D E] F Q rd'.
  assert (IN : forall x r, In x (rd' r) <-> upd f t None x = Some r).
  { intros x r. unfold rd', upd. destruct (Z.eqb_spec r p) as [EQ|NE].
    - subst r. rewrite without_in, A. destruct (Z.eqb_spec x t); intuition congruence.
    - rewrite A. destruct (Z.eqb_spec x t) as [EX|NX]; [subst x; rewrite F; intuition congruence|reflexivity]. }
  assert (RP : 0 <= p < MAX_PRIORITIES) by (eapply C; eauto).
  assert (TT : lists rd' (match rd' p with [] => Z.clearbit top p | _ => top end) (upd f t None)).
  { split; auto.
    - intros r. unfold rd', upd. destruct (Z.eqb_spec r p); [apply NoDup_filter|]; auto.
    - intros x r. unfold upd. destruct (Z.eqb_spec x t); [discriminate|apply C].
    - destruct (rd' p); [|exact D]. rewrite Z.clearbit_spec'. apply Z.ldiff_nonneg. now left.
    - intros r R. destruct (Z.eq_dec r p) as [EQ|NE].
      + subst r. destruct (rd' p) eqn:X.
        * rewrite Z.clearbit_eq by lia. intuition discriminate.
        * rewrite (E p R). split; [discriminate|]. intros _ X2. specialize (IN z p). rewrite X in IN.
          assert (U : upd f t None z = Some p) by (apply IN; now left). unfold upd in U. destruct (Z.eqb_spec z t); [discriminate|].
          apply A in U. rewrite X2 in U. destruct U.
      + replace (rd' r) with (rd r) by (unfold rd', upd; destruct (Z.eqb_spec r p); congruence).
        rewrite <- (E r R). destruct (rd' p); [|reflexivity]. rewrite Z.clearbit_neq by lia. reflexivity. }
  destruct Q as [-> |(v & NV & V)].
  - destruct (rd' p); exact TT.
  - assert (I : In v (rd' p)) by (apply IN; rewrite upd_other; auto). destruct (rd' p); [destruct I|exact TT].
Qed.

(** The choice of the scheduler. *)
Lemma lists_highest : forall rd top f, lists rd top f -> (exists t p, f t = Some p) ->
  0 < top /\ rd (Z.log2 top) <> [] /\ forall t p, f t = Some p -> p <= Z.log2 top.
Proof.
  intros rd top f [A B C D E] (t & p & F).
  assert (NZ : forall x r, f x = Some r -> Z.testbit top r = true).
  { intros x r X. apply E; [apply C in X; lia|]. intros Y. apply A in X. rewrite Y in X. destruct X. }
  assert (T : 0 < top).
  { destruct (Z.eq_dec top 0) as [Z0|NZ0]; [|lia]. specialize (NZ t p F). rewrite Z0, Z.testbit_0_l in NZ. discriminate. }
  split; [exact T|]. split.
  - apply E; [apply Z.log2_nonneg|]. now apply Z.bit_log2.
  - intros x r X. destruct (Z.le_gt_cases r (Z.log2 top)) as [L|L]; [exact L|]. exfalso.
    specialize (NZ x r X). rewrite Z.bits_above_log2 in NZ by lia. discriminate.
Qed.

(** ** Mutexes *)
Definition busy (p : pc) : bool := match p with Out => false | Away => false | _ => true end.
Definition calls (p : pc) (m : Z) : bool :=
  match p with
  | Try x _ i => i && (x =? m) | Check x _ i => i && (x =? m) | Asleep x _ i => i && (x =? m) | Late x _ i => i && (x =? m)
  | Undo x => x =? m | _ => false
  end.
Definition may_wait (p : pc) : Prop :=
  match p with Try _ NoWait i => i = false | Check _ NoWait _ => False | Asleep _ NoWait _ => False | Late _ NoWait _ => False | _ => True end.

Section Inv.
Variable base : Z -> Z.
Variable ids : list Z.
Hypothesis SET : setting base ids.
Notation blank t := (mkT (base t) 0 (MAX_PRIORITIES - base t) Out).

Definition why (tk : Z -> tcb) (m h : Z) : Prop :=
  t_prio (tk h) = base h \/ exists v, In v ids /\ calls (t_pc (tk v)) m = true /\ base v = t_prio (tk h).

Record mutexes (tk : Z -> tcb) (mx : Z -> mutex) : Prop := {
  m_out : forall t, ~ In t ids -> tk t = blank t;
  m_item : forall t, t_item (tk t) = MAX_PRIORITIES - t_prio (tk t);
  m_prio : forall t, In t ids -> base t <= t_prio (tk t) < MAX_PRIORITIES;
  m_idle : t_pc (tk IDLE) = Out /\ t_held (tk IDLE) = 0;
  m_hold : forall m h, m_holder (mx m) = Some h -> In h ids /\ t_held (tk h) = 1;
  m_cnt : forall m, m_count (mx m) = match m_holder (mx m) with None => 1 | Some _ => 0 end;
  m_held : forall t, t_held (tk t) = 0 \/ exists m, m_holder (mx m) = Some t;
  m_one : forall m m' t, m_holder (mx m) = Some t -> m_holder (mx m') = Some t -> m = m';
  m_base : forall t, t_held (tk t) = 0 -> t_prio (tk t) = base t;
  m_wt : forall m t, In t (m_wait (mx m)) <-> exists w i, t_pc (tk t) = Asleep m w i;
  m_wnd : forall m, NoDup (m_wait (mx m));
  m_sort : forall m, StronglySorted (fun a b => base b <= base a) (m_wait (mx m));
  m_busy : forall t, busy (t_pc (tk t)) = true -> t_held (tk t) = 0;
  m_above : forall m h t w i, m_holder (mx m) = Some h -> t_pc (tk t) = Asleep m w i -> base t <= t_prio (tk h);
  m_noinh : forall m h t w, m_holder (mx m) = Some h -> t_pc (tk t) = Asleep m w false -> base t <= base h;
  m_why : forall m h, m_holder (mx m) = Some h -> why tk m h;
  m_next : forall m, m_holder (mx m) = None -> m_wait (mx m) <> [] ->
    exists u w i, In u ids /\ t_pc (tk u) = Try m w i /\ forall t, In t (m_wait (mx m)) -> base t <= base u;
  m_may : forall t, may_wait (t_pc (tk t)) }.

Lemma asleep_id : forall tk mx t, mutexes tk mx -> t_pc (tk t) <> Out -> In t ids.
Proof. intros tk mx t M N. destruct (in_dec Z.eq_dec t ids) as [I|I]; [exact I|]. rewrite (m_out _ _ M t I) in N. now destruct N. Qed.
Lemma waiter_base : forall tk mx m t, mutexes tk mx -> In t (m_wait (mx m)) -> t_held (tk t) = 0 /\ t_prio (tk t) = base t /\ In t ids.
Proof.
  intros tk mx m t M I. apply (m_wt _ _ M) in I. destruct I as (w & i & E).
  assert (H : t_held (tk t) = 0) by (apply (m_busy _ _ M); now rewrite E). split; [exact H|]. split; [now apply (m_base _ _ M)|].
  apply (asleep_id tk mx); auto. rewrite E. discriminate.
Qed.

(** A task goes on, nothing else changes. *)
Lemma mutexes_pc : forall tk mx c p', mutexes tk mx -> In c ids -> c <> IDLE ->
  (forall m w i, t_pc (tk c) <> Asleep m w i) -> (forall m w i, p' <> Asleep m w i) ->
  (busy p' = true -> t_held (tk c) = 0) ->
  (forall m, calls (t_pc (tk c)) m = true -> calls p' m = true \/ forall h, m_holder (mx m) = Some h ->
     t_prio (tk h) = base h \/ exists v, v <> c /\ In v ids /\ calls (t_pc (tk v)) m = true /\ base v = t_prio (tk h)) ->
  (forall m w i, t_pc (tk c) = Try m w i -> (exists w i, p' = Try m w i) \/ m_holder (mx m) <> None) ->
  may_wait p' ->
  mutexes (upd tk c (mkT (t_prio (tk c)) (t_held (tk c)) (t_item (tk c)) p')) mx.
Proof.
  intros tk mx c p' M IC NI NA NA' B W T MW. set (tk' := upd tk c _).
  assert (SAME : forall t, t_prio (tk' t) = t_prio (tk t) /\ t_held (tk' t) = t_held (tk t) /\ t_item (tk' t) = t_item (tk t)).
  { intros t. unfold tk', upd. destruct (Z.eqb_spec t c) as [E|E]; [subst t; cbn; auto|auto]. }
  assert (PR : forall t, t_prio (tk' t) = t_prio (tk t)) by (intros; apply SAME).
  assert (HE : forall t, t_held (tk' t) = t_held (tk t)) by (intros; apply SAME).
  assert (IT : forall t, t_item (tk' t) = t_item (tk t)) by (intros; apply SAME).
  assert (PC : forall t, t <> c -> t_pc (tk' t) = t_pc (tk t)) by (intros t N; unfold tk'; now rewrite upd_other).
  assert (PCc : t_pc (tk' c) = p') by (unfold tk'; now rewrite upd_same).
  assert (AS : forall t m w i, t_pc (tk' t) = Asleep m w i <-> t_pc (tk t) = Asleep m w i).
  { intros t m w i. destruct (Z.eq_dec t c) as [E|E]; [subst t; rewrite PCc; split; intros X; exfalso; [eapply NA'|eapply NA]; eauto|now rewrite PC]. }
  destruct M as [A1 A2 A3 A4 A5 A6 A7 A8 A9 A10 A11 A12 A13 A14 A15 A16 A17 A18]. split; auto.
  - intros t N. unfold tk'. rewrite upd_other by (intros ->; contradiction). auto.
  - intros t. rewrite IT, PR. auto.
  - intros t. rewrite PR. auto.
  - rewrite HE. rewrite PC by auto. exact A4.
  - intros m h. rewrite HE. apply A5.
  - intros t. rewrite HE. auto.
  - intros t. rewrite HE, PR. auto.
  - intros m t. rewrite A10. split; intros (w & i & X); exists w, i; apply AS; exact X.
  - intros t. rewrite HE. destruct (Z.eq_dec t c) as [E|E]; [subst t; now rewrite PCc|rewrite PC; auto].
  - intros m h t w i H X. rewrite PR. apply AS in X. eauto.
  - intros m h t w H X. apply AS in X. eauto.
  - intros m h H. unfold why. rewrite PR. destruct (A16 m h H) as [X|(v & V1 & V2 & V3)]; [now left|].
    destruct (Z.eq_dec v c) as [E|E].
    + subst v. destruct (W m V2) as [X|X].
      * right. exists c. rewrite PCc. auto.
      * destruct (X h H) as [Y|(v & Y1 & Y2 & Y3 & Y4)]; [now left|]. right. exists v. rewrite PC; auto.
    + right. exists v. rewrite PC; auto.
  - intros m H NE. destruct (A17 m H NE) as (u & w & i & U1 & U2 & U3). destruct (Z.eq_dec u c) as [E|E].
    + subst u. destruct (T m w i U2) as [(w' & i' & X)|X]; [|congruence]. exists c, w', i'. rewrite PCc. auto.
    + exists u, w, i. rewrite PC; auto.
  - intros t. destruct (Z.eq_dec t c) as [E|E]; [subst t; now rewrite PCc|rewrite PC; auto].
Qed.

Lemma mutexes_ext : forall tk tk' mx mx', mutexes tk mx -> (forall t, tk t = tk' t) -> (forall m, mx m = mx' m) -> mutexes tk' mx'.
Proof.
  intros tk tk' mx mx' [A1 A2 A3 A4 A5 A6 A7 A8 A9 A10 A11 A12 A13 A14 A15 A16 A17 A18] X Y. split.
  - intros t. rewrite <- X. auto.
  - intros t. rewrite <- X. auto.
  - intros t. rewrite <- X. auto.
  - rewrite <- X. exact A4.
  - intros m h. rewrite <- X, <- Y. apply A5.
  - intros m. rewrite <- Y. auto.
  - intros t. rewrite <- X. destruct (A7 t) as [H|(m & H)]; [now left|right; exists m; now rewrite <- Y].
  - intros m m' t. rewrite <- !Y. apply A8.
  - intros t. rewrite <- X. auto.
  - intros m t. rewrite <- X, <- Y. auto.
  - intros m. rewrite <- Y. auto.
  - intros m. rewrite <- Y. auto.
  - intros t. rewrite <- X. auto.
  - intros m h t w i. rewrite <- !X, <- Y. apply A14.
  - intros m h t w. rewrite <- !X, <- Y. apply A15.
  - intros m h. rewrite <- Y. intros H. unfold why. rewrite <- X. destruct (A16 m h H) as [E|(v & V1 & V2 & V3)]; [now left|].
    right. exists v. rewrite <- X. auto.
  - intros m. rewrite <- Y. intros H N. destruct (A17 m H N) as (u & w & i & U). exists u, w, i. rewrite <- X. exact U.
  - intros t. rewrite <- X. auto.
Qed.

(** The priority of the holder changes. *)
Lemma mutexes_prio : forall tk mx m h p, mutexes tk mx -> m_holder (mx m) = Some h -> base h <= p < MAX_PRIORITIES ->
  (forall t, In t (m_wait (mx m)) -> base t <= p) ->
  (p = base h \/ exists v, In v ids /\ calls (t_pc (tk v)) m = true /\ base v = p) ->
  mutexes (upd tk h (mkT p (t_held (tk h)) (MAX_PRIORITIES - p) (t_pc (tk h)))) mx.
Proof.
  intros tk mx m h p M HM BP WP WY. set (tk' := upd tk h _).
  assert (HE : forall t, t_held (tk' t) = t_held (tk t)) by (intros t; unfold tk', upd; destruct (Z.eqb_spec t h) as [-> |]; reflexivity).
  assert (PC : forall t, t_pc (tk' t) = t_pc (tk t)) by (intros t; unfold tk', upd; destruct (Z.eqb_spec t h) as [-> |]; reflexivity).
  assert (PR : forall t, t <> h -> t_prio (tk' t) = t_prio (tk t)) by (intros t N; unfold tk'; now rewrite upd_other).
  assert (PH : t_prio (tk' h) = p) by (unfold tk'; now rewrite upd_same).
  destruct (m_hold _ _ M m h HM) as (IH & H1).
  destruct M as [A1 A2 A3 A4 A5 A6 A7 A8 A9 A10 A11 A12 A13 A14 A15 A16 A17 A18]. split; auto.
  - intros t N. unfold tk'. rewrite upd_other by (intros ->; contradiction). auto.
  - intros t. unfold tk', upd. destruct (Z.eqb_spec t h); [reflexivity|auto].
  - intros t I. destruct (Z.eq_dec t h) as [E|E]; [subst t; now rewrite PH|rewrite PR; auto].
  - rewrite HE, PC. exact A4.
  - intros x y. rewrite HE. apply A5.
  - intros t. rewrite HE. auto.
  - intros t. rewrite HE. intros Z0. rewrite PR; [auto|]. intros ->. lia.
  - intros x t. rewrite PC. auto.
  - intros t. rewrite HE, PC. auto.
  - intros x y t w i HX X. rewrite PC in X. destruct (Z.eq_dec y h) as [E|E].
    + subst y. rewrite PH. apply WP. rewrite (A8 m x h HM HX). apply A10. eauto.
    + rewrite PR by auto. eauto.
  - intros x y t w HX X. rewrite PC in X. eauto.
  - intros x y HX. unfold why. destruct (Z.eq_dec y h) as [E|E].
    + subst y. rewrite PH. rewrite <- (A8 m x h HM HX). destruct WY as [W|(v & V)]; [now left|right; exists v; now rewrite PC].
    + rewrite PR by auto. destruct (A16 x y HX) as [W|(v & V)]; [now left|right; exists v; now rewrite PC].
  - intros x HX N. destruct (A17 x HX N) as (u & w & i & U). exists u, w, i. rewrite PC. exact U.
  - intros t. rewrite PC. auto.
Qed.

(** A sleeping task wakes. *)
Lemma mutexes_wake : forall tk mx m u w i, mutexes tk mx -> t_pc (tk u) = Asleep m w i ->
  mutexes (upd tk u (mkT (t_prio (tk u)) (t_held (tk u)) (t_item (tk u)) (Try m w i)))
          (upd mx m (mkM (m_count (mx m)) (m_holder (mx m)) (without u (m_wait (mx m))))).
Proof.
  intros tk mx m u w i M EU. set (tk' := upd tk u _). set (mx' := upd mx m _).
  assert (UI : In u ids) by (apply (asleep_id tk mx); auto; rewrite EU; discriminate).
  assert (SAME : forall t, t_prio (tk' t) = t_prio (tk t) /\ t_held (tk' t) = t_held (tk t) /\ t_item (tk' t) = t_item (tk t)).
  { intros t. unfold tk', upd. destruct (Z.eqb_spec t u) as [E|E]; [subst t; cbn; auto|auto]. }
  assert (PR : forall t, t_prio (tk' t) = t_prio (tk t)) by (intros; apply SAME).
  assert (HE : forall t, t_held (tk' t) = t_held (tk t)) by (intros; apply SAME).
  assert (IT : forall t, t_item (tk' t) = t_item (tk t)) by (intros; apply SAME).
  assert (PC : forall t, t <> u -> t_pc (tk' t) = t_pc (tk t)) by (intros t N; unfold tk'; now rewrite upd_other).
  assert (PCu : t_pc (tk' u) = Try m w i) by (unfold tk'; now rewrite upd_same).
  assert (HO : forall x, m_holder (mx' x) = m_holder (mx x)) by (intros x; unfold mx', upd; destruct (Z.eqb_spec x m) as [-> |]; reflexivity).
  assert (WT : forall x, m_wait (mx' x) = if x =? m then without u (m_wait (mx m)) else m_wait (mx x))
    by (intros x; unfold mx', upd; destruct (Z.eqb_spec x m) as [-> |]; reflexivity).
  assert (IW : forall x t, In t (m_wait (mx' x)) -> In t (m_wait (mx x)) /\ t <> u).
  { intros x t I. rewrite WT in I. destruct (Z.eqb_spec x m) as [E|E].
    - subst x. now apply without_in in I.
    - split; [exact I|]. intros ->. apply (m_wt _ _ M) in I. destruct I as (w' & i' & I). rewrite EU in I. congruence. }
  assert (AS : forall t x w' i', t_pc (tk' t) = Asleep x w' i' -> t_pc (tk t) = Asleep x w' i').
  { intros t x w' i' X. destruct (Z.eq_dec t u) as [E|E]; [subst t; rewrite PCu in X; discriminate|rewrite <- X; symmetry; now apply PC]. }
  destruct M as [A1 A2 A3 A4 A5 A6 A7 A8 A9 A10 A11 A12 A13 A14 A15 A16 A17 A18]. split.
  - intros t N. unfold tk'. rewrite upd_other by (intros ->; contradiction). auto.
  - intros t. rewrite IT, PR. auto.
  - intros t. rewrite PR. auto.
  - rewrite HE. rewrite PC; [exact A4|]. intros E. rewrite <- E in EU. rewrite (proj1 A4) in EU. discriminate.
  - intros x h. rewrite HE, HO. apply A5.
  - intros x. rewrite HO, <- A6. unfold mx', upd. destruct (Z.eqb_spec x m) as [-> |]; reflexivity.
  - intros t. rewrite HE. destruct (A7 t) as [H|(x & H)]; [now left|right; exists x; now rewrite HO].
  - intros x y t. rewrite !HO. apply A8.
  - intros t. rewrite HE, PR. auto.
  - intros x t. split.
    + intros I. apply IW in I. destruct I as (I & N). apply A10 in I. rewrite PC; auto.
    + intros (w' & i' & X). assert (t <> u) by (intros ->; rewrite PCu in X; discriminate). apply AS in X.
      assert (J : In t (m_wait (mx x))) by (apply A10; eauto). rewrite WT. destruct (Z.eqb_spec x m) as [E|E]; [subst x; now apply without_in|exact J].
  - intros x. rewrite WT. destruct (Z.eqb_spec x m); [apply NoDup_filter|]; auto.
  - intros x. rewrite WT. destruct (Z.eqb_spec x m); [|auto]. clear -A12. specialize (A12 m). induction (m_wait (mx m)) as [|y l IHl]; cbn; [constructor|].
    inversion A12; subst. destruct (negb (y =? u)); [|auto]. constructor; [auto|]. apply Forall_forall. intros z Iz. rewrite Forall_forall in H2.
    apply H2. apply filter_In in Iz. tauto.
  - intros t. rewrite HE. destruct (Z.eq_dec t u) as [E|E]; [subst t; intros _; apply A13; now rewrite EU|rewrite PC; auto].
  - intros x h t w' i'. rewrite HO, PR. intros H X. apply AS in X. eauto.
  - intros x h t w'. rewrite HO. intros H X. apply AS in X. eauto.
  - intros x h. rewrite HO. intros H. unfold why. rewrite PR. destruct (A16 x h H) as [X|(v & V1 & V2 & V3)]; [now left|].
    right. exists v. split; [exact V1|]. split; [|exact V3]. destruct (Z.eq_dec v u) as [E|E]; [subst v; rewrite PCu; rewrite EU in V2; exact V2|now rewrite PC].
  - intros x. rewrite HO. intros H N.
    assert (N' : m_wait (mx x) <> []).
    { intros Z0. destruct (m_wait (mx' x)) as [|t l] eqn:L; [now destruct N|]. assert (J : In t (m_wait (mx' x))) by (rewrite L; now left).
      apply IW in J. destruct J as (J & _). rewrite Z0 in J. destruct J. }
    destruct (A17 x H N') as (v & w' & i' & V1 & V2 & V3). exists v, w', i'. split; [exact V1|]. split.
    + rewrite PC; [exact V2|]. intros ->. congruence.
    + intros t J. apply V3. now apply IW.
  - intros t. destruct (Z.eq_dec t u) as [E|E]; [subst t; rewrite PCu|rewrite PC; auto]. specialize (A18 u). rewrite EU in A18. destruct w; cbn in *; auto. destruct A18.
Qed.

(** A task takes a free mutex. *)
Lemma mutexes_take : forall tk mx m c w i, mutexes tk mx -> In c ids -> t_pc (tk c) = Try m w i -> m_holder (mx m) = None ->
  (forall t, In t (m_wait (mx m)) -> base t <= base c) ->
  mutexes (upd tk c (mkT (t_prio (tk c)) (t_held (tk c) + 1) (t_item (tk c)) Out))
          (upd mx m (mkM (m_count (mx m) - 1) (Some c) (m_wait (mx m)))).
Proof.
  intros tk mx m c w i M IC EC HN HB. set (tk' := upd tk c _). set (mx' := upd mx m _).
  assert (H0 : t_held (tk c) = 0) by (apply (m_busy _ _ M); now rewrite EC).
  assert (PB : t_prio (tk c) = base c) by (now apply (m_base _ _ M)).
  assert (NF : forall x, m_holder (mx x) <> Some c) by (intros x X; apply (m_hold _ _ M) in X; lia).
  assert (PR : forall t, t_prio (tk' t) = t_prio (tk t)) by (intros t; unfold tk', upd; destruct (Z.eqb_spec t c) as [-> |]; reflexivity).
  assert (IT : forall t, t_item (tk' t) = t_item (tk t)) by (intros t; unfold tk', upd; destruct (Z.eqb_spec t c) as [-> |]; reflexivity).
  assert (OT : forall t, t <> c -> tk' t = tk t) by (intros t N; unfold tk'; now rewrite upd_other).
  assert (ME : tk' c = mkT (t_prio (tk c)) (t_held (tk c) + 1) (t_item (tk c)) Out) by (unfold tk'; now rewrite upd_same).
  assert (HO : forall x, m_holder (mx' x) = if x =? m then Some c else m_holder (mx x)) by (intros x; unfold mx', upd; destruct (Z.eqb_spec x m); reflexivity).
  assert (WT : forall x, m_wait (mx' x) = m_wait (mx x)) by (intros x; unfold mx', upd; destruct (Z.eqb_spec x m) as [-> |]; reflexivity).
  assert (AS : forall t x w' i', t_pc (tk' t) = Asleep x w' i' <-> t_pc (tk t) = Asleep x w' i').
  { intros t x w' i'. destruct (Z.eq_dec t c) as [E|E]; [subst t; rewrite ME, EC; cbn; split; discriminate|now rewrite OT]. }
  destruct M as [A1 A2 A3 A4 A5 A6 A7 A8 A9 A10 A11 A12 A13 A14 A15 A16 A17 A18]. split.
  - intros t N. rewrite OT by (intros ->; contradiction). auto.
  - intros t. rewrite IT, PR. auto.
  - intros t. rewrite PR. auto.
  - rewrite OT; [exact A4|]. intros E. rewrite <- E in EC. rewrite (proj1 A4) in EC. discriminate.
  - intros x h. rewrite HO. destruct (Z.eqb_spec x m) as [E|E].
    + intros X. injection X as <-. rewrite ME. cbn. split; [exact IC|lia].
    + intros X. rewrite OT; [now apply (A5 x)|]. intros ->. now apply (NF x).
  - intros x. rewrite HO. unfold mx', upd. destruct (Z.eqb_spec x m) as [E|E]; [cbn; rewrite A6, HN; reflexivity|auto].
  - intros t. destruct (Z.eq_dec t c) as [E|E]; [subst t; right; exists m; now rewrite HO, Z.eqb_refl|]. rewrite OT by auto.
    destruct (A7 t) as [H|(x & H)]; [now left|right; exists x]. rewrite HO. destruct (Z.eqb_spec x m); [congruence|exact H].
  - intros x y t. rewrite !HO. destruct (Z.eqb_spec x m) as [E1|E1], (Z.eqb_spec y m) as [E2|E2]; try congruence.
    apply A8.
  - intros t. rewrite PR. destruct (Z.eq_dec t c) as [E|E]; [subst t; auto|rewrite OT; auto].
  - intros x t. rewrite WT, A10. split; intros (w' & i' & X); exists w', i'; apply AS; exact X.
  - intros x. rewrite WT. auto.
  - intros x. rewrite WT. auto.
  - intros t. destruct (Z.eq_dec t c) as [E|E]; [subst t; rewrite ME; discriminate|rewrite OT; auto].
  - intros x h t w' i'. rewrite HO, PR. intros H X. apply AS in X. destruct (Z.eqb_spec x m) as [E|E]; [|eauto].
    injection H as <-. subst x. rewrite PB. apply HB. apply A10. eauto.
  - intros x h t w'. rewrite HO. intros H X. apply AS in X. destruct (Z.eqb_spec x m) as [E|E]; [|eauto].
    injection H as <-. subst x. apply HB. apply A10. eauto.
  - intros x h. rewrite HO. unfold why. rewrite PR. destruct (Z.eqb_spec x m) as [E|E].
    + intros H. injection H as <-. now left.
    + intros H. destruct (A16 x h H) as [X|(v & V1 & V2 & V3)]; [now left|]. right. exists v. split; [exact V1|]. split; [|exact V3].
      rewrite OT; [exact V2|]. intros ->. rewrite EC in V2. cbn in V2. destruct (Z.eqb_spec m x); [congruence|]. now rewrite andb_false_r in V2.
  - intros x. rewrite HO, WT. destruct (Z.eqb_spec x m) as [E|E]; [discriminate|]. intros H N.
    destruct (A17 x H N) as (v & w' & i' & V1 & V2 & V3). exists v, w', i'. split; [exact V1|]. split; [|exact V3].
    rewrite OT; [exact V2|]. intros ->. congruence.
  - intros t. destruct (Z.eq_dec t c) as [E|E]; [subst t; rewrite ME; exact Logic.I|rewrite OT; auto].
Qed.

(** The holder gives it back. *)
Lemma mutexes_release : forall tk mx m c, mutexes tk mx -> m_holder (mx m) = Some c ->
  (m_wait (mx m) <> [] -> exists u w i, In u ids /\ t_pc (tk u) = Try m w i /\ forall t, In t (m_wait (mx m)) -> base t <= base u) ->
  mutexes (upd tk c (mkT (base c) 0 (MAX_PRIORITIES - base c) (t_pc (tk c))))
          (upd mx m (mkM 1 None (m_wait (mx m)))).
Proof.
  intros tk mx m c M HC NX. set (tk' := upd tk c _). set (mx' := upd mx m _).
  destruct (m_hold _ _ M m c HC) as (IC & H1).
  assert (PC : forall t, t_pc (tk' t) = t_pc (tk t)) by (intros t; unfold tk', upd; destruct (Z.eqb_spec t c) as [-> |]; reflexivity).
  assert (OT : forall t, t <> c -> tk' t = tk t) by (intros t N; unfold tk'; now rewrite upd_other).
  assert (ME : tk' c = mkT (base c) 0 (MAX_PRIORITIES - base c) (t_pc (tk c))) by (unfold tk'; now rewrite upd_same).
  assert (HO : forall x, m_holder (mx' x) = if x =? m then None else m_holder (mx x)) by (intros x; unfold mx', upd; destruct (Z.eqb_spec x m); reflexivity).
  assert (WT : forall x, m_wait (mx' x) = m_wait (mx x)) by (intros x; unfold mx', upd; destruct (Z.eqb_spec x m) as [-> |]; reflexivity).
  assert (NC : forall x h, m_holder (mx' x) = Some h -> m_holder (mx x) = Some h /\ h <> c).
  { intros x h. rewrite HO. destruct (Z.eqb_spec x m) as [E|E]; [discriminate|]. intros H. split; [exact H|]. intros ->.
    apply E. eapply (m_one _ _ M); eauto. }
  destruct SET as (_ & _ & _ & RG). pose proof (RG c IC) as RC.
  destruct M as [A1 A2 A3 A4 A5 A6 A7 A8 A9 A10 A11 A12 A13 A14 A15 A16 A17 A18]. split.
  - intros t N. rewrite OT by (intros ->; contradiction). auto.
  - intros t. destruct (Z.eq_dec t c) as [E|E]; [subst t; now rewrite ME|rewrite OT; auto].
  - intros t I. destruct (Z.eq_dec t c) as [E|E]; [subst t; rewrite ME; cbn; lia|rewrite OT; auto].
  - rewrite OT; [exact A4|]. intros <-. lia.
  - intros x h H. apply NC in H. destruct H as (H & N). rewrite OT by auto. now apply (A5 x).
  - intros x. rewrite HO. unfold mx', upd. destruct (Z.eqb_spec x m); [reflexivity|auto].
  - intros t. destruct (Z.eq_dec t c) as [E|E]; [subst t; left; now rewrite ME|]. rewrite OT by auto.
    destruct (A7 t) as [H|(x & H)]; [now left|right; exists x]. rewrite HO. destruct (Z.eqb_spec x m) as [->|]; [congruence|exact H].
  - intros x y t X Y. apply NC in X, Y. eapply A8; [apply X|apply Y].
  - intros t. destruct (Z.eq_dec t c) as [E|E]; [subst t; now rewrite ME|rewrite OT; auto].
  - intros x t. rewrite WT, PC. auto.
  - intros x. rewrite WT. auto.
  - intros x. rewrite WT. auto.
  - intros t. destruct (Z.eq_dec t c) as [E|E]; [subst t; now rewrite ME|rewrite OT; auto].
  - intros x h t w i H X. apply NC in H. destruct H as (H & N). rewrite PC in X. rewrite OT by auto. eauto.
  - intros x h t w H X. apply NC in H. destruct H as (H & N). rewrite PC in X. eauto.
  - intros x h H. apply NC in H. destruct H as (H & N). unfold why. rewrite OT by auto.
    destruct (A16 x h H) as [X|(v & V)]; [now left|right; exists v; now rewrite PC].
  - intros x. rewrite HO, WT. destruct (Z.eqb_spec x m) as [E|E].
    + subst x. intros _ N. destruct (NX N) as (u & w & i & U). exists u, w, i. now rewrite PC.
    + intros H N. destruct (A17 x H N) as (u & w & i & U). exists u, w, i. now rewrite PC.
  - intros t. rewrite PC. auto.
Qed.

(** A task goes to sleep until the mutex is given. *)
Lemma mutexes_sleep : forall tk mx m c w i i' h l, mutexes tk mx -> In c ids -> t_pc (tk c) = Check m w i -> m_holder (mx m) = Some h ->
  base c <= t_prio (tk h) -> (i' = false -> base c <= base h) ->
  (forall t, In t l <-> t = c \/ In t (m_wait (mx m))) -> NoDup l -> StronglySorted (fun a b => base b <= base a) l ->
  mutexes (upd tk c (mkT (t_prio (tk c)) (t_held (tk c)) (t_item (tk c)) (Asleep m w i')))
          (upd mx m (mkM (m_count (mx m)) (m_holder (mx m)) l)).
Proof.
  intros tk mx m c w i i' h l M IC EC HH AB NI LI LN LS. set (tk' := upd tk c _). set (mx' := upd mx m _).
  assert (H0 : t_held (tk c) = 0) by (apply (m_busy _ _ M); now rewrite EC).
  assert (SAME : forall t, t_prio (tk' t) = t_prio (tk t) /\ t_held (tk' t) = t_held (tk t) /\ t_item (tk' t) = t_item (tk t)).
  { intros t. unfold tk', upd. destruct (Z.eqb_spec t c) as [E|E]; [subst t; cbn; auto|auto]. }
  assert (PR : forall t, t_prio (tk' t) = t_prio (tk t)) by (intros; apply SAME).
  assert (HE : forall t, t_held (tk' t) = t_held (tk t)) by (intros; apply SAME).
  assert (IT : forall t, t_item (tk' t) = t_item (tk t)) by (intros; apply SAME).
  assert (PC : forall t, t <> c -> t_pc (tk' t) = t_pc (tk t)) by (intros t N; unfold tk'; now rewrite upd_other).
  assert (PCc : t_pc (tk' c) = Asleep m w i') by (unfold tk'; now rewrite upd_same).
  assert (HO : forall x, m_holder (mx' x) = m_holder (mx x)) by (intros x; unfold mx', upd; destruct (Z.eqb_spec x m) as [-> |]; reflexivity).
  assert (WT : forall x, m_wait (mx' x) = if x =? m then l else m_wait (mx x))
    by (intros x; unfold mx', upd; destruct (Z.eqb_spec x m) as [-> |]; reflexivity).
  assert (AS : forall t x w' j, t_pc (tk' t) = Asleep x w' j -> (t = c /\ x = m /\ j = i') \/ (t <> c /\ t_pc (tk t) = Asleep x w' j)).
  { intros t x w' j X. destruct (Z.eq_dec t c) as [E|E].
    - subst t. left. rewrite PCc in X. injection X as <- <- <-. auto.
    - right. rewrite PC in X; auto. }
  destruct M as [A1 A2 A3 A4 A5 A6 A7 A8 A9 A10 A11 A12 A13 A14 A15 A16 A17 A18]. split.
  - intros t N. unfold tk'. rewrite upd_other by (intros ->; contradiction). auto.
  - intros t. rewrite IT, PR. auto.
  - intros t. rewrite PR. auto.
  - rewrite HE. rewrite PC; [exact A4|]. intros E. rewrite <- E in EC. rewrite (proj1 A4) in EC. discriminate.
  - intros x y. rewrite HE, HO. apply A5.
  - intros x. rewrite HO, <- A6. unfold mx', upd. destruct (Z.eqb_spec x m) as [-> |]; reflexivity.
  - intros t. rewrite HE. destruct (A7 t) as [H|(x & H)]; [now left|right; exists x; now rewrite HO].
  - intros x y t. rewrite !HO. apply A8.
  - intros t. rewrite HE, PR. auto.
  - intros x t. rewrite WT. destruct (Z.eqb_spec x m) as [E|E].
    + subst x. rewrite LI. split.
      * intros [-> |I]; [eauto|]. apply A10 in I. destruct I as (w' & j & I). exists w', j. rewrite PC; [exact I|]. intros ->. congruence.
      * intros (w' & j & X). apply AS in X. destruct X as [(X & _)|(X & Y)]; [now left|right]. apply A10. eauto.
    + rewrite A10. split.
      * intros (w' & j & X). exists w', j. rewrite PC; [exact X|]. intros ->. congruence.
      * intros (w' & j & X). apply AS in X. destruct X as [(_ & X & _)|(X & Y)]; [congruence|eauto].
  - intros x. rewrite WT. destruct (Z.eqb_spec x m); auto.
  - intros x. rewrite WT. destruct (Z.eqb_spec x m); auto.
  - intros t. rewrite HE. destruct (Z.eq_dec t c) as [E|E]; [subst t; auto|rewrite PC; auto].
  - intros x y t w' j. rewrite HO, PR. intros H X. apply AS in X. destruct X as [(-> & -> & _)|(_ & X)]; [|eauto].
    rewrite HH in H. injection H as <-. exact AB.
  - intros x y t w'. rewrite HO. intros H X. apply AS in X. destruct X as [(-> & -> & X)|(_ & X)]; [|eauto].
    rewrite HH in H. injection H as <-. auto.
  - intros x y. rewrite HO. intros H. unfold why. rewrite PR. destruct (A16 x y H) as [X|(v & V1 & V2 & V3)]; [now left|].
    destruct (Z.eq_dec v c) as [E|E]; [|right; exists v; rewrite PC; auto]. subst v. rewrite EC in V2. cbn in V2.
    assert (XM : m = x) by lia. subst x. rewrite HH in H. injection H as <-.
    destruct i' eqn:Ei; [right; exists c; rewrite PCc; cbn; rewrite Z.eqb_refl; auto|]. left. specialize (NI eq_refl).
    pose proof (A3 h (proj1 (A5 m h HH))). lia.
  - intros x. rewrite HO. intros H N. rewrite WT in *. destruct (Z.eqb_spec x m) as [E|E]; [congruence|].
    destruct (A17 x H N) as (v & w' & j & V1 & V2 & V3). exists v, w', j. split; [exact V1|]. split; [|exact V3].
    rewrite PC; [exact V2|]. intros ->. congruence.
  - intros t. destruct (Z.eq_dec t c) as [E|E]; [subst t; rewrite PCc|rewrite PC; auto]. specialize (A18 c). rewrite EC in A18. destruct w; cbn in *; auto.
Qed.

(** ** Ready tasks and their priorities *)
Definition fr (tk : Z -> tcb) (t : Z) : option Z :=
  if in_dec Z.eq_dec t ids then if able (t_pc (tk t)) then Some (t_prio (tk t)) else None else None.
Lemma fr_some : forall tk t, In t ids -> able (t_pc (tk t)) = true -> fr tk t = Some (t_prio (tk t)).
Proof. intros tk t I A. unfold fr. destruct (in_dec Z.eq_dec t ids); [|contradiction]. now rewrite A. Qed.
Lemma fr_inv : forall tk t p, fr tk t = Some p -> In t ids /\ able (t_pc (tk t)) = true /\ p = t_prio (tk t).
Proof.
  intros tk t p E. unfold fr in E. destruct (in_dec Z.eq_dec t ids) as [I|]; [|discriminate]. destruct (able (t_pc (tk t))) eqn:A; [|discriminate].
  injection E as <-. auto.
Qed.
Lemma fr_none : forall tk t, able (t_pc (tk t)) = false -> fr tk t = None.
Proof. intros tk t A. unfold fr. destruct (in_dec Z.eq_dec t ids); [|reflexivity]. now rewrite A. Qed.
Lemma fr_upd : forall tk c v x, fr (upd tk c v) x = upd (fr tk) c (fr (upd tk c v) c) x.
Proof.
  intros tk c v x. unfold upd at 2. destruct (Z.eqb_spec x c) as [-> |N]; [reflexivity|]. unfold fr. now rewrite !upd_other.
Qed.

(** One task's entry changes without a change of the lists. *)
Lemma lists_same : forall rd top tk c v, lists rd top (fr tk) -> able (t_pc v) = able (t_pc (tk c)) -> (able (t_pc v) = true -> t_prio v = t_prio (tk c)) ->
  lists rd top (fr (upd tk c v)).
Proof.
  intros rd top tk c v L A P. apply (lists_ext rd top (fr tk)); [exact L|]. intros t. rewrite fr_upd. unfold upd at 1.
  destruct (Z.eqb_spec t c) as [-> |N]; [|reflexivity]. unfold fr. rewrite upd_same. rewrite <- A. destruct (in_dec Z.eq_dec c ids); [|reflexivity].
  destruct (able (t_pc v)); [|reflexivity]. now rewrite P.
Qed.
Lemma lists_gone : forall rd top tk c v, lists rd top (fr tk) -> In c ids -> able (t_pc (tk c)) = true -> able (t_pc v) = false ->
  let p := t_prio (tk c) in let rd1 := upd rd p (without c (rd p)) in
  lists rd1 (match rd1 p, rd1 p with [], [] => Z.clearbit top p | _, _ => top end) (fr (upd tk c v)).
Proof.
  intros rd top tk c v L I A A' p rd1. eapply lists_ext; [apply (lists_leave rd top (fr tk) c p p L)|].
  - now apply fr_some.
  - now left.
  - intros t. rewrite (fr_upd tk c v t). rewrite (fr_none (upd tk c v) c); [reflexivity|]. now rewrite upd_same.
Qed.
Lemma lists_join : forall rd top tk c v, lists rd top (fr tk) -> In c ids -> able (t_pc (tk c)) = false -> able (t_pc v) = true ->
  0 <= t_prio v < MAX_PRIORITIES ->
  lists (upd rd (t_prio v) (rd (t_prio v) ++ [c])) (Z.setbit top (t_prio v)) (fr (upd tk c v)).
Proof.
  intros rd top tk c v L I A A' R. eapply lists_ext; [apply (lists_add rd top (fr tk) c (t_prio v) L)|]; auto.
  - now apply fr_none.
  - intros t. rewrite (fr_upd tk c v t). rewrite (fr_some (upd tk c v) c); rewrite ?upd_same; auto.
Qed.
Lemma lists_move : forall rd top tk h v q, lists rd top (fr tk) -> In h ids -> able (t_pc (tk h)) = true -> able (t_pc v) = true ->
  let p := t_prio (tk h) in
  (q = p \/ exists u, u <> h /\ fr tk u = Some p) -> 0 <= t_prio v < MAX_PRIORITIES ->
  let rd1 := upd rd p (without h (rd p)) in
  lists (upd rd1 (t_prio v) (rd1 (t_prio v) ++ [h]))
        (Z.setbit (match rd1 p, rd1 q with [], [] => Z.clearbit top q | _, _ => top end) (t_prio v)) (fr (upd tk h v)).
Proof.
  intros rd top tk h v q L I A A' p Q R rd1.
  pose proof (lists_leave rd top (fr tk) h p q L (fr_some tk h I A) Q) as L1. cbv zeta in L1. fold rd1 in L1.
  eapply lists_ext; [apply (lists_add _ _ _ h (t_prio v) L1)|]; auto.
  - now rewrite upd_same.
  - intros t. rewrite (fr_upd tk h v t). rewrite (fr_some (upd tk h v) h); rewrite ?upd_same; auto.
    unfold upd. destruct (t =? h); reflexivity.
Qed.
Lemma in_ready_fr : forall k p t, lists (k_ready k) (k_top k) (fr (k_task k)) -> in_ready k p t = true <-> fr (k_task k) t = Some p.
Proof. intros k p t L. unfold in_ready. rewrite existsb_in. apply (l_in _ _ _ L). Qed.
Lemma in_ready_able : forall k t, lists (k_ready k) (k_top k) (fr (k_task k)) -> In t ids ->
  in_ready k (t_prio (k_task k t)) t = able (t_pc (k_task k t)).
Proof.
  intros k t L I. destruct (able (t_pc (k_task k t))) eqn:A.
  - apply in_ready_fr; auto. now apply fr_some.
  - destruct (in_ready k (t_prio (k_task k t)) t) eqn:E; [|reflexivity]. apply in_ready_fr in E; auto. apply fr_inv in E. destruct E as (_ & E & _). congruence.
Qed.
Lemma leave_shape : forall k p t q, let rd1 := upd (k_ready k) p (without t (k_ready k p)) in
  leave_ready k p t q = mkK (k_task k) rd1 (match rd1 p, rd1 q with [], [] => Z.clearbit (k_top k) q | _, _ => k_top k end)
                            (k_cur k) (k_yield k) (k_mx k) (k_log k).
Proof.
  intros k p t q rd1. unfold leave_ready, drop_ready. cbn [k_ready k_task k_top k_cur k_yield k_mx k_log].
  change (filter (fun u => negb (u =? t)) (k_ready k p)) with (without t (k_ready k p)). fold rd1.
  destruct (rd1 p); [|reflexivity]. destruct (rd1 q); reflexivity.
Qed.

(** ** The log *)
Lemma holder_snoc : forall l t a x m, holder_of (l ++ [(t, a, x)]) m =
  match a with Took => if x =? m then Some t else holder_of l m | Gave => if x =? m then None else holder_of l m | Missed => holder_of l m end.
Proof. intros. unfold holder_of. rewrite fold_left_app. reflexivity. Qed.
Lemma exclusive_snoc : forall l t a x, exclusive l ->
  match a with Took => holder_of l x = None | Gave => holder_of l x = Some t | Missed => True end -> exclusive (l ++ [(t, a, x)]).
Proof.
  intros l t a x E H p u c m b X. destruct b as [|y b] using rev_ind.
  - apply app_inj_tail in X. destruct X as (-> & X). injection X as <- <- <-. exact H.
  - rewrite app_comm_cons, app_assoc in X. apply app_inj_tail in X. destruct X as (X & _). eapply E; eauto.
Qed.

Record good (k : km) : Prop := {
  g_m : mutexes (k_task k) (k_mx k);
  g_l : lists (k_ready k) (k_top k) (fr (k_task k));
  g_cur : In (k_cur k) ids;
  g_able : k_yield k = false -> able (t_pc (k_task k (k_cur k))) = true;
  g_high : k_yield k = false -> forall t, In t ids -> able (t_pc (k_task k t)) = true -> t_prio (k_task k t) <= t_prio (k_task k (k_cur k));
  g_log : forall m, holder_of (k_log k) m = m_holder (k_mx k m);
  g_excl : exclusive (k_log k) }.

Definition may (k : km) (ev : kevent) : Prop :=
  match ev with
  | KTake _ _ => forall x, holder_of (k_log k) x <> Some (k_cur k)
  | KGive m => holder_of (k_log k) m = Some (k_cur k) \/ holder_of (k_log k) m = None
  | _ => True
  end.

Lemma good_switch : forall k n, good k -> exists k', switch k n = Some k' /\ good k'.
Proof.
  intros k n G. pose proof (g_m _ G) as M. pose proof (g_l _ G) as L. destruct SET as (_ & II & _ & _).
  assert (FI : fr (k_task k) IDLE = Some (t_prio (k_task k IDLE))) by (apply fr_some; auto; now rewrite (proj1 (m_idle _ _ M))).
  destruct (lists_highest _ _ _ L) as (T & NE & HI); [eauto|]. unfold switch. replace (k_top k <=? 0) with false by lia.
  destruct (k_ready k (Z.log2 (k_top k))) as [|t r] eqn:RD; [now destruct NE|]. eexists. split; [reflexivity|].
  set (c := nth (n mod length (t :: r)) (t :: r) t).
  assert (IC : In c (k_ready k (Z.log2 (k_top k)))).
  { rewrite RD. apply nth_In. apply Nat.mod_upper_bound. discriminate. }
  apply (l_in _ _ _ L) in IC. apply fr_inv in IC. destruct IC as (IC & AC & PC).
  destruct G as [G1 G2 G3 G4 G5 G6 G7]. split; cbn [k_task k_ready k_top k_cur k_yield k_mx k_log]; auto.
  intros _ u IU AU. rewrite <- PC. apply (HI u). now apply fr_some.
Qed.

(** The running task goes on. *)
Lemma good_pc : forall k p', good k -> k_yield k = false -> k_cur k <> IDLE ->
  able p' = true -> (busy p' = true -> t_held (k_task k (k_cur k)) = 0) ->
  (forall m, calls (t_pc (k_task k (k_cur k))) m = true -> calls p' m = true \/ forall h, m_holder (k_mx k m) = Some h ->
     t_prio (k_task k h) = base h \/ exists v, v <> k_cur k /\ In v ids /\ calls (t_pc (k_task k v)) m = true /\ base v = t_prio (k_task k h)) ->
  (forall m w i, t_pc (k_task k (k_cur k)) = Try m w i -> (exists w i, p' = Try m w i) \/ m_holder (k_mx k m) <> None) ->
  may_wait p' -> good (set_pc k (k_cur k) p').
Proof.
  intros k p' G Y NI A B C T W. pose proof (g_able _ G Y) as AC. pose proof (g_high _ G Y) as HI.
  destruct G as [G1 G2 G3 G4 G5 G6 G7]. unfold set_pc, set_task.
  set (v := mkT _ _ _ p'). split; cbn [k_task k_ready k_top k_cur k_yield k_mx k_log]; auto.
  - apply mutexes_pc; auto.
    + intros m w i E. rewrite E in AC. discriminate.
    + intros m w i ->. discriminate.
  - apply lists_same; auto. cbn. congruence.
  - intros _. rewrite upd_same. exact A.
  - intros _ t IT AT. rewrite (upd_same _ (k_cur k)). cbn [t_prio v]. unfold upd in *. destruct (Z.eqb_spec t (k_cur k)) as [-> |N]; [cbn; lia|auto].
Qed.
Lemma good_missed : forall k m, good k -> good (note k Missed m).
Proof.
  intros k m [G1 G2 G3 G4 G5 G6 G7]. unfold note. split; cbn [k_task k_ready k_top k_cur k_yield k_mx k_log]; auto.
  - intros x. rewrite holder_snoc. auto.
  - now apply exclusive_snoc.
Qed.
Lemma free_not_held : forall k, good k -> (forall x, holder_of (k_log k) x <> Some (k_cur k)) -> t_held (k_task k (k_cur k)) = 0.
Proof.
  intros k G H. destruct (m_held _ _ (g_m _ G) (k_cur k)) as [E|(m & E)]; [exact E|]. exfalso. apply (H m). now rewrite (g_log _ G).
Qed.

(** It takes a free mutex. *)
Lemma good_take : forall k m w i, good k -> k_yield k = false -> t_pc (k_task k (k_cur k)) = Try m w i -> m_holder (k_mx k m) = None ->
  let c := k_task k (k_cur k) in
  good (note (set_task (set_mx k m (mkM (m_count (k_mx k m) - 1) (Some (k_cur k)) (m_wait (k_mx k m)))) (k_cur k)
                       (mkT (t_prio c) (t_held c + 1) (t_item c) Out)) Took m).
Proof.
  intros k m w i G Y E H c. pose proof (g_able _ G Y) as AC. pose proof (g_high _ G Y) as HI. pose proof (g_m _ G) as M.
  assert (H0 : t_held c = 0) by (apply (m_busy _ _ M); now rewrite E).
  assert (PB : t_prio c = base (k_cur k)) by (now apply (m_base _ _ M)).
  destruct G as [G1 G2 G3 G4 G5 G6 G7]. unfold note, set_task, set_mx.
  split; cbn [k_task k_ready k_top k_cur k_yield k_mx k_log]; auto.
  - apply (mutexes_take (k_task k) (k_mx k) m (k_cur k) w i); auto. intros t IT.
    destruct (m_next _ _ M m H) as (u & w' & i' & U1 & U2 & U3); [intros Z0; rewrite Z0 in IT; destruct IT|].
    specialize (U3 t IT). assert (PU : t_prio (k_task k u) = base u) by (apply (m_base _ _ M), (m_busy _ _ M); now rewrite U2).
    specialize (HI u U1). rewrite U2 in HI. specialize (HI eq_refl). fold c in HI. lia.
  - apply lists_same; auto.
  - intros _. now rewrite upd_same.
  - intros _ t IT AT. rewrite (upd_same _ (k_cur k)). cbn [t_prio]. unfold upd in *. destruct (Z.eqb_spec t (k_cur k)) as [-> |N]; [cbn; lia|apply HI; auto].
  - intros x. rewrite holder_snoc. unfold upd. rewrite (Z.eqb_sym x m). destruct (m =? x); [reflexivity|apply G6].
  - apply exclusive_snoc; auto. now rewrite G6.
Qed.

(** It gives up after a time-out. *)
Lemma head_max : forall l t, StronglySorted (fun a b => base b <= base a) l -> In t l ->
  exists u r, l = u :: r /\ base t <= base u.
Proof.
  intros [|u r] t S I; [destruct I|]. exists u, r. split; [reflexivity|]. inversion S; subst. destruct I as [-> |I]; [lia|].
  rewrite Forall_forall in H2. now apply H2.
Qed.
Lemma good_undo : forall k m, good k -> k_yield k = false -> k_cur k <> IDLE -> t_pc (k_task k (k_cur k)) = Undo m ->
  exists k1, disinherit_after_timeout base k (m_holder (k_mx k m)) (highest_waiting k m) = Some k1 /\
    k_cur k1 = k_cur k /\ good (note (set_pc k1 (k_cur k) Out) Missed m).
Proof.
  intros k m G Y NI E. pose proof (g_m _ G) as M. pose proof (g_l _ G) as L. pose proof (g_high _ G Y) as HI.
  assert (HC : t_held (k_task k (k_cur k)) = 0) by (apply (m_busy _ _ M); now rewrite E).
  (* the step without a change of priority *)
  assert (FIN : forall k1, good k1 -> k_yield k1 = false -> k_cur k1 = k_cur k -> k_mx k1 = k_mx k -> t_pc (k_task k1 (k_cur k)) = Undo m ->
    (forall h, m_holder (k_mx k m) = Some h -> t_prio (k_task k1 h) = base h \/
       exists v, v <> k_cur k /\ In v ids /\ calls (t_pc (k_task k1 v)) m = true /\ base v = t_prio (k_task k1 h)) ->
    good (note (set_pc k1 (k_cur k) Out) Missed m)).
  { intros k1 G1 Y1 C1 X1 E1 W. apply good_missed. rewrite <- C1 in *. apply good_pc; auto.
    - discriminate.
    - intros x X. rewrite E1 in X. cbn in X. assert (m = x) by lia. subst x. right. intros h H. rewrite X1 in H. exact (W h H).
    - intros x w i X. congruence.
    - exact Logic.I. }
  unfold disinherit_after_timeout. destruct (m_holder (k_mx k m)) as [h|] eqn:HO.
  2:{ exists k. split; [reflexivity|]. split; [reflexivity|]. apply FIN; auto. discriminate. }
  destruct (m_hold _ _ M m h HO) as (IH & HH). assert (NH : h <> k_cur k) by (intros ->; lia).
  pose proof (m_prio _ _ M h IH) as PH. rewrite HH. change (1 =? 0) with false. change (1 =? 1) with true. cbv iota. rewrite andb_true_r.
  set (use := if base h <? highest_waiting k m then highest_waiting k m else base h).
  (* what the new priority is *)
  assert (HW : highest_waiting k m = 0 /\ m_wait (k_mx k m) = [] \/
    exists u r w i, m_wait (k_mx k m) = u :: r /\ highest_waiting k m = base u /\ t_pc (k_task k u) = Asleep m w i).
  { unfold highest_waiting. destruct (m_wait (k_mx k m)) as [|u r] eqn:W; [now left|right].
    assert (IU : In u (m_wait (k_mx k m))) by (rewrite W; now left).
    destruct (waiter_base _ _ m u M IU) as (_ & PB & _). apply (m_wt _ _ M) in IU. destruct IU as (w & i & IU).
    exists u, r, w, i. split; [reflexivity|]. split; [rewrite (m_item _ _ M), PB; lia|exact IU]. }
  destruct SET as (_ & _ & _ & RG). pose proof (RG h IH) as RH.
  assert (US : base h <= use <= t_prio (k_task k h)).
  { unfold use. destruct HW as [(-> & _)|(u & r & w & i & _ & -> & U)]; [destruct (Z.ltb_spec (base h) 0); lia|].
    pose proof (m_above _ _ M m h u w i HO U). destruct (Z.ltb_spec (base h) (base u)); lia. }
  assert (WU : forall t, In t (m_wait (k_mx k m)) -> base t <= use).
  { intros t IT. destruct (head_max _ t (m_sort _ _ M m) IT) as (u & r & W & B). unfold use.
    destruct HW as [(_ & Z0)|(u' & r' & w & i & W' & -> & _)]; [congruence|]. assert (u' = u) by congruence. subst u'.
    destruct (Z.ltb_spec (base h) (base u)); lia. }
  assert (WY : use = base h \/ exists v, v <> k_cur k /\ In v ids /\ calls (t_pc (k_task k v)) m = true /\ base v = use).
  { unfold use. destruct HW as [(-> & _)|(u & r & w & i & W & -> & U)]; [left; destruct (Z.ltb_spec (base h) 0); lia|].
    destruct (Z.ltb_spec (base h) (base u)) as [LT|LT]; [|now left]. right. exists u. split; [intros ->; congruence|].
    split; [apply (asleep_id _ _ u M); rewrite U; discriminate|]. split; [|reflexivity]. rewrite U. destruct i; [cbn; now rewrite Z.eqb_refl|].
    pose proof (m_noinh _ _ M m h u w HO U). lia. }
  destruct (Z.eqb_spec (t_prio (k_task k h)) use) as [EQ|NE]; cbn [negb].
  { exists k. split; [reflexivity|]. split; [reflexivity|]. apply FIN; auto. intros x X. injection X as <-. rewrite EQ. exact WY. }
  destruct (Z.eqb_spec h (k_cur k)) as [X|_]; [contradiction|].
  pose proof (mutexes_prio (k_task k) (k_mx k) m h use M HO) as M1.
  assert (RU : 0 <= use < MAX_PRIORITIES) by lia.
  assert (M2 : mutexes (upd (k_task k) h (mkT use (t_held (k_task k h)) (MAX_PRIORITIES - use) (t_pc (k_task k h)))) (k_mx k)).
  { apply M1; [lia|exact WU|]. destruct WY as [WY|(v & _ & WY)]; [now left|right; now exists v]. }
  set (v := mkT use (t_held (k_task k h)) (MAX_PRIORITIES - use) (t_pc (k_task k h))) in *.
  rewrite (in_ready_able k h L IH).
  assert (OUT : forall rd top, lists rd top (fr (upd (k_task k) h v)) ->
    good (mkK (upd (k_task k) h v) rd top (k_cur k) (k_yield k) (k_mx k) (k_log k))).
  { intros rd top LL. destruct G as [G1 G2 G3 G4 G5 G6 G7]. split; cbn [k_task k_ready k_top k_cur k_yield k_mx k_log]; auto.
    - intros _. rewrite upd_other by auto. rewrite E. reflexivity.
    - intros _ t IT AT. rewrite (upd_other _ h v (k_cur k)) by auto. unfold upd in *. destruct (Z.eqb_spec t h) as [-> |N]; [|now apply HI].
      cbn [t_prio v]. specialize (HI h IH AT). lia. }
  assert (FIN2 : forall rd top, lists rd top (fr (upd (k_task k) h v)) ->
    good (note (set_pc (mkK (upd (k_task k) h v) rd top (k_cur k) (k_yield k) (k_mx k) (k_log k)) (k_cur k) Out) Missed m)).
  { intros rd top LL. apply FIN; auto.
    - cbn [k_task]. rewrite upd_other by auto; exact E.
    - intros x X. injection X as <-. cbn [k_task]. rewrite upd_same. cbn [t_prio v]. destruct WY as [WY|(u & U1 & U2 & U3 & U4)]; [now left|].
      right. exists u. split; [exact U1|]. split; [exact U2|]. split; [|exact U4]. unfold upd. destruct (Z.eqb_spec u h) as [-> |N]; exact U3. }
  destruct (able (t_pc (k_task k h))) eqn:AH.
  - unfold set_prio, set_task. fold v. rewrite leave_shape. unfold add_ready. cbn [k_task k_ready k_top k_cur k_yield k_mx k_log].
    rewrite upd_same. cbn [t_prio v].
    eexists. split; [reflexivity|]. split; [reflexivity|]. apply FIN2.
    apply (lists_move (k_ready k) (k_top k) (k_task k) h v use L IH AH); [exact AH| |exact RU].
    (* some other task in the same list *)
    right. destruct (m_why _ _ M m h HO) as [X|(u & U1 & U2 & U3)]; [lia|]. exists u.
    assert (BU : busy (t_pc (k_task k u)) = true) by (destruct (t_pc (k_task k u)); cbn in U2 |- *; congruence).
    pose proof (m_busy _ _ M u BU) as HU. split; [intros ->; lia|]. rewrite <- U3, <- (m_base _ _ M u HU). apply fr_some; [exact U1|].
    destruct (t_pc (k_task k u)) as [| |x w i|x w i|x w i|x w i|x] eqn:PU; try reflexivity; [discriminate|]. exfalso.
    cbn in U2. assert (x = m) by lia. subst x. assert (IW : In u (m_wait (k_mx k m))) by (apply (m_wt _ _ M); eauto). specialize (WU u IW). lia.
  - unfold set_prio, set_task. fold v. eexists. split; [reflexivity|]. split; [reflexivity|]. apply FIN2.
    apply lists_same; [exact L|cbn; congruence|cbn; congruence].
Qed.

(** ** It falls asleep *)
Lemma place_in : forall k t l u, In u (place k t l) <-> u = t \/ In u l.
Proof.
  intros k t l u. induction l as [|v r IH]; cbn [place]; [cbn; intuition|].
  destruct (t_item (k_task k v) <=? t_item (k_task k t)); cbn [In]; [rewrite IH|]; intuition.
Qed.
Lemma place_nodup : forall k t l, NoDup l -> ~ In t l -> NoDup (place k t l).
Proof.
  intros k t l N F. induction N as [|v r NV N IH]; cbn [place]; [repeat constructor; auto|].
  cbn in F. destruct (t_item (k_task k v) <=? t_item (k_task k t)).
  - constructor; [rewrite place_in; intuition|]. apply IH. tauto.
  - constructor; [exact F|]. now constructor.
Qed.
Lemma place_sorted : forall k t l, (forall u, u = t \/ In u l -> t_item (k_task k u) = MAX_PRIORITIES - base u) ->
  StronglySorted (fun a b => base b <= base a) l -> StronglySorted (fun a b => base b <= base a) (place k t l).
Proof.
  intros k t l E SS. induction SS as [|v r SS IH F]; cbn [place]; [repeat constructor|].
  rewrite (E v), (E t) by (cbn; auto). rewrite Forall_forall in F. destruct (Z.leb_spec (MAX_PRIORITIES - base v) (MAX_PRIORITIES - base t)) as [LE|LT].
  - constructor.
    + apply IH. intros u [->|IU]; apply E; cbn; auto.
    + apply Forall_forall. intros u IU. apply place_in in IU. destruct IU as [->|IU]; [lia|now apply F].
  - constructor.
    + constructor; [exact SS|]. now apply Forall_forall.
    + apply Forall_forall. intros u [->|IU]; [lia|]. specialize (F u IU). lia.
Qed.

Lemma upd_upd : forall A (f : Z -> A) a v b w x, upd (upd f a v) b w x = if x =? b then w else if x =? a then v else f x.
Proof. reflexivity. Qed.

Lemma good_sleep : forall k m w i, good k -> k_yield k = false -> k_cur k <> IDLE ->
  t_pc (k_task k (k_cur k)) = Check m w i -> m_count (k_mx k m) = 0 ->
  exists k', (let x := k_mx k m in
    let (k1, inh') := xTaskPriorityInherit base k (m_holder x) in
    let k2 := set_mx k1 m (mkM (m_count x) (m_holder x) (place k1 (k_cur k) (m_wait x))) in
    let p := t_prio (k_task k (k_cur k)) in
    if in_ready k2 p (k_cur k)
    then Some (pend_yield (set_pc (leave_ready k2 p (k_cur k) p) (k_cur k) (Asleep m w inh')) true)
    else None) = Some k' /\ good k'.
Proof.
  intros k m w i G Y NI E C0. pose proof (g_m _ G) as M. pose proof (g_l _ G) as L. pose proof (g_cur _ G) as IC. set (c := k_cur k) in *.
  assert (HC : t_held (k_task k c) = 0) by (apply (m_busy _ _ M); now rewrite E). pose proof (m_base _ _ M c HC) as PC.
  assert (NW : may_wait (Asleep m w true)) by (pose proof (m_may _ _ M c) as X; rewrite E in X; destruct w; [contradiction|exact Logic.I|exact Logic.I]).
  pose proof (m_cnt _ _ M m) as CC. rewrite C0 in CC. cbv zeta. destruct (m_holder (k_mx k m)) as [h|] eqn:HO; [|discriminate]. clear CC.
  destruct (m_hold _ _ M m h HO) as (IH & HH). assert (NH : h <> c) by (intros X; rewrite X in HH; lia).
  assert (NIN : ~ In c (m_wait (k_mx k m))) by (intros X; apply (m_wt _ _ M) in X; destruct X as (w' & i' & X); congruence).
  (* the rest of the step, from any state k1 with the holder's priority settled *)
  assert (REST : forall tk1 rd1 top1 inh',
    lists rd1 top1 (fr tk1) -> tk1 c = k_task k c -> (forall u, In u (m_wait (k_mx k m)) -> t_item (tk1 u) = MAX_PRIORITIES - base u) ->
    (forall l, (forall t, In t l <-> t = c \/ In t (m_wait (k_mx k m))) -> NoDup l -> StronglySorted (fun a b => base b <= base a) l ->
       mutexes (upd tk1 c (mkT (t_prio (k_task k c)) (t_held (k_task k c)) (t_item (k_task k c)) (Asleep m w inh')))
               (upd (k_mx k) m (mkM (m_count (k_mx k m)) (Some h) l))) ->
    exists k', (let k1 := mkK tk1 rd1 top1 c (k_yield k) (k_mx k) (k_log k) in
      let k2 := set_mx k1 m (mkM (m_count (k_mx k m)) (Some h) (place k1 c (m_wait (k_mx k m)))) in
      let p := t_prio (k_task k c) in
      if in_ready k2 p c then Some (pend_yield (set_pc (leave_ready k2 p c p) c (Asleep m w inh')) true) else None) = Some k' /\ good k').
  { intros tk1 rd1 top1 inh' L1 T1 IT MM. cbv zeta. unfold set_mx. cbn [k_task k_ready k_top k_cur k_yield k_mx k_log].
    assert (AC : able (t_pc (tk1 c)) = true) by (rewrite T1, E; reflexivity).
    assert (R : in_ready (mkK tk1 rd1 top1 c (k_yield k)
        (upd (k_mx k) m (mkM (m_count (k_mx k m)) (Some h) (place (mkK tk1 rd1 top1 c (k_yield k) (k_mx k) (k_log k)) c (m_wait (k_mx k m))))) (k_log k))
        (t_prio (k_task k c)) c = true).
    { rewrite <- T1. apply in_ready_fr; [exact L1|]. now apply fr_some. }
    rewrite R. eexists. split; [reflexivity|]. unfold pend_yield, set_pc, set_task. rewrite leave_shape. cbn [k_task k_ready k_top k_cur k_yield k_mx k_log].
    split; cbn [k_task k_ready k_top k_cur k_yield k_mx k_log].
    - rewrite T1. apply MM.
      + intros t. apply place_in.
      + apply place_nodup; [apply (m_wnd _ _ M)|exact NIN].
      + apply place_sorted; [|apply (m_sort _ _ M)]. cbn [k_task]. intros u [->|IU]; [rewrite T1, (m_item _ _ M), PC; reflexivity|now apply IT].
    - rewrite <- T1. apply (lists_gone rd1 top1 tk1 c); auto.
    - exact IC.
    - intros X. rewrite orb_true_r in X. discriminate.
    - intros X. rewrite orb_true_r in X. discriminate.
    - intros x. rewrite (g_log _ G). unfold upd. destruct (Z.eqb_spec x m) as [-> |]; [exact HO|reflexivity].
    - apply (g_excl _ G). }
  assert (ITM : forall u, In u (m_wait (k_mx k m)) -> t_item (k_task k u) = MAX_PRIORITIES - base u).
  { intros u IU. destruct (waiter_base _ _ m u M IU) as (_ & PB & _). rewrite (m_item _ _ M), PB. reflexivity. }
  unfold xTaskPriorityInherit. fold c. destruct (Z.ltb_spec (t_prio (k_task k h)) (t_prio (k_task k c))) as [LT|GE].
  - (* the holder inherits *)
    set (v := mkT (t_prio (k_task k c)) (t_held (k_task k h)) (MAX_PRIORITIES - t_prio (k_task k c)) (t_pc (k_task k h))).
    assert (RG : 0 <= t_prio (k_task k c) < MAX_PRIORITIES) by (destruct SET as (_ & _ & _ & R); specialize (R c IC); rewrite PC; exact R).
    pose proof (m_prio _ _ M h IH) as PH.
    assert (MM : forall l, (forall t, In t l <-> t = c \/ In t (m_wait (k_mx k m))) -> NoDup l -> StronglySorted (fun a b => base b <= base a) l ->
       mutexes (upd (upd (k_task k) h v) c (mkT (t_prio (k_task k c)) (t_held (k_task k c)) (t_item (k_task k c)) (Asleep m w true)))
               (upd (k_mx k) m (mkM (m_count (k_mx k m)) (Some h) l))).
    { intros l L1 L2 L3.
      set (tkA := upd (k_task k) c (mkT (t_prio (k_task k c)) (t_held (k_task k c)) (t_item (k_task k c)) (Check m w true))).
      assert (MA : mutexes tkA (k_mx k)).
      { apply mutexes_pc; auto.
        - intros; congruence.
        - discriminate.
        - intros x X. rewrite E in X. cbn in X. left. cbn. lia.
        - intros; congruence. }
      assert (AH : tkA h = k_task k h) by (unfold tkA; now rewrite upd_other).
      assert (AC : tkA c = mkT (t_prio (k_task k c)) (t_held (k_task k c)) (t_item (k_task k c)) (Check m w true)) by (unfold tkA; now rewrite upd_same).
      pose proof (mutexes_prio tkA (k_mx k) m h (t_prio (k_task k c)) MA HO) as MB.
      assert (MB' : mutexes (upd tkA h (mkT (t_prio (k_task k c)) (t_held (tkA h)) (MAX_PRIORITIES - t_prio (k_task k c)) (t_pc (tkA h)))) (k_mx k)).
      { apply MB; [lia| |].
        - intros t IT. apply (m_wt _ _ M) in IT. destruct IT as (w' & i' & IT). pose proof (m_above _ _ M m h t w' i' HO IT). lia.
        - right. exists c. split; [exact IC|]. rewrite AC. cbn. split; [now rewrite Z.eqb_refl|lia]. }
      clear MB. rewrite AH in MB'. set (tkB := upd tkA h _) in MB'.
      assert (BC : tkB c = tkA c) by (unfold tkB; rewrite upd_other; auto).
      assert (MC := mutexes_sleep tkB (k_mx k) m c w true true h l MB' IC). rewrite BC, AC in MC. cbn [t_prio t_held t_item t_pc] in MC.
      specialize (MC eq_refl HO). eapply mutexes_ext; [apply MC; auto|..].
      - unfold tkB. rewrite upd_same. cbn. lia.
      - discriminate.
      - intros t. rewrite upd_upd. unfold tkB, tkA, upd. destruct (Z.eqb_spec t c); [reflexivity|]. destruct (Z.eqb_spec t h); reflexivity.
      - intros x. unfold upd. rewrite HO. reflexivity. }
    assert (ITM' : forall u, In u (m_wait (k_mx k m)) -> t_item (upd (k_task k) h v u) = MAX_PRIORITIES - base u).
    { intros u IU. rewrite upd_other; [now apply ITM|]. intros ->. destruct (waiter_base _ _ m h M IU) as (X & _). lia. }
    assert (TC : upd (k_task k) h v c = k_task k c) by (rewrite upd_other; auto).
    rewrite (in_ready_able k h L IH). destruct (able (t_pc (k_task k h))) eqn:AH.
    + unfold set_prio, set_task, add_ready. rewrite leave_shape. cbn [k_task k_ready k_top k_cur k_yield k_mx k_log]. fold v. rewrite upd_same.
      apply REST; auto. apply (lists_move (k_ready k) (k_top k) (k_task k) h v (t_prio (k_task k h)) L IH AH); auto.
    + unfold set_prio, set_task. cbn [k_task k_ready k_top k_cur k_yield k_mx k_log]. fold v. apply REST; auto.
      apply lists_same; [exact L|cbn; congruence|cbn; congruence].
  - pose proof (REST (k_task k) (k_ready k) (k_top k) (base h <? t_prio (k_task k c)) L eq_refl ITM) as RR. destruct k as [tk rd top cur y mx log]. apply RR.
    intros l L1 L2 L3. cbn [k_task k_mx] in *. rewrite <- HO. apply (mutexes_sleep tk mx m c w i _ h l); auto; lia.
Qed.

(** ** It gives a mutex back *)
Lemma give_prio : forall k m, good k -> k_yield k = false -> t_pc (k_task k (k_cur k)) = Out -> m_holder (k_mx k m) = Some (k_cur k) ->
  exists tk1 rd1 top1 y, xTaskPriorityDisinherit base k (Some (k_cur k)) = Some (mkK tk1 rd1 top1 (k_cur k) (k_yield k) (k_mx k) (k_log k), y) /\
    (forall t, tk1 t = upd (k_task k) (k_cur k) (mkT (base (k_cur k)) 0 (MAX_PRIORITIES - base (k_cur k)) Out) t) /\
    lists rd1 top1 (fr tk1) /\ (y = false -> t_prio (k_task k (k_cur k)) = base (k_cur k)).
Proof.
  intros k m G Y E HO. pose proof (g_m _ G) as M. pose proof (g_l _ G) as L. set (c := k_cur k) in *.
  destruct (m_hold _ _ M m c HO) as (IC & HC). unfold xTaskPriorityDisinherit. fold c. rewrite Z.eqb_refl, HC. change (1 =? 0) with false. change (1 - 1) with 0.
  change (0 =? 0) with true. cbv iota. cbn [negb]. rewrite andb_true_r.
  assert (AC : able (t_pc (k_task k c)) = true) by now rewrite E.
  destruct SET as (_ & _ & _ & RG). specialize (RG c IC).
  destruct (Z.eqb_spec (t_prio (k_task k c)) (base c)) as [EQ|NE]; cbn [negb].
  - do 4 eexists. split; [reflexivity|]. cbn [k_task k_ready k_top]. split; [|split; [|auto]].
    + intros t. unfold upd. destruct (t =? c); [|reflexivity]. rewrite (m_item _ _ M), EQ, E. reflexivity.
    + apply lists_same; auto.
  - rewrite (in_ready_able k c L IC), AC. unfold add_ready, set_prio, set_task. rewrite leave_shape. cbn [k_task k_ready k_top k_cur k_yield k_mx k_log].
    rewrite !upd_same. cbn [t_prio t_held t_pc]. do 4 eexists. split; [reflexivity|]. split; [|split; [|discriminate]].
    + intros t. rewrite upd_upd. unfold upd. destruct (t =? c); [|reflexivity]. now rewrite E.
    + pose proof (lists_move (k_ready k) (k_top k) (k_task k) c (mkT (base c) 0 (MAX_PRIORITIES - base c) (t_pc (k_task k c))) (t_prio (k_task k c)) L IC AC) as LM.
      cbn [t_pc t_prio] in LM. rewrite !upd_same in LM. eapply lists_ext; [apply LM; auto|]. intros t. unfold fr. rewrite upd_upd. unfold upd. destruct (t =? c); reflexivity.
Qed.

Lemma without_head : forall u r, NoDup (u :: r) -> without u (u :: r) = r.
Proof.
  intros u r N. inversion N as [|? ? NI NR]; subst. unfold without. cbn [filter]. rewrite Z.eqb_refl. cbn [negb].
  clear N NR. induction r as [|x r IH]; [reflexivity|]. cbn in *. destruct (Z.eqb_spec x u); [intuition|]. cbn [negb]. f_equal. tauto.
Qed.

Lemma good_give : forall k m, good k -> k_yield k = false -> k_cur k <> IDLE -> t_pc (k_task k (k_cur k)) = Out ->
  (holder_of (k_log k) m = Some (k_cur k) \/ holder_of (k_log k) m = None) ->
  exists k', give base k m = Some k' /\ good k'.
Proof.
  intros k m G Y NI E MY. pose proof (g_m _ G) as M. pose proof (g_l _ G) as L. pose proof (g_high _ G Y) as HI. unfold give.
  pose proof (m_cnt _ _ M m) as CC. rewrite (g_log _ G) in MY. destruct (m_holder (k_mx k m)) as [h|] eqn:HO.
  2:{ rewrite CC. change (1 <? 1) with false. cbv iota. eauto. }
  destruct MY as [MY|MY]; [|discriminate]. injection MY as ->. rewrite CC. change (0 <? 1) with true. cbv iota. change (0 + 1) with 1.
  destruct (give_prio k m G Y E HO) as (tk1 & rd1 & top1 & y & D & T1 & L1 & PY). rewrite D. clear D. set (c := k_cur k) in *.
  destruct (m_hold _ _ M m c HO) as (IC & HC).
  assert (T1c : tk1 c = mkT (base c) 0 (MAX_PRIORITIES - base c) Out) by (rewrite T1; now rewrite upd_same).
  assert (T1o : forall t, t <> c -> tk1 t = k_task k t) by (intros t N; rewrite T1; now rewrite upd_other).
  assert (LG : forall v, m_holder v = None -> forall x, holder_of (k_log k ++ [(c, Gave, m)]) x = m_holder (upd (k_mx k) m v x)).
  { intros v V x. rewrite holder_snoc. unfold upd. rewrite (Z.eqb_sym x m). destruct (m =? x); [auto|apply (g_log _ G)]. }
  assert (EX : exclusive (k_log k ++ [(c, Gave, m)])) by (apply exclusive_snoc; [apply (g_excl _ G)|rewrite (g_log _ G); exact HO]).
  assert (PB : base c <= t_prio (k_task k c)) by apply (m_prio _ _ M c IC).
  destruct (m_wait (k_mx k m)) as [|u r] eqn:W.
  - eexists. split; [reflexivity|]. unfold note, pend_yield, set_mx. cbn [k_task k_ready k_top k_cur k_yield k_mx k_log].
    split; cbn [k_task k_ready k_top k_cur k_yield k_mx k_log]; auto.
    + eapply mutexes_ext; [apply (mutexes_release (k_task k) (k_mx k) m c M HO); rewrite W; intros X; now destruct X|..].
      * intros t. rewrite T1, E. reflexivity.
      * intros x. now rewrite W.
    + intros _. now rewrite T1c.
    + rewrite Y. cbn [orb]. intros YF t IT AT. rewrite T1c. cbn [t_prio]. destruct (Z.eq_dec t c) as [-> |N]; [rewrite T1c; cbn; lia|].
      rewrite (T1o t N) in *. rewrite <- (PY YF). now apply HI.
  - assert (IU : In u (m_wait (k_mx k m))) by (rewrite W; now left).
    destruct (waiter_base _ _ m u M IU) as (HU & PU & UI). apply (m_wt _ _ M) in IU. destruct IU as (w & i & EU).
    assert (NU : u <> c) by (intros X; rewrite X in HU; lia).
    cbn [k_task]. rewrite (T1o u NU). rewrite EU. cbn [again]. eexists. split; [reflexivity|].
    unfold note, pend_yield, make_ready, add_ready, set_pc, set_task, set_mx. cbn [k_task k_ready k_top k_cur k_yield k_mx k_log].
    rewrite !upd_same. cbn [t_prio]. rewrite (upd_other _ u _ c) by auto. rewrite (T1o u NU).
    set (vu := mkT (t_prio (k_task k u)) (t_held (k_task k u)) (t_item (k_task k u)) (Try m w i)).
    split; cbn [k_task k_ready k_top k_cur k_yield k_mx k_log]; auto.
    + pose proof (mutexes_wake (k_task k) (k_mx k) m u w i M EU) as MW. fold vu in MW. rewrite W, HO, CC in MW.
      rewrite without_head in MW by (rewrite <- W; apply (m_wnd _ _ M)).
      eapply mutexes_ext; [apply (mutexes_release _ _ m c MW)|..].
      * now rewrite upd_same.
      * intros _. exists u, w, i. split; [exact UI|]. split; [now rewrite upd_same|]. rewrite upd_same. cbn [m_wait].
        pose proof (m_sort _ _ M m) as SS. rewrite W in SS. inversion SS; subst. rewrite Forall_forall in H2. exact H2.
      * intros t. rewrite !upd_upd. unfold upd. destruct (Z.eqb_spec t c) as [-> |N].
        -- rewrite (proj2 (Z.eqb_neq c u)) by auto. rewrite T1c, E. reflexivity.
        -- destruct (Z.eqb_spec t u); [reflexivity|]. now rewrite (T1o t N).
      * intros x. rewrite upd_upd, upd_same. unfold upd. destruct (x =? m); reflexivity.
    + change (t_prio (k_task k u)) with (t_prio vu). apply (lists_join rd1 top1 tk1 u vu L1 UI); [now rewrite (T1o u NU), EU|reflexivity|].
      destruct SET as (_ & _ & _ & RG). cbn. rewrite PU. now apply RG.
    + intros _. rewrite (upd_other _ u _ c) by auto. now rewrite T1c.
    + rewrite Y. cbn [orb]. intros YF. apply orb_false_elim in YF. destruct YF as (HF & YF). rewrite T1c in *. cbn [t_prio] in HF.
      intros t IT AT. rewrite (upd_other _ u _ c) by auto. rewrite T1c. cbn [t_prio]. unfold upd in *. destruct (Z.eqb_spec t u) as [-> |N]; [cbn; lia|].
      destruct (Z.eq_dec t c) as [-> |N2]; [rewrite T1c; cbn; lia|]. rewrite (T1o t N2) in *. rewrite <- (PY YF). now apply HI.
Qed.

(** ** It blocks; another task wakes *)
Lemma good_block : forall k, good k -> k_yield k = false -> k_cur k <> IDLE -> t_pc (k_task k (k_cur k)) = Out ->
  in_ready k (t_prio (k_task k (k_cur k))) (k_cur k) = true /\
  good (pend_yield (set_pc (leave_ready k (t_prio (k_task k (k_cur k))) (k_cur k) (t_prio (k_task k (k_cur k)))) (k_cur k) Away) true).
Proof.
  intros k G Y NI E. destruct G as [G1 G2 G3 G4 G5 G6 G7]. split.
  - rewrite in_ready_able; auto.
  - unfold pend_yield, set_pc, set_task. rewrite leave_shape. cbn [k_task k_ready k_top k_cur k_yield k_mx k_log].
    split; cbn [k_task k_ready k_top k_cur k_yield k_mx k_log]; auto.
    + apply mutexes_pc; auto; try (intros; congruence); try discriminate.
      * intros m X. rewrite E in X. discriminate.
      * exact Logic.I.
    + apply (lists_gone (k_ready k) (k_top k) (k_task k) (k_cur k)); auto.
    + rewrite orb_true_r. discriminate.
    + rewrite orb_true_r. discriminate.
Qed.

(** A task joins the ready list. *)
Lemma good_join : forall k u p' mx' b, good k -> In u ids -> able (t_pc (k_task k u)) = false -> able p' = true ->
  mutexes (upd (k_task k) u (mkT (t_prio (k_task k u)) (t_held (k_task k u)) (t_item (k_task k u)) p')) mx' ->
  (forall m, m_holder (mx' m) = m_holder (k_mx k m)) ->
  (b = false -> t_prio (k_task k u) <= t_prio (k_task k (k_cur k))) ->
  good (pend_yield (make_ready (mkK (k_task k) (k_ready k) (k_top k) (k_cur k) (k_yield k) mx' (k_log k)) u p') b).
Proof.
  intros k u p' mx' b [G1 G2 G3 G4 G5 G6 G7] IU AU AP MM HH HB.
  unfold pend_yield, make_ready, add_ready, set_pc, set_task. cbn [k_task k_ready k_top k_cur k_yield k_mx k_log]. rewrite !upd_same. cbn [t_prio].
  assert (NC : k_yield k || b = false -> k_cur k <> u) by (intros X Z0; apply orb_false_elim in X; destruct X as (X & _); specialize (G4 X); congruence).
  split; cbn [k_task k_ready k_top k_cur k_yield k_mx k_log]; auto.
  - apply (lists_join (k_ready k) (k_top k) (k_task k) u (mkT (t_prio (k_task k u)) (t_held (k_task k u)) (t_item (k_task k u)) p')); auto.
    cbn. pose proof (m_prio _ _ G1 u IU). destruct SET as (_ & _ & _ & RG). specialize (RG u IU). lia.
  - intros X. rewrite upd_other by auto. apply orb_false_elim in X. now apply G4.
  - intros X t IT AT. rewrite (upd_other _ u _ (k_cur k)) by auto. apply orb_false_elim in X. destruct X as (X1 & X2).
    unfold upd in *. destruct (Z.eqb_spec t u) as [-> |N]; [cbn; auto|now apply G5].
  - intros m. now rewrite HH.
Qed.

Lemma good_step : forall k ev, good k -> may k ev -> exists k', km_step base k ev = Some k' /\ good k'.
Proof.
  intros k ev G MY. pose proof (g_m _ G) as M.
  assert (SAME : exists k', Some k = Some k' /\ good k') by eauto.
  destruct ev as [n|m w|expired|m| |u|u]; cbn [km_step].
  - now apply good_switch.
  - destruct (t_pc (k_task k (k_cur k))) eqn:E; try exact SAME.
    destruct (k_yield k) eqn:Y; cbn [negb andb]; [exact SAME|]. destruct (Z.eqb_spec (k_cur k) IDLE) as [|NI]; cbn [negb]; [exact SAME|].
    eexists. split; [reflexivity|]. apply good_pc; auto.
    + intros _. now apply free_not_held.
    + intros x X. rewrite E in X. discriminate.
    + intros; congruence.
    + destruct w; exact Logic.I || reflexivity.
  - destruct (k_yield k) eqn:Y; cbn [negb andb]; [exact SAME|]. destruct (Z.eqb_spec (k_cur k) IDLE) as [|NI]; cbn [negb]; [exact SAME|].
    unfold take_step. pose proof (m_cnt _ _ M) as CC. pose proof (m_may _ _ M (k_cur k)) as WW.
    assert (HC : busy (t_pc (k_task k (k_cur k))) = true -> t_held (k_task k (k_cur k)) = 0) by apply (m_busy _ _ M).
    destruct (t_pc (k_task k (k_cur k))) as [| |m w i|m w i|m w i|m w i|m] eqn:E; try exact SAME.
    + destruct (m_holder (k_mx k m)) as [h|] eqn:HO.
      * rewrite CC, HO. change (0 <? 0) with false. cbv iota.
        assert (PC : forall p', able p' = true -> busy p' = true -> calls p' m = i -> may_wait p' -> good (set_pc k (k_cur k) p')).
        { intros p' A B C W. apply good_pc; auto.
          - intros x X. rewrite E in X. cbn in X. left. assert (x = m) by lia. subst x. rewrite C. destruct i; [reflexivity|discriminate].
          - intros x w' i' X. right. assert (x = m) by congruence. subst x. congruence. }
        destruct w.
        -- cbn in WW. subst i. eexists. split; [reflexivity|]. apply good_missed. apply good_pc; auto.
           ++ intros x X. rewrite E in X. discriminate.
           ++ intros x w' i' X. right. assert (x = m) by congruence. subst x. congruence.
        -- eexists. split; [reflexivity|]. apply PC; try reflexivity. cbn. rewrite Z.eqb_refl. apply andb_true_r.
        -- eexists. split; [reflexivity|]. apply PC; try reflexivity. cbn. rewrite Z.eqb_refl. apply andb_true_r.
      * rewrite CC, HO. change (0 <? 1) with true. cbv iota. eexists. split; [reflexivity|].
        pose proof (good_take k m w i G Y E HO) as GT. cbv zeta in GT. rewrite CC, HO in GT. exact GT.
    + destruct (match w with Endless => false | _ => expired end).
      * eexists. split; [reflexivity|]. apply good_pc; auto.
        -- intros x X. rewrite E in X. left. exact X.
        -- intros; congruence.
      * destruct (Z.eqb_spec (m_count (k_mx k m)) 0) as [C0|C1].
        -- exact (good_sleep k m w i G Y NI E C0).
        -- eexists. split; [reflexivity|]. apply good_pc; auto.
           ++ intros x X. rewrite E in X. left. exact X.
           ++ intros; congruence.
           ++ destruct w; [contradiction|exact Logic.I|exact Logic.I].
    + destruct (Z.eqb_spec (m_count (k_mx k m)) 0) as [C0|C1].
      * destruct i.
        -- eexists. split; [reflexivity|]. apply good_pc; auto.
           ++ intros x X. rewrite E in X. left. exact X.
           ++ intros; congruence.
        -- eexists. split; [reflexivity|]. apply good_missed. apply good_pc; auto.
           ++ intros x X. rewrite E in X. discriminate.
           ++ intros; congruence.
      * eexists. split; [reflexivity|]. apply good_pc; auto.
        -- intros x X. rewrite E in X. left. exact X.
        -- intros; congruence.
        -- destruct w; [contradiction|exact Logic.I|exact Logic.I].
    + destruct (good_undo k m G Y NI E) as (k1 & D & C1 & G1). rewrite D. eauto.
  - destruct (t_pc (k_task k (k_cur k))) eqn:E; try exact SAME.
    destruct (k_yield k) eqn:Y; cbn [negb andb]; [exact SAME|]. destruct (Z.eqb_spec (k_cur k) IDLE) as [|NI]; cbn [negb]; [exact SAME|].
    now apply good_give.
  - destruct (t_pc (k_task k (k_cur k))) eqn:E; try exact SAME.
    destruct (k_yield k) eqn:Y; cbn [negb andb]; [exact SAME|]. destruct (Z.eqb_spec (k_cur k) IDLE) as [|NI]; cbn [negb]; [exact SAME|].
    destruct (good_block k G Y NI E) as (R & GB). rewrite R. eauto.
  - destruct (t_pc (k_task k u)) as [| |m w i|m w i|m w i|m w i|m] eqn:E; try exact SAME.
    assert (IU : In u ids) by (apply (asleep_id _ _ u M); congruence).
    assert (NI : u <> IDLE) by (intros ->; rewrite (proj1 (m_idle _ _ M)) in E; discriminate).
    eexists. split; [reflexivity|]. destruct k as [tk rd top cur y mx log]. cbn [k_task k_cur k_mx] in *.
    apply (good_join (mkK tk rd top cur y mx log) u Out mx); auto; cbn [k_task k_cur k_mx]; try lia.
    + now rewrite E.
    + apply mutexes_pc; auto; try (intros; congruence); try discriminate.
      * intros m X. rewrite E in X. discriminate.
  - destruct (t_pc (k_task k u)) as [| |m w i|m w i|m w i|m w i|m] eqn:E; try exact SAME. destruct w; try exact SAME.
    assert (IU : In u ids) by (apply (asleep_id _ _ u M); congruence).
    eexists. split; [reflexivity|]. unfold set_mx.
    apply (good_join k u (Try m Bounded i) _ (t_prio (k_task k (k_cur k)) <=? t_prio (k_task k u))); auto; try lia.
    + now rewrite E.
    + apply (mutexes_wake (k_task k) (k_mx k) m u Bounded i M E).
    + intros x. unfold upd. destruct (Z.eqb_spec x m) as [-> |]; reflexivity.
Qed.

(** ** The start *)
Lemma start_bits : forall l b, (forall t, In t l -> 0 <= base t) -> 0 <= b ->
  let r := fold_left (fun b t => Z.setbit b (base t)) l b in
  0 <= r /\ forall p, 0 <= p -> Z.testbit r p = true <-> Z.testbit b p = true \/ exists t, In t l /\ base t = p.
Proof.
  induction l as [|t l IH]; intros b H B; cbn [fold_left].
  - split; [exact B|]. intros p P. split; [auto|]. intros [X|(t & [] & _)]; exact X.
  - destruct (IH (Z.setbit b (base t))) as (R & Q).
    + intros u U. apply H. now right.
    + pose proof (H t (or_introl eq_refl)). rewrite Z.setbit_spec'. apply Z.lor_nonneg. split; [exact B|]. apply Z.pow_nonneg. lia.
    + split; [exact R|]. intros p P. rewrite (Q p P). rewrite Z.setbit_eqb by (apply H; now left).
      split.
      * intros [X|(u & U1 & U2)]; [|right; exists u; cbn; auto]. apply orb_prop in X. destruct X as [X|X]; [right; exists t; cbn; split; [auto|lia]|auto].
      * intros [X|(u & [->|U1] & U2)]; [left; rewrite X; apply orb_true_r| |right; eauto]. left. rewrite U2, Z.eqb_refl. reflexivity.
Qed.
Lemma good_start : good (km_start base ids).
Proof.
  destruct SET as (ND & II & BI & RG). unfold km_start.
  destruct (start_bits ids 0) as (R & Q); [intros t T; apply RG; exact T|lia|]. cbv zeta in *.
  split; cbn [k_task k_ready k_top k_cur k_yield k_mx k_log]; auto; try discriminate.
  - split; cbn [t_prio t_held t_item t_pc m_count m_holder m_wait]; auto; try discriminate.
    + intros t T. specialize (RG t T). lia.
    + intros m t. split; [intros []|intros (w & i & X); discriminate].
    + intros m. constructor.
    + intros m. constructor.
    + intros m _ X. now destruct X.
    + intros t. exact Logic.I.
  - split.
    + intros t p. rewrite filter_In. split.
      * intros (T & P). rewrite fr_some; auto. cbn. f_equal. lia.
      * intros F. apply fr_inv in F. destruct F as (T & _ & ->). cbn. split; [exact T|lia].
    + intros p. now apply NoDup_filter.
    + intros t p F. apply fr_inv in F. destruct F as (T & _ & ->). cbn. now apply RG.
    + exact R.
    + intros p P. rewrite (Q p P). rewrite Z.bits_0. split.
      * intros [X|(t & T & B)]; [discriminate|]. intros X. assert (Y : In t (filter (fun t => base t =? p) ids)) by (apply filter_In; split; [exact T|lia]).
        rewrite X in Y. destruct Y.
      * intros X. right. destruct (filter (fun t => base t =? p) ids) as [|t r] eqn:F; [now destruct X|]. exists t.
        assert (Y : In t (filter (fun t => base t =? p) ids)) by (rewrite F; now left). apply filter_In in Y. destruct Y as (Y1 & Y2). split; [exact Y1|lia].
  - intros a t c m b X. destruct a; discriminate.
Qed.
Lemma good_run : forall tr k, good k -> one_at_a_time base k tr -> exists k', km_run base k tr = Some k' /\ good k'.
Proof.
  induction tr as [|ev tr IH]; intros k G O; cbn [km_run].
  - eauto.
  - cbn [one_at_a_time] in O. destruct O as (O1 & O2). destruct (good_step k ev G) as (k' & E & G'); [destruct ev; exact O1|].
    rewrite E in *. now apply IH.
Qed.
End Inv.

(** ** A check of the condition, for the examples *)
Definition ok_event (k : km) (ev : kevent) : bool :=
  let has x := match holder_of (k_log k) x with Some h => h =? k_cur k | None => false end in
  match ev with
  | KTake _ _ => forallb (fun e => negb (has (snd e))) (k_log k)
  | KGive m => match holder_of (k_log k) m with Some h => h =? k_cur k | None => true end
  | _ => true
  end.
Fixpoint ok_run (base : Z -> Z) (k : km) (tr : list kevent) : bool :=
  match tr with
  | [] => true
  | ev :: r => ok_event k ev && match km_step base k ev with Some k' => ok_run base k' r | None => true end
  end.
Lemma holder_in : forall l m h, holder_of l m = Some h -> In (h, Took, m) l.
Proof.
  induction l as [|((t, a), x) l IH] using rev_ind; intros m h H; [discriminate|]. rewrite holder_snoc in H. apply in_or_app.
  destruct a.
  - destruct (Z.eqb_spec x m) as [-> |]; [injection H as ->; right; now left|left; auto].
  - left. auto.
  - destruct (x =? m); [discriminate|left; auto].
Qed.
Lemma ok_run_sound : forall base tr k, ok_run base k tr = true -> one_at_a_time base k tr.
Proof.
  induction tr as [|ev tr IH]; intros k H; cbn [ok_run one_at_a_time] in *; [exact Logic.I|]. apply andb_prop in H. destruct H as (E & R). split.
  - destruct ev as [n|m w|e|m| |u|u]; cbn [ok_event] in E; auto.
    + intros x X. pose proof (holder_in _ _ _ X) as Y. rewrite forallb_forall in E. specialize (E _ Y). cbn [snd] in E. rewrite X, Z.eqb_refl in E. discriminate.
    + destruct (holder_of (k_log k) m) as [h|]; [left|now right]. f_equal. lia.
  - destruct (km_step base k ev); auto.
Qed.
