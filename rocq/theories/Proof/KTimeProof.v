From Coq Require Import ZifyBool ZifyNat Permutation.
From Verif.Base Require Import Words.
From Verif.Model Require Import KTime.
From Verif.Spec Require Import KTimeSpec.
Open Scope Z_scope.

Definition M32 : Z := 2 ^ 32.
Lemma M32_pos : 0 < M32. Proof. reflexivity. Qed.
Lemma u32_M : forall x, u32 x = x mod M32. Proof. reflexivity. Qed.

Fixpoint ascending (l : list (Z * Z)) : Prop :=
  match l with
  | [] => True
  | e :: r => (forall x, In x r -> snd e <= snd x) /\ ascending r
  end.
Lemma asc_insert : forall e l, ascending l -> ascending (sorted_insert e l).
Proof.
  intros e l. induction l as [|x l IH]; intros A; cbn [sorted_insert]; [cbn; tauto|].
  destruct A as (A1 & A2). destruct (Z.leb_spec (snd x) (snd e)) as [L|L].
  - cbn [ascending]. split; [|auto]. intros y I.
    assert (K : y = e \/ In y l).
    { clear -I. induction l as [|z l IH]; cbn [sorted_insert In] in *; [intuition|]. destruct (snd z <=? snd e); cbn [In] in *; intuition. }
    destruct K as [-> |K]; auto.
  - cbn [ascending]. split; [|split; auto]. intros y [<- |I]; [lia|]. specialize (A1 y I). lia.
Qed.
Lemma sorted_insert_perm : forall e l, Permutation (e :: l) (sorted_insert e l).
Proof.
  intros e l. induction l as [|x l IH]; cbn [sorted_insert]; [apply Permutation_refl|].
  destruct (snd x <=? snd e); [|apply Permutation_refl].
  eapply Permutation_trans; [apply perm_swap|]. now apply perm_skip.
Qed.
Lemma vinsert_perm : forall e l, Permutation (e :: l) (vListInsert e l).
Proof.
  intros e l. unfold vListInsert. destruct (snd e =? portMAX_DELAY); [apply Permutation_cons_append|apply sorted_insert_perm].
Qed.
Lemma vinsert_in : forall e l x, In x (vListInsert e l) <-> x = e \/ In x l.
Proof.
  intros e l x. split; intros H.
  - apply (Permutation_in x (Permutation_sym (vinsert_perm e l))) in H. destruct H; auto.
  - apply (Permutation_in x (vinsert_perm e l)). destruct H; [left|right]; auto.
Qed.
Lemma asc_vinsert : forall e l, ascending l -> (forall x, In x l -> snd x <= portMAX_DELAY) -> ascending (vListInsert e l).
Proof.
  intros e l A B. unfold vListInsert. destruct (Z.eqb_spec (snd e) portMAX_DELAY) as [E|E]; [|now apply asc_insert].
  induction l as [|x l IH]; [cbn; tauto|]. destruct A as (A1 & A2). cbn [app ascending]. split.
  - intros y I. apply in_app_or in I. destruct I as [I|[<- |[]]]; [auto|]. rewrite E. apply B. now left.
  - apply IH; auto. intros y I. apply B. now right.
Qed.
Lemma asc_filter : forall f l, ascending l -> ascending (filter f l).
Proof.
  intros f l. induction l as [|x l IH]; intros A; cbn [filter]; [exact A|]. destruct A as (A1 & A2).
  destruct (f x); [|auto]. cbn [ascending]. split; [|auto]. intros y I. apply filter_In in I. apply A1. tauto.
Qed.

(** Unblocking takes out exactly those that are due. *)
Lemma unblock_spec : forall tick l, ascending l ->
  ascending (fst (unblock tick l)) /\
  (forall x, In x (fst (unblock tick l)) <-> In x l /\ tick < snd x) /\
  (forall x, In x (fst (unblock tick l)) -> snd (unblock tick l) <= snd x) /\
  exists a, l = a ++ fst (unblock tick l).
Proof.
  intros tick l. induction l as [|[t w] l IH]; intros A; cbn [unblock].
  - cbn. split; [auto|]. split; [tauto|]. split; [tauto|]. now exists [].
  - destruct A as (A1 & A2). cbn [snd] in A1. destruct (Z.ltb_spec tick w) as [L|L].
    + cbn [fst snd]. split; [split; auto|]. split; [|split; [|now exists []]].
      * intros x. split; [|tauto]. intros I. split; [exact I|]. destruct I as [<- |I]; cbn; [lia|]. specialize (A1 x I). lia.
      * intros x [<- |I]; cbn; [lia|]. now apply A1.
    + destruct (IH A2) as (U1 & U2 & U3 & (a & U4)). split; [exact U1|]. split; [|split; [exact U3|]].
      * intros x. rewrite U2. cbn [In]. split; [tauto|]. intros ([<- |I] & K); [cbn in K; lia|auto].
      * exists ((t, w) :: a). cbn [app]. now rewrite <- U4.
Qed.

Definition tasks (k : ktime) : list Z := map fst (kt_delayed k) ++ map fst (kt_over k) ++ kt_forever k.
Lemma blocked_in : forall k t, blocked k t = true <-> In t (tasks k).
Proof.
  intros k t. unfold blocked, tasks. rewrite existsb_exists. split.
  - intros (x & I & E). apply Z.eqb_eq in E. now subst x.
  - intros I. exists t. split; [exact I|apply Z.eqb_refl].
Qed.

(** [st t] is what the clock says, [rp]: woken during the suspension. *)
Definition entry (rp : list Z) (st : Z -> sleep) (t : Z) (s : sleep) : Prop :=
  (st t = s /\ ~ In t rp) \/ (st t = Woken /\ In t rp).

(** Just before the due tasks are taken out, [strict] is false. *)
Record core (strict : bool) (k : ktime) (now : Z) (st : Z -> sleep) : Prop := {
  c_now : 0 <= now;
  c_tick : kt_tick k = now mod M32;
  c_ovf : kt_ovf k = now / M32;
  c_nodup : NoDup (tasks k);
  c_del : forall t w, In (t, w) (kt_delayed k) ->
    kt_tick k <= w < M32 /\ (strict = true -> kt_tick k < w) /\ entry (kt_ready k) st t (Until (now - kt_tick k + w));
  c_over : forall t w, In (t, w) (kt_over k) -> 0 <= w < kt_tick k /\ entry (kt_ready k) st t (Until (now - kt_tick k + M32 + w));
  c_forever : forall t, In t (kt_forever k) -> entry (kt_ready k) st t Forever;
  c_in : forall t, match st t with Ready => False | Until d => if strict then now < d else now <= d | Forever => True | Woken => True end ->
    In t (tasks k);
  c_asc : ascending (kt_delayed k) /\ ascending (kt_over k);
  c_next : forall t w, In (t, w) (kt_delayed k) -> kt_next k <= w }.
Arguments core : clear implicits.

Record rel (k : ktime) (c : clock) : Prop := {
  r_core : core true k (cl_now c) (cl_task c);
  r_susp : kt_susp k = cl_susp c; r_susp0 : 0 <= kt_susp k;
  r_pend : kt_pend k = cl_pend c; r_pend0 : 0 <= kt_pend k < M32;
  r_free : kt_susp k = 0 -> kt_pend k = 0 /\ kt_ready k = [];
  r_woken : forall t, In t (kt_ready k) -> cl_task c t = Woken }.

Lemma core_view : forall k now st, core true k now st -> forall t,
  In t (tasks k) <-> match st t with Ready => False | Until d => now < d | Forever => True | Woken => True end.
Proof.
  intros k now st C t. split; [|apply (c_in _ _ _ _ C)]. intros I. unfold tasks in I.
  pose proof (Z.mod_pos_bound now M32 M32_pos) as MB. rewrite <- (c_tick _ _ _ _ C) in MB.
  apply in_app_or in I. destruct I as [I|I]; [|apply in_app_or in I; destruct I as [I|I]].
  - apply in_map_iff in I. destruct I as ([x w] & E & I). cbn in E. subst x. destruct (c_del _ _ _ _ C t w I) as (B & SB & [(-> & _)|(-> & _)]); [|auto].
    specialize (SB eq_refl). lia.
  - apply in_map_iff in I. destruct I as ([x w] & E & I). cbn in E. subst x. destruct (c_over _ _ _ _ C t w I) as (B & [(-> & _)|(-> & _)]); [|auto]. lia.
  - destruct (c_forever _ _ _ _ C t I) as [(-> & _)|(-> & _)]; auto.
Qed.
Lemma rel_view : forall k c t, rel k c -> blocked k t = asleep c t.
Proof.
  intros k c t R. pose proof (core_view _ _ _ (r_core _ _ R) t) as V. rewrite <- blocked_in in V. unfold asleep.
  destruct (blocked k t).
  - destruct V as [V _]. specialize (V eq_refl). destruct (cl_task c t); auto; [destruct V|]. symmetry. lia.
  - destruct V as [_ V]. destruct (cl_task c t); try (apply V; exact I); [reflexivity|].
    destruct (Z.ltb_spec (cl_now c) d); [auto|reflexivity].
Qed.

(** Going to sleep. *)
Lemma entry_other : forall rp st t u s v, u <> t -> entry rp st t s -> entry rp (set_task st u v) t s.
Proof. intros rp st t u s v N E. unfold entry, set_task in *. destruct (Z.eqb_spec t u); [congruence|exact E]. Qed.
Lemma in_tasks_del : forall k t w, In (t, w) (kt_delayed k) -> In t (tasks k).
Proof. intros k t w I. unfold tasks. apply in_or_app. left. apply in_map_iff. now exists (t, w). Qed.
Lemma in_tasks_over : forall k t w, In (t, w) (kt_over k) -> In t (tasks k).
Proof. intros k t w I. unfold tasks. apply in_or_app. right. apply in_or_app. left. apply in_map_iff. now exists (t, w). Qed.
Lemma in_tasks_forever : forall k t, In t (kt_forever k) -> In t (tasks k).
Proof. intros k t I. unfold tasks. apply in_or_app. right. apply in_or_app. now right. Qed.

Lemma core_sleep : forall k now st t n f, core true k now st -> ~ In t (tasks k) -> ~ In t (kt_ready k) -> 1 <= n < M32 ->
  core true (prvAddCurrentTaskToDelayedList k t n f) now
       (set_task st t (if (n =? portMAX_DELAY) && f then Forever else Until (now + n))).
Proof.
  intros k now st t n f C NI NR N. pose proof (Z.mod_pos_bound now M32 M32_pos) as MB. rewrite <- (c_tick _ _ _ _ C) in MB.
  assert (OTH : forall x, In x (tasks k) -> t <> x) by (intros x I ->; contradiction).
  set (s := if (n =? portMAX_DELAY) && f then Forever else Until (now + n)).
  assert (ME : entry (kt_ready k) (set_task st t s) t s) by (left; split; [unfold set_task; now rewrite Z.eqb_refl|exact NR]).
  assert (D : forall x w, In (x, w) (kt_delayed k) -> kt_tick k <= w < M32 /\ (true = true -> kt_tick k < w) /\
    entry (kt_ready k) (set_task st t s) x (Until (now - kt_tick k + w))).
  { intros x w I. destruct (c_del _ _ _ _ C x w I) as (B1 & B2 & B3). split; [exact B1|]. split; [exact B2|]. apply entry_other; auto.
    apply OTH. eapply in_tasks_del; eauto. }
  assert (O : forall x w, In (x, w) (kt_over k) -> 0 <= w < kt_tick k /\ entry (kt_ready k) (set_task st t s) x (Until (now - kt_tick k + M32 + w))).
  { intros x w I. destruct (c_over _ _ _ _ C x w I) as (B1 & B3). split; [exact B1|]. apply entry_other; auto. apply OTH. eapply in_tasks_over; eauto. }
  assert (F : forall x, In x (kt_forever k) -> entry (kt_ready k) (set_task st t s) x Forever).
  { intros x I. apply entry_other; [apply OTH, in_tasks_forever; auto|]. now apply (c_forever _ _ _ _ C). }
  assert (IN : forall l, (forall x, In x (tasks k) \/ x = t -> In x l) -> forall x,
    match set_task st t s x with Ready => False | Until d => now < d | Forever => True | Woken => True end -> In x l).
  { intros l L x K. apply L. unfold set_task in K. destruct (Z.eqb_spec x t) as [EQ|NE]; [now right|left]. now apply (c_in _ _ _ _ C). }
  unfold prvAddCurrentTaskToDelayedList. destruct ((n =? portMAX_DELAY) && f) eqn:FO.
  - destruct C as [C1 C2 C3 C4 C5 C6 C7 C8 C9 C10].
    assert (P : Permutation (t :: tasks k) (map fst (kt_delayed k) ++ map fst (kt_over k) ++ kt_forever k ++ [t])).
    { unfold tasks. rewrite !app_assoc. apply Permutation_cons_append. }
    split; cbn [kt_tick kt_ovf kt_delayed kt_over kt_forever kt_next kt_ready tasks]; auto.
    + unfold tasks. cbn [kt_delayed kt_over kt_forever]. eapply Permutation_NoDup; [exact P|]. now constructor.
    + intros x I. apply in_app_or in I. destruct I as [I|[<- |[]]]; auto.
    + apply IN. intros x H. apply (Permutation_in x P). destruct H as [H| ->]; [now right|now left].
  - assert (MX : forall x, In x (kt_delayed k) -> snd x <= portMAX_DELAY).
    { intros [x w] I. destruct (D x w I) as (B & _). unfold portMAX_DELAY. unfold M32 in B. cbn. lia. }
    assert (MY : forall x, In x (kt_over k) -> snd x <= portMAX_DELAY).
    { intros [x w] I. destruct (O x w I) as (B & _). unfold portMAX_DELAY. unfold M32 in MB. cbn. lia. }
    assert (WV : u32 (kt_tick k + n) = if kt_tick k + n <? M32 then kt_tick k + n else kt_tick k + n - M32).
    { rewrite u32_M. destruct (Z.ltb_spec (kt_tick k + n) M32); [apply Z.mod_small; lia|].
      replace (kt_tick k + n) with (kt_tick k + n - M32 + 1 * M32) at 1 by lia. rewrite Z.mod_add by (unfold M32; lia). apply Z.mod_small. lia. }
    rewrite WV. set (w := if kt_tick k + n <? M32 then kt_tick k + n else kt_tick k + n - M32).
    destruct (Z.ltb_spec (kt_tick k + n) M32) as [L|L].
    + replace (w <? kt_tick k) with false by (unfold w; lia).
      assert (S : s = Until (now - kt_tick k + w)) by (unfold s, w; f_equal; lia).
      assert (P : Permutation (t :: tasks k) (map fst (vListInsert (t, w) (kt_delayed k)) ++ map fst (kt_over k) ++ kt_forever k)).
      { unfold tasks. change (t :: map fst (kt_delayed k) ++ map fst (kt_over k) ++ kt_forever k)
          with (map fst ((t, w) :: kt_delayed k) ++ map fst (kt_over k) ++ kt_forever k).
        apply Permutation_app_tail. apply Permutation_map. apply vinsert_perm. }
      destruct C as [C1 C2 C3 C4 C5 C6 C7 C8 C9 C10].
      split; cbn [kt_tick kt_ovf kt_delayed kt_over kt_forever kt_next kt_ready]; auto.
      * unfold tasks. cbn [kt_delayed kt_over kt_forever]. eapply Permutation_NoDup; [exact P|]. now constructor.
      * intros x v I. apply vinsert_in in I. destruct I as [I|I]; [|auto]. injection I as -> ->.
        split; [unfold w; lia|]. split; [unfold w; lia|]. rewrite <- S. exact ME.
      * apply IN. intros x H. apply (Permutation_in x P). destruct H as [H| ->]; [now right|now left].
      * split; [apply asc_vinsert; tauto|tauto].
      * intros x v I. apply vinsert_in in I. destruct I as [I|I].
        -- injection I as -> ->. destruct (Z.ltb_spec w (kt_next k)); lia.
        -- specialize (C10 x v I). destruct (Z.ltb_spec w (kt_next k)); lia.
    + replace (w <? kt_tick k) with true by (unfold w; lia).
      assert (S : s = Until (now - kt_tick k + M32 + w)) by (unfold s, w; f_equal; lia).
      assert (P : Permutation (t :: tasks k) (map fst (kt_delayed k) ++ map fst (vListInsert (t, w) (kt_over k)) ++ kt_forever k)).
      { unfold tasks. eapply Permutation_trans; [apply Permutation_middle|]. apply Permutation_app_head.
        change (t :: map fst (kt_over k) ++ kt_forever k) with (map fst ((t, w) :: kt_over k) ++ kt_forever k).
        apply Permutation_app_tail. apply Permutation_map. apply vinsert_perm. }
      destruct C as [C1 C2 C3 C4 C5 C6 C7 C8 C9 C10].
      split; cbn [kt_tick kt_ovf kt_delayed kt_over kt_forever kt_next kt_ready]; auto.
      * unfold tasks. cbn [kt_delayed kt_over kt_forever]. eapply Permutation_NoDup; [exact P|]. now constructor.
      * intros x v I. apply vinsert_in in I. destruct I as [I|I]; [|auto]. injection I as -> ->.
        split; [unfold w; lia|]. rewrite <- S. exact ME.
      * apply IN. intros x H. apply (Permutation_in x P). destruct H as [H| ->]; [now right|now left].
      * split; [tauto|apply asc_vinsert; tauto].
Qed.

(** ** A tick *)
Lemma nodup_tail : forall (a b : list Z), NoDup (a ++ b) -> NoDup b.
Proof. induction a as [|x a IH]; intros b N; [exact N|]. apply IH. now inversion N. Qed.
Lemma next_le : forall l t w, ascending l -> In (t, w) l -> next_unblock l <= w.
Proof. intros [|[x v] l] t w A I; [destruct I|]. destruct A as (A1 & A2). cbn. destruct I as [E|I]; [injection E as -> ->; lia|]. apply (A1 (t, w) I). Qed.
Lemma now_next : forall now, 0 <= now ->
  if now mod M32 + 1 =? M32 then (now + 1) mod M32 = 0 /\ (now + 1) / M32 = now / M32 + 1
  else (now + 1) mod M32 = now mod M32 + 1 /\ (now + 1) / M32 = now / M32.
Proof.
  intros now N. pose proof (Z.mod_pos_bound now M32 M32_pos) as B. pose proof (Z.div_mod now M32) as D.
  assert (D' : now = M32 * (now / M32) + now mod M32) by (apply D; unfold M32; lia).
  destruct (Z.eqb_spec (now mod M32 + 1) M32) as [E|E].
  - split; [symmetry; apply Z.mod_unique_pos with (q := now / M32 + 1)|symmetry; apply Z.div_unique_pos with (r := 0)]; lia.
  - split; [symmetry; apply Z.mod_unique_pos with (q := now / M32)|symmetry; apply Z.div_unique_pos with (r := now mod M32 + 1)]; lia.
Qed.

Definition with_tick (k : ktime) : ktime :=
  let tick := u32 (kt_tick k + 1) in
  if tick =? 0
  then mkKt tick (kt_ovf k + 1) (kt_over k) [] (kt_forever k) (next_unblock (kt_over k)) (kt_susp k) (kt_pend k) (kt_ready k)
  else mkKt tick (kt_ovf k) (kt_delayed k) (kt_over k) (kt_forever k) (kt_next k) (kt_susp k) (kt_pend k) (kt_ready k).
Definition due (k : ktime) : ktime :=
  if kt_next k <=? kt_tick k then
    let p := unblock (kt_tick k) (kt_delayed k) in
    mkKt (kt_tick k) (kt_ovf k) (fst p) (kt_over k) (kt_forever k) (snd p) (kt_susp k) (kt_pend k) (kt_ready k)
  else k.
Lemma tick_is : forall k, kt_susp k = 0 -> (u32 (kt_tick k + 1) = 0 -> kt_delayed k = []) -> xTaskIncrementTick k = Some (due (with_tick k)).
Proof.
  intros k S D. unfold xTaskIncrementTick, with_tick. rewrite S. change (0 =? 0) with true. cbv iota.
  destruct (Z.eqb_spec (u32 (kt_tick k + 1)) 0) as [E|E].
  - rewrite (D E). unfold due. cbn [kt_next kt_tick]. destruct (_ <=? _); reflexivity.
  - unfold due. cbn [kt_next kt_tick]. destruct (_ <=? _); reflexivity.
Qed.

Lemma core_advance : forall k now st, core true k now st ->
  (u32 (kt_tick k + 1) = 0 -> kt_delayed k = []) /\ core false (with_tick k) (now + 1) st.
Proof.
  intros k now st C. pose proof (Z.mod_pos_bound now M32 M32_pos) as MB. pose proof (now_next now (c_now _ _ _ _ C)) as NN.
  rewrite <- (c_tick _ _ _ _ C) in MB, NN.
  assert (U : u32 (kt_tick k + 1) = if kt_tick k + 1 =? M32 then 0 else kt_tick k + 1).
  { rewrite u32_M. destruct (Z.eqb_spec (kt_tick k + 1) M32) as [-> |E]; [apply Z.mod_same; unfold M32; lia|apply Z.mod_small; lia]. }
  assert (DE : kt_tick k + 1 = M32 -> kt_delayed k = []).
  { intros E. destruct (kt_delayed k) as [|[t w] l] eqn:L; [reflexivity|]. exfalso.
    destruct (c_del _ _ _ _ C t w) as (B & SB & _); [rewrite L; now left|]. specialize (SB eq_refl). lia. }
  assert (OV : kt_tick k + 1 <> M32 -> kt_tick k + 1 <> 0) by lia.
  split.
  { rewrite U. destruct (Z.eqb_spec (kt_tick k + 1) M32) as [E|E]; [auto|]. lia. }
  assert (CI : forall t, match st t with Ready => False | Until d => now + 1 <= d | Forever => True | Woken => True end -> In t (tasks k)).
  { intros t K. apply (c_in _ _ _ _ C). destruct (st t); auto. lia. }
  unfold with_tick. rewrite U. destruct (Z.eqb_spec (kt_tick k + 1) M32) as [E|E].
  - specialize (DE E). change (0 =? 0) with true. cbv iota. destruct NN as (N1 & N2). destruct C as [C1 C2 C3 C4 C5 C6 C7 C8 C9 C10].
    assert (TK : tasks k = map fst (kt_over k) ++ [] ++ kt_forever k) by (unfold tasks; rewrite DE; reflexivity).
    split; cbn [kt_tick kt_ovf kt_delayed kt_over kt_forever kt_next kt_ready]; auto; try lia.
    + unfold tasks. cbn [kt_delayed kt_over kt_forever map]. rewrite <- TK. exact C4.
    + intros t w I. destruct (C6 t w I) as (B & EN). split; [lia|]. split; [discriminate|].
      replace (now + 1 - 0 + w) with (now - kt_tick k + M32 + w) by lia. exact EN.
    + intros t w [].
    + intros t K. unfold tasks. cbn [kt_delayed kt_over kt_forever map]. rewrite <- TK. now apply CI.
    + split; [tauto|exact I].
    + intros t w I. eapply next_le; eauto. tauto.
  - replace (kt_tick k + 1 =? 0) with false by lia. destruct NN as (N1 & N2). destruct C as [C1 C2 C3 C4 C5 C6 C7 C8 C9 C10].
    split; cbn [kt_tick kt_ovf kt_delayed kt_over kt_forever kt_next kt_ready]; auto; try lia.
    + intros t w I. destruct (C5 t w I) as (B & SB & EN). specialize (SB eq_refl). split; [lia|]. split; [discriminate|].
      replace (now + 1 - (kt_tick k + 1) + w) with (now - kt_tick k + w) by lia. exact EN.
    + intros t w I. destruct (C6 t w I) as (B & EN). split; [lia|].
      replace (now + 1 - (kt_tick k + 1) + M32 + w) with (now - kt_tick k + M32 + w) by lia. exact EN.
Qed.

Lemma core_due : forall k now st, core false k now st -> kt_ready k = [] -> core true (due k) now st.
Proof.
  intros k now st C RP. unfold due. destruct (Z.leb_spec (kt_next k) (kt_tick k)) as [L|L].
  - destruct (unblock_spec (kt_tick k) (kt_delayed k) (proj1 (c_asc _ _ _ _ C))) as (U1 & U2 & U3 & (a & U4)).
    set (p := unblock (kt_tick k) (kt_delayed k)) in *. destruct C as [C1 C2 C3 C4 C5 C6 C7 C8 C9 C10].
    split; cbn [kt_tick kt_ovf kt_delayed kt_over kt_forever kt_next kt_ready]; auto.
    + unfold tasks in *. cbn [kt_delayed kt_over kt_forever]. apply (nodup_tail (map fst a)). rewrite app_assoc, <- map_app, <- U4. exact C4.
    + intros t w I. apply U2 in I. destruct I as (I & K). cbn in K. destruct (C5 t w I) as (B & _ & EN). auto.
    + intros t K. assert (I : In t (tasks k)) by (apply C8; destruct (st t); auto; lia).
      unfold tasks in *. cbn [kt_delayed kt_over kt_forever]. apply in_app_or in I. destruct I as [I|I]; [|apply in_or_app; now right].
      apply in_or_app. left. apply in_map_iff in I. destruct I as ([x w] & E & I). cbn in E. subst x. apply in_map_iff. exists (t, w).
      split; [reflexivity|]. apply U2. split; [exact I|]. cbn. destruct (C5 t w I) as (B & _ & [(EN & _)|(_ & J)]); [|rewrite RP in J; destruct J].
      rewrite EN in K. lia.
    + split; [exact U1|tauto].
    + intros t w I. exact (U3 (t, w) I).
  - destruct C as [C1 C2 C3 C4 C5 C6 C7 C8 C9 C10]. split; auto.
    + intros t w I. destruct (C5 t w I) as (B & _ & EN). specialize (C10 t w I). split; [exact B|]. split; [lia|exact EN].
    + intros t K. apply C8. destruct (st t); auto. lia.
Qed.

Lemma due_keeps : forall k, kt_susp (due (with_tick k)) = kt_susp k /\ kt_pend (due (with_tick k)) = kt_pend k /\ kt_ready (due (with_tick k)) = kt_ready k.
Proof. intros k. unfold due, with_tick. destruct (u32 (kt_tick k + 1) =? 0); cbn [kt_next kt_tick]; destruct (_ <=? _); cbn; auto. Qed.
Lemma core_tick : forall k now st, core true k now st -> kt_susp k = 0 -> kt_ready k = [] ->
  exists k', xTaskIncrementTick k = Some k' /\ core true k' (now + 1) st /\ kt_susp k' = 0 /\ kt_pend k' = kt_pend k /\ kt_ready k' = [].
Proof.
  intros k now st C S RP. destruct (core_advance k now st C) as (D & C'). exists (due (with_tick k)).
  destruct (due_keeps k) as (K1 & K2 & K3). split; [now apply tick_is|]. split; [|rewrite K1, K2, K3; auto].
  apply core_due; auto. unfold with_tick. destruct (_ =? 0); exact RP.
Qed.
Lemma core_ticks : forall n k now st, core true k now st -> kt_susp k = 0 -> kt_ready k = [] ->
  exists k', missed_ticks n k = Some k' /\ core true k' (now + Z.of_nat n) st /\ kt_susp k' = 0 /\ kt_ready k' = [].
Proof.
  induction n as [|n IH]; intros k now st C KS RP; cbn [missed_ticks].
  - exists k. rewrite Z.add_0_r. auto.
  - destruct (core_tick k now st C KS RP) as (k1 & -> & C1 & S1 & _ & R1). destruct (IH k1 (now + 1) st C1 S1 R1) as (k2 & -> & C2 & S2 & R2).
    exists k2. replace (now + Z.of_nat (S n)) with (now + 1 + Z.of_nat n) by lia. auto.
Qed.

(** ** Taking tasks out *)
Lemma map_filter_fst : forall (f : Z -> bool) (l : list (Z * Z)), map fst (filter (fun e => f (fst e)) l) = filter f (map fst l).
Proof. intros f l. induction l as [|[t w] l IH]; cbn; [reflexivity|]. destruct (f t); cbn; congruence. Qed.
Lemma tasks_take_out : forall k g, tasks (take_out k g) = filter (fun t => negb (g t)) (tasks k).
Proof.
  intros k g. unfold tasks, take_out. cbn [kt_delayed kt_over kt_forever].
  rewrite !(map_filter_fst (fun t => negb (g t))), !filter_app. reflexivity.
Qed.
Lemma core_take : forall k now st st' g nx sp pe rp, core true k now st ->
  (forall t, g t = true -> st' t = Ready) -> (forall t, g t = false -> st' t = st t) ->
  (forall t s, In t (tasks k) -> g t = false -> entry (kt_ready k) st t s -> st t = s -> ~ In t rp) ->
  (forall t, g t = false -> In t (tasks k) -> st t = Woken -> In t rp) ->
  (nx = kt_next k \/ nx = next_unblock (kt_delayed (take_out k g))) ->
  let k1 := take_out k g in
  core true (mkKt (kt_tick k) (kt_ovf k) (kt_delayed k1) (kt_over k1) (kt_forever k1) nx sp pe rp) now st'.
Proof.
  intros k now st st' g nx sp pe rp C G1 G2 G3 G4 NX k1. pose proof (tasks_take_out k g) as TT. fold k1 in TT.
  assert (EN : forall t s, In t (tasks k) -> g t = false -> s <> Woken -> entry (kt_ready k) st t s -> entry rp st' t s).
  { intros t s I G NW E. unfold entry. rewrite (G2 t G). pose proof E as E0. destruct E as [(E1 & E2)|(E1 & E2)].
    - left. split; [exact E1|]. eapply G3; eauto.
    - right. split; [exact E1|]. apply G4; auto. }
  assert (A2 := c_asc _ _ _ _ C). pose proof (in_tasks_del k) as TD. pose proof (in_tasks_over k) as TO. pose proof (in_tasks_forever k) as TF.
  destruct C as [C1 C2 C3 C4 C5 C6 C7 C8 C9 C10].
  split; cbn [kt_tick kt_ovf kt_delayed kt_over kt_forever kt_next kt_ready]; auto.
  - change (NoDup (tasks k1)). rewrite TT. now apply NoDup_filter.
  - intros t w I. unfold k1, take_out in I. cbn [kt_delayed] in I. apply filter_In in I. destruct I as (I & K). cbn in K.
    destruct (C5 t w I) as (B & SB & E). split; [exact B|]. split; [exact SB|]. apply EN; auto; [eapply TD; eauto|now destruct (g t)|discriminate].
  - intros t w I. unfold k1, take_out in I. cbn [kt_over] in I. apply filter_In in I. destruct I as (I & K). cbn in K.
    destruct (C6 t w I) as (B & E). split; [exact B|]. apply EN; auto; [eapply TO; eauto|now destruct (g t)|discriminate].
  - intros t I. unfold k1, take_out in I. cbn [kt_forever] in I. apply filter_In in I. destruct I as (I & K).
    apply EN; auto; [now destruct (g t)|discriminate].
  - intros t K. change (In t (tasks k1)). rewrite TT. apply filter_In. destruct (g t) eqn:G; [rewrite (G1 t G) in K; destruct K|].
    split; [|reflexivity]. rewrite (G2 t G) in K. now apply C8.
  - split; [apply asc_filter; tauto|apply asc_filter; tauto].
  - intros t w I. destruct NX as [-> | ->].
    + apply (C10 t w). unfold k1, take_out in I. cbn [kt_delayed] in I. apply filter_In in I. tauto.
    + apply (next_le _ t w); [|exact I]. apply asc_filter. tauto.
Qed.

Lemma woken_ready : forall k c t, rel k c -> cl_task c t = Woken -> In t (kt_ready k).
Proof.
  intros k c t R W. pose proof (r_core _ _ R) as C. assert (I : In t (tasks k)) by (apply (c_in _ _ _ _ C); now rewrite W).
  unfold tasks in I. apply in_app_or in I. destruct I as [I|I]; [|apply in_app_or in I; destruct I as [I|I]].
  - apply in_map_iff in I. destruct I as ([x w] & E & I). cbn in E. subst x. destruct (c_del _ _ _ _ C t w I) as (_ & _ & [(E & _)|(_ & J)]); [congruence|exact J].
  - apply in_map_iff in I. destruct I as ([x w] & E & I). cbn in E. subst x. destruct (c_over _ _ _ _ C t w I) as (_ & [(E & _)|(_ & J)]); [congruence|exact J].
  - destruct (c_forever _ _ _ _ C t I) as [(E & _)|(_ & J)]; [congruence|exact J].
Qed.

(** ** Every event *)
Definition matched_at (k : ktime) (ev : tevent) : Prop :=
  match ev with TResume => 0 < kt_susp k | TTick => kt_susp k = 0 \/ kt_pend k + 1 < M32 | _ => True end.
Lemma core_same : forall b k now st sp pe, core b k now st ->
  core b (mkKt (kt_tick k) (kt_ovf k) (kt_delayed k) (kt_over k) (kt_forever k) (kt_next k) sp pe (kt_ready k)) now st.
Proof. intros b k now st sp pe [C1 C2 C3 C4 C5 C6 C7 C8 C9 C10]. split; auto. Qed.

Lemma rel_step : forall k c ev, rel k c -> sleep_ok ev -> matched_at k ev -> exists k', kt_step k ev = Some k' /\ rel k' (cl_step c ev).
Proof.
  intros k c ev R OK MA. pose proof (r_core _ _ R) as C. pose proof (r_susp _ _ R) as RS. pose proof (r_susp0 _ _ R) as RS0.
  pose proof (r_pend _ _ R) as RP. pose proof (r_pend0 _ _ R) as RP0. pose proof (r_free _ _ R) as RF. pose proof (r_woken _ _ R) as RW.
  destruct ev as [t n f|t| | |]; cbn [kt_step cl_step sleep_ok matched_at] in *.
  - rewrite <- (rel_view k c t R). destruct (blocked k t) eqn:B; [eauto|]. eexists. split; [reflexivity|].
    assert (NI : ~ In t (tasks k)) by (intros I; apply blocked_in in I; congruence).
    assert (NR : ~ In t (kt_ready k)). { intros I. apply RW in I. apply NI. apply (c_in _ _ _ _ C). now rewrite I. }
    assert (KE : forall g, kt_susp (prvAddCurrentTaskToDelayedList k t n g) = kt_susp k /\ kt_pend (prvAddCurrentTaskToDelayedList k t n g) = kt_pend k /\
      kt_ready (prvAddCurrentTaskToDelayedList k t n g) = kt_ready k).
    { intros g. unfold prvAddCurrentTaskToDelayedList. destruct ((n =? portMAX_DELAY) && g); [cbn; auto|]. destruct (_ <? kt_tick k); cbn; auto. }
    destruct (KE f) as (K1 & K2 & K3). split; cbn [cl_now cl_pend cl_susp cl_task]; rewrite ?K1, ?K2, ?K3; auto.
    + apply core_sleep; auto.
    + intros x I. unfold set_task. destruct (Z.eqb_spec x t) as [EQ|NE]; [subst x; contradiction|auto].
  - rewrite <- (rel_view k c t R). unfold wake. destruct (blocked k t) eqn:B; [|eauto]. rewrite RS. eexists. split; [reflexivity|].
    destruct (Z.eqb_spec (cl_susp c) 0) as [S|S].
    + assert (RN : kt_ready k = []) by (apply RF; lia). split; cbn [cl_now cl_pend cl_susp cl_task take_out kt_susp kt_pend kt_ready]; auto.
      * change (core true (mkKt (kt_tick k) (kt_ovf k) (kt_delayed (take_out k (Z.eqb t))) (kt_over (take_out k (Z.eqb t)))
          (kt_forever (take_out k (Z.eqb t))) (kt_next k) (kt_susp k) (kt_pend k) (kt_ready k)) (cl_now c) (set_task (cl_task c) t Ready)).
        apply core_take with (st := cl_task c); auto.
        -- intros x G. unfold set_task. replace (x =? t) with true by lia. reflexivity.
        -- intros x G. unfold set_task. replace (x =? t) with false by lia. reflexivity.
        -- intros x s _ _ _ _. rewrite RN. intros [].
        -- intros x _ _ W. apply (woken_ready k c x R W).
      * rewrite RN. intros x [].
    + split; cbn [cl_now cl_pend cl_susp cl_task kt_susp kt_pend kt_ready]; auto; try lia.
      * assert (EN : forall x s, entry (kt_ready k) (cl_task c) x s -> entry (kt_ready k ++ [t]) (set_task (cl_task c) t Woken) x s).
        { intros x s E. unfold entry, set_task. destruct (Z.eqb_spec x t) as [EQ|NE].
          - subst x. right. split; [reflexivity|]. apply in_or_app. right. now left.
          - destruct E as [(E1 & E2)|(E1 & E2)].
            + left. split; [exact E1|]. intros I. apply in_app_or in I. destruct I as [I|[I|[]]]; [contradiction|congruence].
            + right. split; [exact E1|]. apply in_or_app. now left. }
        apply blocked_in in B. destruct C as [C1 C2 C3 C4 C5 C6 C7 C8 C9 C10].
        split; cbn [kt_tick kt_ovf kt_delayed kt_over kt_forever kt_next kt_ready]; auto.
        -- intros x w I. destruct (C5 x w I) as (B1 & B2 & E). auto.
        -- intros x w I. destruct (C6 x w I) as (B1 & E). auto.
        -- intros x K. unfold set_task in K. destruct (Z.eqb_spec x t) as [EQ|NE]; [subst x; exact B|]. now apply C8.
      * intros x I. unfold set_task. destruct (Z.eqb_spec x t) as [EQ|NE]; [reflexivity|]. apply in_app_or in I. destruct I as [I|[I|[]]]; [auto|congruence].
  - destruct (Z.eqb_spec (cl_susp c) 0) as [S|S].
    + assert (RN : kt_pend k = 0 /\ kt_ready k = []) by (apply RF; lia). destruct RN as (RN1 & RN2). assert (KS : kt_susp k = 0) by lia.
      destruct (core_tick k _ _ C KS RN2) as (k' & E & C' & S' & P' & R'). exists k'. split; [exact E|].
      split; cbn [cl_now cl_pend cl_susp cl_task]; auto; try lia.
      * intros _. split; [lia|exact R'].
      * rewrite R'. intros x [].
    + unfold xTaskIncrementTick. replace (kt_susp k =? 0) with false by lia. eexists. split; [reflexivity|].
      assert (U : u32 (kt_pend k + 1) = kt_pend k + 1) by (rewrite u32_M; apply Z.mod_small; lia). rewrite U.
      split; cbn [cl_now cl_pend cl_susp cl_task kt_susp kt_pend kt_ready]; auto; try lia. now apply core_same.
  - eexists. split; [reflexivity|]. split; cbn [cl_now cl_pend cl_susp cl_task with_susp kt_susp kt_pend kt_ready]; auto; try lia. now apply core_same.
  - unfold xTaskResumeAll. replace (kt_susp k =? 0) with false by lia. replace (cl_susp c =? 1) with (kt_susp k - 1 =? 0) by lia.
    destruct (Z.eqb_spec (kt_susp k - 1) 0) as [S|S].
    + set (k2 := mkKt _ _ _ _ _ _ 0 _ []).
      set (st' := fun t => match cl_task c t with Woken => Ready | s => s end).
      assert (C2 : core true k2 (cl_now c) st').
      { assert (GW : forall t, existsb (Z.eqb t) (kt_ready k) = true <-> In t (kt_ready k)).
        { intros t. rewrite existsb_exists. split; [intros (x & I & E); apply Z.eqb_eq in E; now subst x|]. intros I. exists t. split; [exact I|apply Z.eqb_refl]. }
        unfold k2. cbn [take_out with_susp kt_tick kt_ovf kt_delayed kt_over kt_forever kt_next kt_susp kt_pend kt_ready].
        apply (core_take k (cl_now c) (cl_task c) st' (fun t => existsb (Z.eqb t) (kt_ready k))); auto.
        - intros t G. unfold st'. apply GW in G. now rewrite (RW t G).
        - intros t G. unfold st'. destruct (cl_task c t) eqn:E; auto. exfalso. apply (woken_ready k c t R) in E. apply GW in E. congruence.
        - intros t G I W. apply (woken_ready k c t R), GW in W. congruence.
        - destruct (kt_ready k); auto. }
      destruct (core_ticks (Z.to_nat (kt_pend k)) k2 (cl_now c) st' C2 eq_refl eq_refl) as (k3 & -> & C3 & S3 & R3).
      eexists. split; [reflexivity|]. rewrite Z2Nat.id in C3 by lia. rewrite RP in C3.
      split; cbn [cl_now cl_pend cl_susp cl_task kt_susp kt_pend kt_ready]; auto; try lia.
      * now apply core_same.
      * rewrite R3. intros x [].
    + eexists. split; [reflexivity|]. split; cbn [cl_now cl_pend cl_susp cl_task with_susp kt_susp kt_pend kt_ready]; auto; try lia. now apply core_same.
Qed.

Lemma rel_run : forall tr k c, rel k c -> Forall sleep_ok tr -> matched (cl_susp c) (cl_pend c) tr ->
  exists k', kt_run k tr = Some k' /\ rel k' (cl_run c tr).
Proof.
  induction tr as [|ev tr IH]; intros k c R F M; cbn [kt_run]; [exists k; auto|].
  inversion F as [|? ? F1 F2]; subst. pose proof (r_susp _ _ R) as RS. pose proof (r_pend _ _ R) as RP. pose proof (r_susp0 _ _ R) as RS0.
  assert (MA : matched_at k ev /\ matched (cl_susp (cl_step c ev)) (cl_pend (cl_step c ev)) tr).
  { destruct ev as [t n f|t| | |]; cbn [matched matched_at cl_step] in *.
    - split; [exact I|]. destruct (asleep c t); exact M.
    - split; [exact I|]. destruct (asleep c t); exact M.
    - destruct (Z.eqb_spec (cl_susp c) 0) as [S|S]; cbn [cl_susp cl_pend]; [split; [left; lia|exact M]|]. split; [right; unfold M32; lia|tauto].
    - split; [exact I|]. exact M.
    - destruct M as (M1 & M2). split; [lia|]. destruct (Z.eqb_spec (cl_susp c) 1) as [E|E]; cbn [cl_susp cl_pend].
      + rewrite E in M2. exact M2.
      + exact M2. }
  destruct MA as (MA & M2). destruct (rel_step k c ev R F1 MA) as (k1 & -> & R1). exact (IH k1 (cl_step c ev) R1 F2 M2).
Qed.
Lemma rel_start : forall first, 0 <= first < M32 -> rel (kt_start first) (cl_start first).
Proof.
  intros first F. split; cbn; auto; try lia.
  split; cbn; try lia; auto.
  - symmetry. apply Z.mod_small. exact F.
  - symmetry. apply Z.div_small. exact F.
  - constructor.
Qed.

(** The clock alone. *)
Lemma cl_run_app : forall a b c, cl_run c (a ++ b) = cl_run (cl_run c a) b.
Proof. intros. apply fold_left_app. Qed.
Lemma cl_ticks : forall tr c, cl_now (cl_run c tr) + cl_pend (cl_run c tr) = cl_now c + cl_pend c + ticks tr.
Proof.
  induction tr as [|ev tr IH]; intros c; [unfold ticks; cbn; lia|]. change (cl_run c (ev :: tr)) with (cl_run (cl_step c ev) tr). rewrite IH.
  assert (T : ticks (ev :: tr) = ticks tr + match ev with TTick => 1 | _ => 0 end).
  { unfold ticks. cbn [filter]. destruct ev; cbn [length]; lia. }
  rewrite T. destruct ev; cbn [cl_step].
  - destruct (asleep c t); cbn; lia.
  - destruct (asleep c t); cbn; lia.
  - destruct (cl_susp c =? 0); cbn; lia.
  - cbn. lia.
  - destruct (cl_susp c =? 1); cbn; lia.
Qed.
Lemma cl_left_alone : forall tr c t s, cl_task c t = s -> s <> Woken -> Forall (left_alone t) tr -> cl_task (cl_run c tr) t = s.
Proof.
  induction tr as [|ev tr IH]; intros c t s E NW F; [exact E|]. inversion F as [|? ? F1 F2]; subst.
  change (cl_run c (ev :: tr)) with (cl_run (cl_step c ev) tr). apply IH; auto.
  destruct ev as [u n f|u| | |]; cbn [cl_step left_alone] in *.
  - destruct (asleep c u); [reflexivity|]. cbn. unfold set_task. destruct (Z.eqb_spec t u); [congruence|reflexivity].
  - destruct (asleep c u); [|reflexivity]. cbn. unfold set_task. destruct (Z.eqb_spec t u); [congruence|reflexivity].
  - destruct (cl_susp c =? 0); reflexivity.
  - reflexivity.
  - destruct (cl_susp c =? 1); cbn; [|reflexivity]. destruct (cl_task c t); congruence.
Qed.

(** ** Time-outs *)
Lemma check_ok : forall k last now n, 0 <= last -> at_time now k -> 0 <= now - last < M32 -> 0 <= n < portMAX_DELAY ->
  xTaskCheckForTimeOut k (mkTo (last / M32) (last mod M32) n) =
  if n <=? now - last then (true, snd (xTaskCheckForTimeOut k (mkTo (last / M32) (last mod M32) n)))
  else (false, mkTo (now / M32) (now mod M32) (n - (now - last))).
Proof.
  intros k last now n L (T & O) G N. unfold xTaskCheckForTimeOut, set_timeout. cbn [to_wait to_ovf to_entered]. fold M32 in T, O.
  unfold portMAX_DELAY in N. assert (N2 : 0 <= n < M32) by (unfold M32; lia). replace (n =? portMAX_DELAY) with false by (unfold portMAX_DELAY; lia). rewrite T, O.
  pose proof (Z.mod_pos_bound last M32 M32_pos) as LB. pose proof (Z.mod_pos_bound now M32 M32_pos) as NB.
  assert (DL : last = M32 * (last / M32) + last mod M32) by (apply Z.div_mod; unfold M32; lia).
  assert (DN : now = M32 * (now / M32) + now mod M32) by (apply Z.div_mod; unfold M32; lia).
  assert (EL : u32 (now mod M32 - last mod M32) = now - last).
  { rewrite u32_M, <- Zminus_mod. apply Z.mod_small. exact G. }
  rewrite EL.
  assert (NW : negb (now / M32 =? last / M32) && (last mod M32 <=? now mod M32) = false).
  { destruct (Z.eqb_spec (now / M32) (last / M32)) as [E|E]; [reflexivity|]. cbn [negb andb]. apply Z.leb_gt.
    assert (Q : now / M32 = last / M32 + 1); [|rewrite Q in DN; lia].
    assert (last / M32 <= now / M32) by (apply Z.div_le_mono; lia).
    assert (now / M32 <= (last + M32) / M32) by (apply Z.div_le_mono; lia).
    replace (last + M32) with (last + 1 * M32) in * by lia. rewrite Z.div_add in * by (unfold M32; lia). lia. }
  rewrite NW. destruct (Z.ltb_spec (now - last) n) as [H|H].
  - replace (n <=? now - last) with false by lia. do 2 f_equal. rewrite u32_M. apply Z.mod_small. lia.
  - replace (n <=? now - last) with true by lia. reflexivity.
Qed.
Lemma checks_ok : forall ks ns start last n, 0 <= start <= last -> Forall2 at_time ns ks -> close_times last ns -> 0 <= n - (last - start) ->
  0 <= n < portMAX_DELAY -> checks (mkTo (last / M32) (last mod M32) (n - (last - start))) ks = right_answers start n ns.
Proof.
  induction ks as [|k ks IH]; intros ns start last n L F C P N; inversion F as [|now ? ns' ? A1 A2]; subst; [reflexivity|].
  destruct C as (C1 & C2). cbn [checks right_answers]. cbv zeta. rewrite (check_ok k last now (n - (last - start))); [|lia|exact A1|exact C1|lia].
  destruct (Z.leb_spec (n - (last - start)) (now - last)) as [H|H].
  - replace (n <=? now - start) with true by lia. reflexivity.
  - replace (n <=? now - start) with false by lia. cbn [fst snd]. f_equal.
    replace (n - (last - start) - (now - last)) with (n - (now - start)) by lia. apply IH; auto; lia.
Qed.
