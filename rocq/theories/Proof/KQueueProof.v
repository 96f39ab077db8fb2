From Coq Require Import ZifyBool ZifyNat.
From Verif.Base Require Import Words.
From Verif.Model Require Import KQueue.
From Verif.Spec Require Import KQueueSpec.
Open Scope Z_scope.

(** ** The ring of items *)
Lemma mod_next : forall x n, 0 < n -> (x + 1) mod n = if x mod n + 1 =? n then 0 else x mod n + 1.
Proof.
  intros x n H. pose proof (Z.mod_pos_bound x n H). pose proof (Z.div_mod x n).
  destruct (Z.eqb_spec (x mod n + 1) n) as [E|E].
  - replace (x + 1) with ((x / n + 1) * n) by lia. now apply Z.mod_mul; lia.
  - replace (x + 1) with (x mod n + 1 + (x / n) * n) by lia. rewrite Z.mod_add by lia. apply Z.mod_small. lia.
Qed.
Lemma mod_differs : forall a b n, a < b < a + n -> a mod n <> b mod n.
Proof.
  intros a b n H E. assert (N : n <> 0) by lia.
  assert (D : (b - a) mod n = 0) by (rewrite Zminus_mod, E, Z.sub_diag; apply Zmod_0_l).
  rewrite Z.mod_small in D; lia.
Qed.

Lemma skipn_twice : forall (A : Type) (a b : nat) (l : list A), skipn a (skipn b l) = skipn (b + a) l.
Proof.
  intros A a b. induction b as [|b IH]; intros l; [reflexivity|]. destruct l as [|x l]; [now rewrite !skipn_nil|].
  cbn [Nat.add skipn]. apply IH.
Qed.
Definition slot_of (n : nat) (m : list Z) (j : nat) : list Z := firstn n (skipn (j * n) m).
Lemma slot_store : forall n m w j x, length x = n -> ((w + 1) * n <= length m)%nat ->
  slot_of n (firstn (w * n) m ++ x ++ skipn (w * n + n) m) j = if (j =? w)%nat then x else slot_of n m j.
Proof.
  intros n m w j x X L. unfold slot_of. destruct (Nat.eqb_spec j w) as [->|NE].
  - rewrite skipn_app, firstn_length, Nat.min_l by lia.
    rewrite skipn_all2 by (rewrite firstn_length; lia). rewrite Nat.sub_diag. cbn [app]. rewrite skipn_O, firstn_app.
    rewrite X, Nat.sub_diag, firstn_O, app_nil_r. rewrite <- X. apply firstn_all.
  - destruct (Nat.lt_ge_cases j w) as [LT|GE].
    + assert (J : ((j + 1) * n <= w * n)%nat) by (apply Nat.mul_le_mono_r; lia).
      rewrite skipn_app, firstn_app, skipn_length, firstn_length, Nat.min_l by lia.
      replace (n - (w * n - j * n))%nat with O by lia. rewrite firstn_O, app_nil_r.
      rewrite skipn_firstn_comm, firstn_firstn. f_equal. lia.
    + assert (J : ((w + 1) * n <= j * n)%nat) by (apply Nat.mul_le_mono_r; lia).
      rewrite skipn_app, firstn_length, Nat.min_l by lia.
      rewrite skipn_all2 by (rewrite firstn_length; lia). cbn [app].
      rewrite skipn_app, X. rewrite skipn_all2 by lia. cbn [app]. rewrite skipn_twice. do 2 f_equal. lia.
Qed.

(** [l]: the items the queue holds, next one first. *)
Record ring_inv (len size : Z) (q : kq) (l : list (list Z)) : Prop := {
  ri_len : k_len q = len; ri_size : k_size q = size;
  ri_mem : Z.of_nat (length (k_mem q)) = len * size;
  ri_count : k_count q = Z.of_nat (length l);
  ri_fits : Z.of_nat (length l) <= len;
  ri_items : Forall (fun x => Z.of_nat (length x) = size) l;
  ri_ring : exists r, 0 <= r < len /\ k_read q = size * r /\
    k_write q = size * ((r + 1 + Z.of_nat (length l)) mod len) /\
    forall i, (i < length l)%nat ->
      slot_of (Z.to_nat size) (k_mem q) (Z.to_nat ((r + 1 + Z.of_nat i) mod len)) = nth i l [] }.

Section Ring.
  Variables (len size : Z).
  Hypothesis (HL : 0 < len < 2 ^ 32) (HS : 0 <= size) (HB : len * size < 2 ^ 32).

  Lemma tail_is : forall q l, ring_inv len size q l -> k_tail q = len * size.
  Proof.
    intros q l R. unfold k_tail. rewrite (ri_len _ _ _ _ R), (ri_size _ _ _ _ R). unfold u32. apply Z.mod_small.
    split; [apply Z.mul_nonneg_nonneg; lia|lia].
  Qed.

  Lemma copy_to_ok : forall q l x, ring_inv len size q l -> Z.of_nat (length l) < len -> Z.of_nat (length x) = size ->
    exists q', prvCopyDataToQueue q x = Some q' /\ ring_inv len size q' (l ++ [x]) /\
      k_rx q' = k_rx q /\ k_tx q' = k_tx q /\ k_senders q' = k_senders q /\ k_receivers q' = k_receivers q.
  Proof.
    intros q l x R F X. pose proof (tail_is q l R) as T. destruct R as [R1 R2 R3 R4 R5 R6 (r & RR & R7 & R8 & R9)].
    assert (C : u32 (k_count q + 1) = Z.of_nat (length (l ++ [x]))).
    { rewrite app_length. cbn [length]. unfold u32. rewrite Z.mod_small; lia. }
    assert (IT : Forall (fun y => Z.of_nat (length y) = size) (l ++ [x])) by (apply Forall_app; auto).
    assert (FT : Z.of_nat (length (l ++ [x])) <= len) by (rewrite app_length; cbn [length]; lia).
    set (w := (r + 1 + Z.of_nat (length l)) mod len) in *.
    assert (W : 0 <= w < len) by (apply Z.mod_pos_bound; lia).
    assert (WN : (r + 1 + Z.of_nat (length (l ++ [x]))) mod len = if w + 1 =? len then 0 else w + 1).
    { rewrite app_length. cbn [length]. replace (r + 1 + Z.of_nat (length l + 1)) with (r + 1 + Z.of_nat (length l) + 1) by lia.
      rewrite mod_next by lia. reflexivity. }
    unfold prvCopyDataToQueue. rewrite R2. destruct (Z.eqb_spec size 0) as [Z0|NZ].
    - eexists. split; [reflexivity|]. cbn [k_rx k_tx k_senders k_receivers]. split; [|auto].
      split; cbn [k_mem k_write k_read k_count k_len k_size]; auto; try congruence.
      exists r. split; [exact RR|]. split; [exact R7|]. split; [rewrite R8, Z0; lia|].
      intros i I. unfold slot_of. rewrite Z0. cbn [Z.to_nat firstn].
      apply Forall_nth with (i := i) (d := []) in IT; [|exact I]. destruct (nth i (l ++ [x]) []); [reflexivity|cbn [length] in IT; lia].
    - assert (SP : 0 < size) by lia.
      assert (WB : size * w + size <= len * size).
      { replace (size * w + size) with ((w + 1) * size) by lia. apply Z.mul_le_mono_nonneg_r; lia. }
      assert (W0 : 0 <= size * w) by (apply Z.mul_nonneg_nonneg; lia).
      unfold rd_block. rewrite X. replace ((0 <=? 0) && (0 <=? size) && (0 + size <=? size)) with true by lia.
      rewrite (Z2Nat.inj_0), skipn_O. rewrite firstn_all2 by lia. unfold wr_block. rewrite X, R8, R3.
      replace ((0 <=? size * w) && (size * w + size <=? len * size)) with true by lia.
      eexists. split; [reflexivity|]. cbn [k_rx k_tx k_senders k_receivers]. split; [|auto].
      set (n := Z.to_nat size). set (j := Z.to_nat w).
      assert (JN : Z.to_nat (size * w) = (j * n)%nat) by (unfold j, n; rewrite <- Z2Nat.inj_mul by lia; f_equal; lia).
      assert (XN : length x = n) by (unfold n; lia).
      assert (JL : ((j + 1) * n <= length (k_mem q))%nat).
      { assert ((j + 1) * n = Z.to_nat (size * w + size))%nat; [|lia]. rewrite Z2Nat.inj_add, JN by lia. fold n. lia. }
      split; cbn [k_mem k_write k_read k_count k_len k_size]; auto; try congruence.
      + rewrite JN, !app_length, firstn_length, skipn_length, XN, <- R3, Nat.min_l by lia. lia.
      + exists r. split; [exact RR|]. split; [exact R7|]. rewrite T, WN. split.
        * destruct (Z.eqb_spec (w + 1) len) as [E|E].
          -- replace (len * size <=? size * w + size) with true; [lia|]. symmetry. apply Z.leb_le. rewrite <- E. lia.
          -- replace (len * size <=? size * w + size) with false; [lia|]. symmetry. apply Z.leb_gt.
             replace (size * w + size) with ((w + 1) * size) by lia. apply Z.mul_lt_mono_pos_r; lia.
        * intros i I. rewrite JN, XN, slot_store by auto. rewrite app_length in I. cbn [length] in I.
          destruct (Nat.eqb_spec (Z.to_nat ((r + 1 + Z.of_nat i) mod len)) j) as [E|E].
          -- destruct (Nat.eq_dec i (length l)) as [->|NE]; [rewrite app_nth2, Nat.sub_diag by lia; reflexivity|].
             exfalso. unfold j, w in E. assert (B1 := Z.mod_pos_bound (r + 1 + Z.of_nat i) len).
             apply Z2Nat.inj in E; [|lia|lia]. revert E. apply mod_differs. lia.
          -- destruct (Nat.eq_dec i (length l)) as [->|NE]; [exfalso; apply E; reflexivity|].
             rewrite app_nth1 by lia. apply R9. lia.
  Qed.

  Lemma copy_from_ok : forall q l, ring_inv len size q l -> l <> [] ->
    exists q' x t, l = x :: t /\ prvCopyDataFromQueue q = Some (q', x) /\ ring_inv len size q' t /\
      k_rx q' = k_rx q /\ k_tx q' = k_tx q /\ k_senders q' = k_senders q /\ k_receivers q' = k_receivers q.
  Proof.
    intros q l R NE. destruct l as [|x t]; [congruence|]. pose proof (tail_is q _ R) as T.
    destruct R as [R1 R2 R3 R4 R5 R6 (r & RR & R7 & R8 & R9)]. inversion R6 as [|? ? X R6']; subst.
    cbn [length] in *.
    assert (C : u32 (k_count q - 1) = Z.of_nat (length t)) by (unfold u32; rewrite Z.mod_small; lia).
    set (r' := (r + 1) mod k_len q).
    assert (RB : 0 <= r' < k_len q) by (apply Z.mod_pos_bound; lia).
    assert (RN : r' = if r + 1 =? k_len q then 0 else r + 1).
    { unfold r'. rewrite mod_next by lia. rewrite (Z.mod_small r) by lia. reflexivity. }
    assert (SH : forall i, (r' + 1 + i) mod k_len q = (r + 1 + (i + 1)) mod k_len q).
    { intros i. unfold r'. replace ((r + 1) mod k_len q + 1 + i) with ((r + 1) mod k_len q + (i + 1)) by lia.
      apply Z.add_mod_idemp_l. lia. }
    assert (K9 : forall i, (i < length t)%nat ->
      slot_of (Z.to_nat (k_size q)) (k_mem q) (Z.to_nat ((r' + 1 + Z.of_nat i) mod k_len q)) = nth i t []).
    { intros i I. rewrite SH. specialize (R9 (S i)). replace (Z.of_nat i + 1) with (Z.of_nat (S i)) by lia.
      rewrite R9 by lia. reflexivity. }
    assert (K8 : k_write q = k_size q * ((r' + 1 + Z.of_nat (length t)) mod k_len q)).
    { rewrite R8, SH. do 2 f_equal. lia. }
    unfold prvCopyDataFromQueue. destruct (Z.eqb_spec (k_size q) 0) as [Z0|NZ].
    - exists (mkKq (k_mem q) (k_write q) (k_read q) (u32 (k_count q - 1)) (k_len q) (k_size q) (k_rx q) (k_tx q) (k_senders q) (k_receivers q)), x, t.
      split; [reflexivity|]. split; [destruct x; [reflexivity|cbn [length] in X; lia]|].
      cbn [k_rx k_tx k_senders k_receivers]. split; [|auto].
      split; cbn [k_mem k_write k_read k_count k_len k_size]; auto; try lia.
      exists r'. split; [exact RB|]. split; [rewrite R7, Z0; lia|]. split; [exact K8|exact K9].
    - assert (SP : 0 < k_size q) by lia.
      assert (RD : (if k_tail q <=? k_read q + k_size q then 0 else k_read q + k_size q) = k_size q * r').
      { rewrite T, R7, RN. destruct (Z.eqb_spec (r + 1) (k_len q)) as [E|E].
        - replace (k_len q * k_size q <=? k_size q * r + k_size q) with true; [lia|]. symmetry. apply Z.leb_le. rewrite <- E. lia.
        - replace (k_len q * k_size q <=? k_size q * r + k_size q) with false; [lia|]. symmetry. apply Z.leb_gt.
          replace (k_size q * r + k_size q) with ((r + 1) * k_size q) by lia. apply Z.mul_lt_mono_pos_r; lia. }
      rewrite RD.
      assert (WB : k_size q * r' + k_size q <= k_len q * k_size q).
      { replace (k_size q * r' + k_size q) with ((r' + 1) * k_size q) by lia. apply Z.mul_le_mono_nonneg_r; lia. }
      assert (W0 : 0 <= k_size q * r') by (apply Z.mul_nonneg_nonneg; lia).
      unfold rd_block. rewrite R3.
      replace ((0 <=? k_size q * r') && (0 <=? k_size q) && (k_size q * r' + k_size q <=? k_len q * k_size q)) with true by lia.
      exists (mkKq (k_mem q) (k_write q) (k_size q * r') (u32 (k_count q - 1)) (k_len q) (k_size q) (k_rx q) (k_tx q) (k_senders q) (k_receivers q)), x, t.
      split; [reflexivity|]. split.
      { specialize (R9 O). cbn [nth] in R9. rewrite <- R9 by lia. unfold slot_of. do 4 f_equal.
        rewrite Z.add_0_r. fold r'. rewrite <- Z2Nat.inj_mul by lia. f_equal. lia. }
      cbn [k_rx k_tx k_senders k_receivers]. split; [|auto].
      split; cbn [k_mem k_write k_read k_count k_len k_size]; auto; try lia.
      exists r'. auto.
  Qed.

  Lemma new_ok : forall mem, Z.of_nat (length mem) = len * size -> ring_inv len size (queue_new mem len size) [].
  Proof.
    intros mem M. unfold queue_new. split; cbn [k_mem k_write k_read k_count k_len k_size length]; auto; try lia.
    exists (len - 1). split; [lia|]. split; [|split].
    - unfold u32. rewrite Z.mod_small; [lia|]. split; [apply Z.mul_nonneg_nonneg; lia|]. nia.
    - replace (len - 1 + 1 + Z.of_nat 0) with (1 * len) by lia. rewrite Z.mod_mul by lia. lia.
    - intros i I. lia.
  Qed.
End Ring.

(** ** Every history: items in order *)
Definition op_ok (size : Z) (o : kop) : Prop := match o with Send x => Z.of_nat (length x) = size | Receive => True end.
Definition pc_ok (size : Z) (p : kpc) : Prop :=
  match p with
  | Out | Late => True
  | Try o _ | Again o _ | Locked o _ | UnlockTx o _ _ | UnlockRx o _ _ | Blocked o _ => op_ok size o
  end.
Definition base_inv (len size : Z) (s : ksys) : Prop :=
  (exists l, accepted (ks_log s) = delivered (ks_log s) ++ l /\ ring_inv len size (ks_q s) l) /\
  (forall t, pc_ok size (ks_pc s t)).

Lemma accepted_app : forall a b, accepted (a ++ b) = accepted a ++ accepted b.
Proof. intros. apply flat_map_app. Qed.
Lemma delivered_app : forall a b, delivered (a ++ b) = delivered a ++ delivered b.
Proof. intros. apply flat_map_app. Qed.
Lemma put_pc_ok : forall size f t p, (forall x, pc_ok size (f x)) -> pc_ok size p -> forall x, pc_ok size (put_pc f t p x).
Proof. intros size f t p F P x. unfold put_pc. destruct (x =? t); auto. Qed.
Lemma ring_lists : forall len size q l rx tx a b, ring_inv len size q l -> ring_inv len size (with_locks q rx tx a b) l.
Proof. intros len size q l rx tx a b [R1 R2 R3 R4 R5 R6 R7]. split; auto. Qed.
Lemma wake_sender_is : forall q, wake_sender q = with_locks q (k_rx q) (k_tx q) (tl (k_senders q)) (k_receivers q).
Proof. reflexivity. Qed.
Lemma wake_receiver_is : forall q, wake_receiver q = with_locks q (k_rx q) (k_tx q) (k_senders q) (tl (k_receivers q)).
Proof. reflexivity. Qed.

Section Base.
  Variables (prio : Z -> Z) (len size : Z).
  Hypothesis (HL : 0 < len < 2 ^ 32) (HS : 0 <= size) (HB : len * size < 2 ^ 32).

  (** A success adds or removes an item; anything else leaves the items alone. *)
  Lemma base_sent : forall s x q' pc u o, base_inv len size s -> (k_count (ks_q s) <? k_len (ks_q s)) = true ->
    Z.of_nat (length x) = size -> prvCopyDataToQueue (ks_q s) x = Some q' -> (forall t, pc_ok size (pc t)) ->
    forall rx tx a b, base_inv len size (mkKs (with_locks q' rx tx a b) pc u (ks_log s ++ [(o, Sent x)])).
  Proof.
    intros s x q' pc u o [(l & A & R) P] C X K PC rx tx a b. split; [|exact PC]. cbn [ks_q ks_log].
    assert (F : Z.of_nat (length l) < len).
    { rewrite <- (ri_count _ _ _ _ R), <- (ri_len _ _ _ _ R). apply Z.ltb_lt. exact C. }
    destruct (copy_to_ok len size HL HS HB _ _ _ R F X) as (q2 & K2 & R2 & _). rewrite K in K2. injection K2 as <-.
    exists (l ++ [x]). split; [|now apply ring_lists]. rewrite accepted_app, delivered_app, A. cbn. now rewrite app_nil_r, app_assoc.
  Qed.
  Lemma base_got : forall s p pc u o, base_inv len size s -> (0 <? k_count (ks_q s)) = true ->
    prvCopyDataFromQueue (ks_q s) = Some p -> (forall t, pc_ok size (pc t)) ->
    forall rx tx a b, base_inv len size (mkKs (with_locks (fst p) rx tx a b) pc u (ks_log s ++ [(o, Got (snd p))])).
  Proof.
    intros s p pc u o [(l & A & R) P] C K PC rx tx a b. split; [|exact PC]. cbn [ks_q ks_log].
    assert (F : l <> []). { intros ->. rewrite (ri_count _ _ _ _ R) in C. discriminate. }
    destruct (copy_from_ok len size HL HS HB _ _ R F) as (q2 & x & l2 & E & K2 & R2 & _). rewrite K in K2. injection K2 as ->.
    exists l2. cbn [fst snd]. split; [|now apply ring_lists]. rewrite accepted_app, delivered_app, A, E. cbn.
    now rewrite app_nil_r, <- app_assoc.
  Qed.
  Definition quiet (r : kres) : Prop := r = Full \/ r = Empty.
  Lemma base_quiet : forall s pc u log rx tx a b, base_inv len size s -> (forall t, pc_ok size (pc t)) ->
    (log = ks_log s \/ exists o r, quiet r /\ log = ks_log s ++ [(o, r)]) ->
    base_inv len size (mkKs (with_locks (ks_q s) rx tx a b) pc u log).
  Proof.
    intros s pc u log rx tx a b [(l & A & R) P] PC L. split; [|exact PC]. exists l. cbn [ks_q ks_log].
    split; [|now apply ring_lists].
    destruct L as [->|(o & r & Q & ->)]; [exact A|]. rewrite accepted_app, delivered_app, A. destruct Q as [-> | ->]; cbn; now rewrite !app_nil_r.
  Qed.
  Lemma locks_same : forall q, q = with_locks q (k_rx q) (k_tx q) (k_senders q) (k_receivers q).
  Proof. intros []. reflexivity. Qed.
  Lemma to_some : forall s x, base_inv len size s -> (k_count (ks_q s) <? k_len (ks_q s)) = true -> Z.of_nat (length x) = size ->
    exists q', prvCopyDataToQueue (ks_q s) x = Some q'.
  Proof.
    intros s x [(l & A & R) P] C X. assert (F : Z.of_nat (length l) < len).
    { rewrite <- (ri_count _ _ _ _ R), <- (ri_len _ _ _ _ R). apply Z.ltb_lt. exact C. }
    destruct (copy_to_ok len size HL HS HB _ _ _ R F X) as (q2 & K2 & _). eauto.
  Qed.
  Lemma from_some : forall s, base_inv len size s -> (0 <? k_count (ks_q s)) = true -> exists p, prvCopyDataFromQueue (ks_q s) = Some p.
  Proof.
    intros s [(l & A & R) P] C. assert (F : l <> []). { intros ->. rewrite (ri_count _ _ _ _ R) in C. discriminate. }
    destruct (copy_from_ok len size HL HS HB _ _ R F) as (q2 & x & l2 & E & K2 & _). eauto.
  Qed.

  Lemma try_ok : forall s t o w, base_inv len size s -> op_ok size o ->
    exists s', try_op s t o w = Some s' /\ base_inv len size s'.
  Proof.
    intros s t o w B O. pose proof (proj2 B) as P. unfold try_op.
    assert (FAIL : forall r, quiet r -> base_inv len size
      (if w then mkKs (ks_q s) (put_pc (ks_pc s) t (Again o w)) (ks_susp s) (ks_log s)
       else mkKs (ks_q s) (put_pc (ks_pc s) t Out) (ks_susp s) (ks_log s ++ [(Some t, r)]))).
    { intros r Q. rewrite (locks_same (ks_q s)). destruct w.
      - apply base_quiet; auto. apply put_pc_ok; auto.
      - apply base_quiet; eauto. apply put_pc_ok; cbn; auto. }
    destruct o as [x|].
    - destruct (k_count (ks_q s) <? k_len (ks_q s)) eqn:C.
      + destruct (to_some s x B C O) as (q' & K). rewrite K. eexists. split; [reflexivity|]. rewrite wake_receiver_is.
        eapply base_sent; eauto. apply put_pc_ok; cbn; auto.
      + eexists. split; [reflexivity|]. apply FAIL. now left.
    - destruct (0 <? k_count (ks_q s)) eqn:C.
      + destruct (from_some s B C) as (p & K). rewrite K. eexists. split; [reflexivity|]. rewrite wake_sender_is.
        eapply base_got; eauto. apply put_pc_ok; cbn; auto.
      + eexists. split; [reflexivity|]. apply FAIL. now right.
  Qed.

  Lemma place_is : forall q t o, exists a b, place prio q t o = with_locks q (k_rx q) (k_tx q) a b.
  Proof. intros q t [x|]; cbn; eauto. Qed.
  Lemma ks_step_ok : forall s ev, base_inv len size s -> item_ok size ev ->
    exists s', ks_step prio s ev = Some s' /\ base_inv len size s'.
  Proof.
    intros s ev B I. pose proof (proj2 B) as P.
    assert (GO : forall rx tx a b t p u, pc_ok size p ->
      exists s', Some (mkKs (with_locks (ks_q s) rx tx a b) (put_pc (ks_pc s) t p) u (ks_log s)) = Some s' /\ base_inv len size s').
    { intros rx tx a b t p u Q. eexists. split; [reflexivity|]. apply base_quiet; auto. apply put_pc_ok; auto. }
    assert (GO' : forall t p u, pc_ok size p ->
      exists s', Some (mkKs (ks_q s) (put_pc (ks_pc s) t p) u (ks_log s)) = Some s' /\ base_inv len size s').
    { intros t p u Q. rewrite (locks_same (ks_q s)). apply GO. exact Q. }
    destruct ev as [t o w|t e|x| |t]; cbn [ks_step item_ok] in *.
    - destruct (ks_pc s t); eauto. destruct (may_run s t); [|eauto]. apply GO'. destruct o; cbn; auto.
    - destruct (may_run s t); eauto. unfold task_step. specialize (P t). destruct (ks_pc s t) as [|o w|o w|o w|o w n|o w n|o w|] eqn:E; cbn [pc_ok] in P.
      + eauto.
      + now apply try_ok.
      + apply GO. exact P.
      + destruct e; [now apply GO'|]. destruct (unmet (ks_q s) o); [|now apply GO'].
        destruct (place_is (ks_q s) t o) as (a & b & ->). now apply GO.
      + apply GO. exact P.
      + destruct n; try (apply GO; exact P). destruct o; [|apply GO; exact P].
        eexists. split; [reflexivity|]. apply base_quiet; auto; [apply put_pc_ok; cbn; [apply B|auto]|].
        right. exists (Some t), Full. split; [now left|reflexivity].
      + destruct (listed (ks_q s) t o); eauto. now apply try_ok.
      + destruct (k_count (ks_q s) =? 0); [|now apply GO'].
        eexists. split; [reflexivity|]. rewrite (locks_same (ks_q s)). apply base_quiet; auto; [apply put_pc_ok; cbn; [apply B|auto]|].
        right. exists (Some t), Empty. split; [now right|reflexivity].
    - unfold isr_send. destruct (k_count (ks_q s) <? k_len (ks_q s)) eqn:C.
      + destruct (to_some s x B C I) as (q' & K). rewrite K. eexists. split; [reflexivity|].
        destruct (k_tx (ks_q s) =? queueUNLOCKED); [rewrite wake_receiver_is|]; eapply base_sent; eauto.
      + eexists. split; [reflexivity|]. rewrite (locks_same (ks_q s)). apply base_quiet; auto.
        right. exists None, Full. split; [now left|reflexivity].
    - unfold isr_receive. destruct (0 <? k_count (ks_q s)) eqn:C.
      + destruct (from_some s B C) as (p & K). rewrite K. eexists. split; [reflexivity|].
        destruct (k_rx (ks_q s) =? queueUNLOCKED); [rewrite wake_sender_is|]; eapply base_got; eauto.
      + eexists. split; [reflexivity|]. rewrite (locks_same (ks_q s)). apply base_quiet; auto.
        right. exists None, Empty. split; [now right|reflexivity].
    - eexists. split; [reflexivity|]. unfold tick_out. destruct (ks_susp s); [exact B|]. apply base_quiet; auto.
  Qed.

  Lemma ks_run_ok : forall tr s, base_inv len size s -> Forall (item_ok size) tr ->
    exists s', ks_run prio s tr = Some s' /\ base_inv len size s'.
  Proof.
    induction tr as [|ev tr IH]; intros s B F; cbn [ks_run]; [eauto|]. inversion F; subst.
    destruct (ks_step_ok s ev B) as (s1 & -> & B1); auto.
  Qed.
  Lemma ks_init_ok : forall mem, Z.of_nat (length mem) = len * size -> base_inv len size (ks_init mem len size).
  Proof.
    intros mem M. split; [|cbn; auto]. exists []. split; [reflexivity|]. apply new_ok; auto.
  Qed.
  Lemma base_held : forall s, base_inv len size s ->
    accepted (ks_log s) = delivered (ks_log s) ++ held (ks_log s) /\ ring_inv len size (ks_q s) (held (ks_log s)).
  Proof.
    intros s [(l & A & R) _]. assert (E : held (ks_log s) = l).
    { unfold held. rewrite A, skipn_app, skipn_all, Nat.sub_diag. reflexivity. }
    rewrite E. auto.
  Qed.
End Base.
