From Verif.Model Require Import GpioPorts.
From Verif.Spec Require Import GpioPortsSpec.
From Coq Require Import Lia ZifyBool.

Lemma mask_bit p k : 0 <= pn_num p -> 0 <= k -> Z.testbit (pin_mask p) k = (k =? pn_num p).
Proof. intros P K. unfold pin_mask. rewrite Z.pow2_bits_eqb by exact P. apply Z.eqb_sym. Qed.

Lemma low_bit v k : 0 <= k < 16 -> Z.testbit (Z.land v 65535) k = Z.testbit v k.
Proof.
  intros K. change 65535 with (Z.ones 16). rewrite Z.land_spec, Z.testbit_ones_nonneg by lia.
  replace (k <? 16) with true by lia. apply Bool.andb_true_r.
Qed.

Lemma bsrr_bit odr v k : 0 <= k < 16 ->
  Z.testbit (bsrr odr v) k = if Z.testbit v k then true else if Z.testbit v (k + 16) then false else Z.testbit odr k.
Proof.
  intros K. unfold bsrr. rewrite Z.lor_spec, Z.ldiff_spec, low_bit, Z.shiftr_spec by lia.
  destruct (Z.testbit v k), (Z.testbit v (k + 16)), (Z.testbit odr k); reflexivity.
Qed.

Lemma write_bit odr p v k : real_pin p -> 0 <= k < 16 ->
  Z.testbit (bsrr odr (write_value p v)) k = if k =? pn_num p then v else Z.testbit odr k.
Proof.
  intros [P1 P2] K. rewrite bsrr_bit by exact K. unfold write_value. destruct v.
  - rewrite !mask_bit by lia. destruct (Z.eqb_spec k (pn_num p)); [reflexivity|].
    replace (k + 16 =? pn_num p) with false by lia. reflexivity.
  - rewrite !Z.shiftl_spec by lia. rewrite Z.testbit_neg_r by lia. rewrite mask_bit by lia.
    replace (k + 16 - 16) with k by lia. reflexivity.
Qed.

Lemma toggle_bit odr odr' p k : real_pin p -> 0 <= k < 16 ->
  Z.testbit (bsrr odr (toggle_value p odr')) k =
  if k =? pn_num p then negb (Z.testbit odr' k) else Z.testbit odr k.
Proof.
  intros [P1 P2] K. rewrite bsrr_bit by exact K. unfold toggle_value.
  rewrite !Z.lor_spec, !Z.shiftl_spec by lia. rewrite (Z.testbit_neg_r _ (k - 16)) by lia.
  replace (k + 16 - 16) with k by lia.
  rewrite !Z.land_spec, !Z.lnot_spec, !mask_bit by lia. cbn [andb orb].
  replace (k + 16 =? pn_num p) with false by lia. rewrite !Bool.andb_false_r, Bool.orb_false_r.
  destruct (Z.eqb_spec k (pn_num p)) as [E|E]; [|now rewrite !Bool.andb_false_r].
  rewrite !Bool.andb_true_r. destruct (Z.testbit odr' k); reflexivity.
Qed.

Lemma put_same l i t x : nth_error l i = Some x -> nth_error (put_task l i t) i = Some t.
Proof. revert i. induction l as [|y l IH]; intros [|i] H; try discriminate; [reflexivity|]. now apply IH. Qed.
Lemma put_other l i j t : i <> j -> nth_error (put_task l i t) j = nth_error l j.
Proof.
  revert i j. induction l as [|y l IH]; intros [|i] [|j] H; cbn [put_task nth_error]; try reflexivity; try congruence.
  apply IH. congruence.
Qed.

Lemma pin_ext a b : pn_port a = pn_port b -> pn_num a = pn_num b -> a = b.
Proof. destruct a as [a1 a2], b as [b1 b2]. cbn [pn_port pn_num]. congruence. Qed.

Lemma pin_beq_true a b : pin_beq a b = true <-> a = b.
Proof.
  unfold pin_beq. destruct a as [a1 a2], b as [b1 b2]. cbn [pn_port pn_num]. split.
  - intros H. apply andb_prop in H. destruct H as [H1 H2]. f_equal; lia.
  - intros H. injection H as -> ->. rewrite !Z.eqb_refl. reflexivity.
Qed.

(** Invariant for a pin with one owner. *)
Section Inv.
  Variables (progs : list (list pin_op)) (odr0 : Z -> Z) (i : nat) (p : pin) (l0 : list pin_op).
  Hypothesis RP : real_pin p.
  Hypothesis ALL : forall l o, In l progs -> In o l -> real_pin (op_pin o).
  Hypothesis OWN : owner progs i p.
  Hypothesis HI : nth_error progs i = Some l0.

  Definition inv (w : gworld) : Prop :=
    (forall j t, nth_error (gw_tasks w) j = Some t -> exists l ops, nth_error progs j = Some l /\ l = ops ++ gt_todo t) /\
    exists t ops, nth_error (gw_tasks w) i = Some t /\ l0 = ops ++ gt_todo t /\
      level w p = level_after p (Z.testbit (odr0 (pn_port p)) (pn_num p)) ops /\
      (forall o q r, gt_odr t = Some o -> gt_todo t = TogglePin q :: r -> q = p -> Z.testbit o (pn_num p) = level w p).

  Lemma inv_start : inv (g_start odr0 progs).
  Proof.
    unfold inv, g_start. cbn [gw_tasks gw_odr]. split.
    - intros j t H. rewrite nth_error_map in H. destruct (nth_error progs j) as [l|]; [|discriminate].
      injection H as <-. exists l, []. auto.
    - rewrite nth_error_map, HI. cbn [option_map]. exists (mkGt l0 None), []. repeat split. discriminate.
  Qed.

  (** An access by a pin operation changes the level of [p] only if it is on [p]. *)
  Lemma other_pin w q v : real_pin q -> q <> p ->
    (forall k, 0 <= k < 16 -> k <> pn_num q -> Z.testbit v k = Z.testbit (gw_odr w (pn_port q)) k) ->
    Z.testbit (set_port (gw_odr w) (pn_port q) v (pn_port p)) (pn_num p) = level w p.
  Proof.
    intros RQ N E. unfold level, set_port. destruct (Z.eqb_spec (pn_port p) (pn_port q)) as [EP|EP]; [|reflexivity].
    rewrite EP. apply E; [exact RP|]. intros X. apply N. apply pin_ext; congruence.
  Qed.

  Lemma owned_step w j t o r : inv w -> nth_error (gw_tasks w) j = Some t -> gt_todo t = o :: r ->
    real_pin (op_pin o) /\ (j <> i -> op_pin o <> p).
  Proof.
    intros [A _] T E. destruct (A j t T) as (l & ops & L & EL). rewrite E in EL. split.
    - apply (ALL l); [eapply nth_error_In; exact L|]. rewrite EL. apply in_or_app. right. now left.
    - intros N. apply (OWN j l o N L). rewrite EL. apply in_or_app. right. now left.
  Qed.

  Lemma inv_step w j : inv w -> inv (g_step w j).
  Proof.
    intros IW. unfold g_step. destruct (nth_error (gw_tasks w) j) as [t|] eqn:T; [|exact IW].
    destruct (gt_todo t) as [|o r] eqn:TD; [exact IW|].
    destruct (owned_step w j t o r IW T TD) as [RO NO].
    destruct IW as [A (ti & ops & TI & L0 & LV & RD)].
    assert (AJ : forall t', gt_todo t' = gt_todo t \/ gt_todo t' = r ->
      forall k u, nth_error (put_task (gw_tasks w) j t') k = Some u -> exists l ops, nth_error progs k = Some l /\ l = ops ++ gt_todo u).
    { intros t' H k u K. destruct (Nat.eq_dec j k) as [->|N].
      - rewrite (put_same _ _ _ _ T) in K. injection K as <-. destruct (A k t T) as (l & os & L & E).
        destruct H as [->| ->]; [eauto|]. exists l, (os ++ [o]). split; [exact L|].
        rewrite E, TD, <- app_assoc. reflexivity.
      - rewrite put_other in K by exact N. exact (A k u K). }
    assert (MAIN : forall v,
      (forall k, 0 <= k < 16 -> k <> pn_num (op_pin o) -> Z.testbit v k = Z.testbit (gw_odr w (pn_port (op_pin o))) k) ->
      (op_pin o = p -> Z.testbit v (pn_num p) = effect p (level w p) o) ->
      inv (mkGw (set_port (gw_odr w) (pn_port (op_pin o)) v) (put_task (gw_tasks w) j (mkGt r None)))).
    { intros v OTHER SAME. split; [cbn [gw_tasks]; apply AJ; now right|].
      assert (NL : level (mkGw (set_port (gw_odr w) (pn_port (op_pin o)) v) (put_task (gw_tasks w) j (mkGt r None))) p =
                   effect p (level w p) o).
      { unfold level at 1. cbn [gw_odr]. destruct (pin_beq (op_pin o) p) eqn:B.
        - apply pin_beq_true in B. unfold set_port. rewrite B, Z.eqb_refl. now apply SAME.
        - assert (op_pin o <> p) by (intros X; apply pin_beq_true in X; congruence).
          rewrite other_pin by assumption. unfold effect. now rewrite B. }
      cbn [gw_tasks]. destruct (Nat.eq_dec j i) as [->|N].
      - rewrite T in TI. injection TI as <-. exists (mkGt r None), (ops ++ [o]).
        split; [exact (put_same _ _ _ _ T)|]. cbn [gt_todo gt_odr]. split; [rewrite <- app_assoc; cbn [app]; now rewrite <- TD|].
        split; [|discriminate]. rewrite NL, LV. unfold level_after. now rewrite fold_left_app.
      - exists ti, ops. split; [now rewrite put_other|]. split; [exact L0|].
        assert (E : effect p (level w p) o = level w p).
        { unfold effect. destruct (pin_beq (op_pin o) p) eqn:B; [|reflexivity]. apply pin_beq_true in B. now elim (NO N). }
        rewrite NL, E. split; [exact LV|exact RD]. }
    destruct o as [q v|q]; cbn [op_pin] in *.
    - apply MAIN.
      + intros k K NK. rewrite write_bit by assumption. replace (k =? pn_num q) with false by lia. reflexivity.
      + intros ->. rewrite write_bit by assumption. rewrite Z.eqb_refl. unfold effect. cbn [op_pin].
        now rewrite (proj2 (pin_beq_true p p) eq_refl).
    - destruct (gt_odr t) as [odr|] eqn:RDT.
      + apply MAIN.
        * intros k K NK. rewrite toggle_bit by assumption. replace (k =? pn_num q) with false by lia. reflexivity.
        * intros ->. rewrite toggle_bit by assumption. rewrite Z.eqb_refl. unfold effect. cbn [op_pin].
          rewrite (proj2 (pin_beq_true p p) eq_refl). f_equal.
          destruct (Nat.eq_dec j i) as [->|N]; [|now elim (NO N)].
          rewrite T in TI. injection TI as <-. exact (RD odr p r RDT TD eq_refl).
      + split; [cbn [gw_tasks]; apply AJ; left; cbn [gt_todo]; now rewrite TD|]. cbn [gw_tasks].
        destruct (Nat.eq_dec j i) as [->|N].
        * rewrite T in TI. injection TI as <-. exists (mkGt (TogglePin q :: r) (Some (gw_odr w (pn_port q)))), ops.
          split; [exact (put_same _ _ _ _ T)|]. cbn [gt_todo gt_odr]. rewrite <- TD. split; [exact L0|].
          split; [exact LV|]. intros o q' r' EO ER ->. rewrite TD in ER. injection ER as -> ->. injection EO as <-. reflexivity.
        * exists ti, ops. split; [now rewrite put_other|]. auto.
  Qed.

  Lemma inv_run sched : inv (g_run (g_start odr0 progs) sched).
  Proof.
    unfold g_run. generalize inv_start. generalize (g_start odr0 progs).
    induction sched as [|j s IH]; intros w H; [exact H|]. cbn [fold_left]. apply IH. now apply inv_step.
  Qed.
End Inv.

(** Taking out the operations on other pins. *)
Section Iso.
  Variables (p : pin).
  Hypothesis RP : real_pin p.

  Definition proj (t t' : gtask) : Prop :=
    gt_todo t' = filter (on_pin p) (gt_todo t) /\
    (forall o, In o (gt_todo t) -> real_pin (op_pin o)) /\
    match gt_todo t with
    | TogglePin q :: _ =>
        if pin_beq q p then
          match gt_odr t, gt_odr t' with
          | None, None => True
          | Some a, Some b => Z.testbit a (pn_num p) = Z.testbit b (pn_num p)
          | _, _ => False
          end
        else gt_odr t' = None
    | _ => gt_odr t' = None
    end /\
    match gt_todo t with TogglePin q :: _ => True | _ => gt_odr t = None end.

  Definition sim (w w' : gworld) : Prop :=
    level w p = level w' p /\ Forall2 proj (gw_tasks w) (gw_tasks w').

  Lemma Forall2_nth {A B} (R : A -> B -> Prop) l l' i x : Forall2 R l l' -> nth_error l i = Some x ->
    exists y, nth_error l' i = Some y /\ R x y.
  Proof.
    intros F. revert i. induction F as [|a b l l' H F IH]; intros [|i] E; try discriminate.
    - injection E as <-. exists b. auto.
    - cbn [nth_error] in *. auto.
  Qed.

  Lemma Forall2_put l l' i t t' : Forall2 proj l l' -> proj t t' -> Forall2 proj (put_task l i t) (put_task l' i t').
  Proof.
    intros F H. revert i. induction F as [|a b l l' X F IH]; intros [|i]; cbn [put_task]; constructor; auto.
  Qed.

  Lemma Forall2_put_left l l' i t t' : Forall2 proj l l' -> nth_error l' i = Some t' -> proj t t' ->
    Forall2 proj (put_task l i t) l'.
  Proof.
    intros F. revert i. induction F as [|a b l l' X F IH]; intros [|i] E H; cbn [put_task nth_error] in *; try discriminate.
    - injection E as ->. constructor; assumption.
    - constructor; auto.
  Qed.

  (** A task about to start an operation. *)
  Lemma proj_fresh r : (forall o, In o r -> real_pin (op_pin o)) -> proj (mkGt r None) (mkGt (filter (on_pin p) r) None).
  Proof.
    intros H. unfold proj. cbn [gt_todo gt_odr]. split; [reflexivity|]. split; [exact H|].
    destruct r as [|[q v|q] r]; auto. split; [now destruct (pin_beq q p)|exact Logic.I].
  Qed.

  Lemma level_same w w' q v v' T T' : real_pin q -> q = p ->
    Z.testbit v (pn_num p) = Z.testbit v' (pn_num p) ->
    level (mkGw (set_port (gw_odr w) (pn_port q) v) T) p = level (mkGw (set_port (gw_odr w') (pn_port q) v') T') p.
  Proof. intros R -> E. unfold level, set_port. cbn [gw_odr]. now rewrite Z.eqb_refl. Qed.

  Lemma level_other w q v T : q <> p -> real_pin q ->
    (forall k, 0 <= k < 16 -> k <> pn_num q -> Z.testbit v k = Z.testbit (gw_odr w (pn_port q)) k) ->
    level (mkGw (set_port (gw_odr w) (pn_port q) v) T) p = level w p.
  Proof. intros N R E. unfold level at 1. cbn [gw_odr]. now apply other_pin. Qed.

  Lemma sim_step w w' j : sim w w' -> exists s, sim (g_step w j) (g_run w' s).
  Proof.
    intros [LV F]. unfold g_step. destruct (nth_error (gw_tasks w) j) as [t|] eqn:T; [|exists []; split; assumption].
    destruct (Forall2_nth _ _ _ _ _ F T) as (t' & T' & P). destruct P as (TD & RL & MID & FR).
    destruct (gt_todo t) as [|o r] eqn:E; [exists []; split; assumption|].
    assert (RO : real_pin (op_pin o)) by (apply RL; now left).
    assert (RR : forall o, In o r -> real_pin (op_pin o)) by (intros; apply RL; now right).
    cbn [filter] in TD. destruct o as [q v|q]; unfold on_pin at 1 in TD; cbn [op_pin] in *.
    - destruct (pin_beq q p) eqn:B.
      + apply pin_beq_true in B. exists [j]. unfold g_run. cbn [fold_left]. unfold g_step. rewrite T', TD.
        split; cbn [gw_tasks].
        * apply level_same; [exact RO|exact B|]. rewrite !write_bit by assumption. rewrite B, !Z.eqb_refl. reflexivity.
        * apply Forall2_put; [exact F|]. now apply proj_fresh.
      + assert (N : q <> p) by (intros X; apply pin_beq_true in X; congruence). exists []. split; cbn [gw_tasks].
        * rewrite level_other; [exact LV|exact N|exact RO|]. intros k K NK. rewrite write_bit by assumption.
          replace (k =? pn_num q) with false by lia. reflexivity.
        * apply (Forall2_put_left _ _ _ _ t'); [exact F|exact T'|]. destruct t' as [td' od']. cbn [gt_todo gt_odr] in *. rewrite TD, MID. now apply proj_fresh.
    - destruct (pin_beq q p) eqn:B.
      + apply pin_beq_true in B. exists [j]. unfold g_run. cbn [fold_left]. unfold g_step. rewrite T', TD.
        destruct (gt_odr t) as [a|] eqn:A, (gt_odr t') as [b|] eqn:A'; try contradiction.
        * split; cbn [gw_tasks].
          -- apply level_same; [exact RO|exact B|]. rewrite !toggle_bit by assumption. rewrite B, !Z.eqb_refl. now rewrite MID.
          -- apply Forall2_put; [exact F|]. now apply proj_fresh.
        * split; cbn [gw_tasks]; [exact LV|]. apply Forall2_put; [exact F|].
          assert (ON : on_pin p (TogglePin q) = true) by exact (proj2 (pin_beq_true q p) B).
          unfold proj. cbn [gt_todo gt_odr filter]. rewrite ON. rewrite (proj2 (pin_beq_true q p) B).
          split; [reflexivity|]. split; [exact RL|]. split; [|exact Logic.I]. rewrite B. exact LV.
      + assert (N : q <> p) by (intros X; apply pin_beq_true in X; congruence).
        destruct t' as [td' od']. cbn [gt_todo gt_odr] in *. subst od' td'. exists [].
        destruct (gt_odr t) as [a|] eqn:A.
        * split; cbn [gw_tasks].
          -- rewrite level_other; [exact LV|exact N|exact RO|]. intros k K NK. rewrite toggle_bit by assumption.
             replace (k =? pn_num q) with false by lia. reflexivity.
          -- apply (Forall2_put_left _ _ _ _ (mkGt (filter (on_pin p) r) None)); [exact F|exact T'|now apply proj_fresh].
        * split; cbn [gw_tasks]; [exact LV|].
          apply (Forall2_put_left _ _ _ _ (mkGt (filter (on_pin p) r) None)); [exact F|exact T'|].
          assert (ON : on_pin p (TogglePin q) = false) by exact B.
          unfold proj. cbn [gt_todo gt_odr filter]. rewrite ON, B.
          split; [reflexivity|]. split; [exact RL|]. split; [reflexivity|exact Logic.I].
  Qed.

  Lemma sim_run w w' s : sim w w' -> exists s', sim (g_run w s) (g_run w' s').
  Proof.
    revert w w'. induction s as [|j s IH]; intros w w' H; [exists []; exact H|].
    destruct (sim_step w w' j H) as (s1 & H1). destruct (IH _ _ H1) as (s2 & H2).
    exists (s1 ++ s2). unfold g_run in *. rewrite fold_left_app. exact H2.
  Qed.

  Lemma sim_start odr progs : (forall l o, In l progs -> In o l -> real_pin (op_pin o)) ->
    sim (g_start odr progs) (g_start odr (only p progs)).
  Proof.
    intros H. split; [reflexivity|]. unfold g_start, only. cbn [gw_tasks]. rewrite map_map.
    induction progs as [|l r IH]; constructor.
    - apply proj_fresh. intros o O1. apply (H l); [now left|exact O1].
    - apply IH. intros l' o A B. apply (H l'); [now right|exact B].
  Qed.

  Lemma sim_todo w w' : sim w w' -> map gt_todo (gw_tasks w') = only p (map gt_todo (gw_tasks w)).
  Proof.
    intros [_ F]. unfold only. induction F as [|t t' l l' P F IH]; [reflexivity|]. cbn [map]. rewrite IH. f_equal. apply P.
  Qed.
End Iso.
