From Coq Require Import ZifyBool ZifyNat.
From Verif.Base Require Import Words.
From Verif.Model Require Import KQueue.
From Verif.Spec Require Import KQueueSpec.
From Verif.Proof Require Import KQueueProof KQueueWake.
Open Scope Z_scope.

Section Calls.
  Variables (prio : Z -> Z) (len size : Z).
  Hypothesis (HL : 0 < len < 2 ^ 32) (HS : 0 <= size) (HB : len * size < 2 ^ 32).

  Lemma room_iff : forall s, base_inv len size s ->
    (k_count (ks_q s) <? k_len (ks_q s)) = (Z.of_nat (length (held (ks_log s))) <? len).
  Proof. intros s B. destruct (base_held len size s B) as (_ & R). rewrite (ri_count _ _ _ _ R), (ri_len _ _ _ _ R). reflexivity. Qed.
  Lemma items_iff : forall s, base_inv len size s -> (0 <? k_count (ks_q s)) = match held (ks_log s) with [] => false | _ => true end.
  Proof. intros s B. destruct (base_held len size s B) as (_ & R). rewrite (ri_count _ _ _ _ R). destruct (held (ks_log s)); reflexivity. Qed.
  Lemma got_head : forall s p, base_inv len size s -> (0 <? k_count (ks_q s)) = true -> prvCopyDataFromQueue (ks_q s) = Some p ->
    exists r, held (ks_log s) = snd p :: r.
  Proof.
    intros s p B C K. destruct (base_held len size s B) as (_ & R).
    assert (F : held (ks_log s) <> []). { rewrite (items_iff s B) in C. intros E. rewrite E in C. discriminate. }
    destruct (copy_from_ok len size HL HS HB _ _ R F) as (q2 & x & l2 & E & K2 & _). rewrite K in K2. injection K2 as ->. eauto.
  Qed.

  Lemma isr_send_answer : forall s x s', base_inv len size s -> isr_send s x = Some s' ->
    ks_log s' = ks_log s ++ [(None, answer len (held (ks_log s)) (Send x))].
  Proof.
    intros s x s' B E. unfold isr_send in E. cbn [answer]. rewrite <- (room_iff s B).
    destruct (k_count (ks_q s) <? k_len (ks_q s)); [|injection E as <-; reflexivity].
    destruct (prvCopyDataToQueue (ks_q s) x); [|discriminate]. injection E as <-. reflexivity.
  Qed.
  Lemma isr_receive_answer : forall s s', base_inv len size s -> isr_receive s = Some s' ->
    ks_log s' = ks_log s ++ [(None, answer len (held (ks_log s)) Receive)].
  Proof.
    intros s s' B E. unfold isr_receive in E. cbn [answer]. destruct (0 <? k_count (ks_q s)) eqn:C.
    - destruct (prvCopyDataFromQueue (ks_q s)) as [p|] eqn:K; [|discriminate]. injection E as <-. cbn [ks_log].
      destruct (got_head s p B C K) as (r & ->). reflexivity.
    - injection E as <-. cbn [ks_log]. rewrite (items_iff s B) in C. destruct (held (ks_log s)); [reflexivity|discriminate].
  Qed.
  Lemma try_answer : forall s t o w s', base_inv len size s -> try_op s t o w = Some s' ->
    (w = false \/ match answer len (held (ks_log s)) o with Sent _ | Got _ => True | _ => False end) ->
    ks_log s' = ks_log s ++ [(Some t, answer len (held (ks_log s)) o)].
  Proof.
    intros s t o w s' B E A. unfold try_op in E. destruct o as [x|]; cbn [answer] in *.
    - rewrite <- (room_iff s B) in *. destruct (k_count (ks_q s) <? k_len (ks_q s)).
      + destruct (prvCopyDataToQueue (ks_q s) x); [|discriminate]. injection E as <-. reflexivity.
      + injection E as <-. destruct A as [-> |[]]. reflexivity.
    - destruct (0 <? k_count (ks_q s)) eqn:C.
      + destruct (prvCopyDataFromQueue (ks_q s)) as [p|] eqn:K; [|discriminate]. injection E as <-. cbn [ks_log].
        destruct (got_head s p B C K) as (r & ->). reflexivity.
      + injection E as <-. rewrite (items_iff s B) in C. destruct (held (ks_log s)); [|discriminate].
        destruct A as [-> |[]]. reflexivity.
  Qed.

  (** A task outside the list that is inside a call takes its step. *)
  Lemma found_steps : forall s u o w, base_inv len size s -> ks_susp s = None ->
    (ks_pc s u = Try o w \/ (ks_pc s u = Blocked o w /\ listed (ks_q s) u o = false)) ->
    (match answer len (held (ks_log s)) o with Sent _ | Got _ => True | _ => False end) ->
    exists s', ks_step prio s (KStep u false) = Some s' /\
      ks_log s' = ks_log s ++ [(Some u, answer len (held (ks_log s)) o)].
  Proof.
    intros s u o w B S P A. cbn [ks_step]. unfold may_run. rewrite S.
    assert (OK : op_ok size o). { pose proof (proj2 B u) as K. destruct P as [P|(P & _)]; rewrite P in K; exact K. }
    destruct (try_ok len size HL HS HB s u o w B OK) as (s' & E & _). exists s'.
    split; [|eapply try_answer; eauto]. unfold task_step. destruct P as [-> |(-> & L)]; [exact E|]. rewrite L. exact E.
  Qed.

  (** Calls that do not wait. *)
  Definition calm (s : ksys) : Prop :=
    ks_susp s = None /\ k_senders (ks_q s) = [] /\ k_receivers (ks_q s) = [] /\
    forall t, ks_pc s t = Out \/ exists o, ks_pc s t = Try o false.
  Lemma calm_step : forall s ev s', calm s -> never_waits ev -> ks_step prio s ev = Some s' -> calm s'.
  Proof.
    intros s ev s' (S & A & R & P) N E.
    assert (PUT : forall t p, (p = Out \/ exists o, p = Try o false) -> forall x, put_pc (ks_pc s) t p x = Out \/ exists o, put_pc (ks_pc s) t p x = Try o false).
    { intros t p K x. unfold put_pc. destruct (x =? t); auto. }
    destruct ev as [t o w|t e|x| |t]; cbn [ks_step never_waits] in *.
    - destruct (ks_pc s t) eqn:PT; try (injection E as <-; split; auto; fail).
      destruct (may_run s t); injection E as <-; [|split; auto]. subst w. split; cbn; auto. split; [auto|]. split; [auto|]. apply PUT. eauto.
    - destruct (may_run s t); [|injection E as <-; split; auto]. unfold task_step in E.
      destruct (P t) as [PT|(o & PT)]; rewrite PT in E; [injection E as <-; split; auto|].
      unfold try_op in E. destruct o as [x|].
      + destruct (k_count (ks_q s) <? k_len (ks_q s)).
        * destruct (prvCopyDataToQueue (ks_q s) x) as [q'|] eqn:K; [|discriminate]. injection E as <-.
          destruct (to_fields _ _ _ K) as (_ & _ & _ & _ & F5 & F6). unfold calm. cbn. rewrite F5, F6, A, R. auto 10.
        * injection E as <-. unfold calm. cbn. auto 10.
      + destruct (0 <? k_count (ks_q s)).
        * destruct (prvCopyDataFromQueue (ks_q s)) as [p|] eqn:K; [|discriminate]. injection E as <-.
          destruct (from_fields _ _ K) as (_ & _ & _ & _ & F5 & F6). unfold calm. cbn. rewrite F5, F6, A, R. auto 10.
        * injection E as <-. unfold calm. cbn. auto 10.
    - unfold isr_send in E. destruct (k_count (ks_q s) <? k_len (ks_q s)); [|injection E as <-; split; auto].
      destruct (prvCopyDataToQueue (ks_q s) x) as [q'|] eqn:K; [|discriminate]. injection E as <-.
      destruct (to_fields _ _ _ K) as (_ & _ & _ & _ & F5 & F6). unfold calm. cbn.
      destruct (k_tx (ks_q s) =? queueUNLOCKED); cbn; rewrite F5, F6, A, R; auto.
    - unfold isr_receive in E. destruct (0 <? k_count (ks_q s)); [|injection E as <-; split; auto].
      destruct (prvCopyDataFromQueue (ks_q s)) as [p|] eqn:K; [|discriminate]. injection E as <-.
      destruct (from_fields _ _ K) as (_ & _ & _ & _ & F5 & F6). unfold calm. cbn.
      destruct (k_rx (ks_q s) =? queueUNLOCKED); cbn; rewrite F5, F6, A, R; auto.
    - injection E as <-. unfold tick_out. rewrite S. unfold calm. cbn. rewrite A, R. auto.
  Qed.
  Lemma calm_run : forall tr s s', calm s -> Forall never_waits tr -> ks_run prio s tr = Some s' -> calm s'.
  Proof.
    induction tr as [|ev tr IH]; intros s s' C F E; cbn [ks_run] in E; [injection E as <-; exact C|].
    inversion F; subst. destruct (ks_step prio s ev) as [s1|] eqn:K; [|discriminate]. eapply IH; [|eauto|exact E].
    eapply calm_step; eauto.
  Qed.

  (** How an event other than a time-out changes a list of waiting tasks. *)
  Lemma try_lists : forall b s t o w s', try_op s t o w = Some s' -> exists n, lst b (ks_q s') = skipn n (lst b (ks_q s)).
  Proof.
    intros b s t o w s' E.
    assert (TL : forall l : list Z, tl l = skipn 1 l) by (intros []; reflexivity).
    unfold try_op in E. destruct o as [x|].
    - destruct (k_count (ks_q s) <? k_len (ks_q s)); [|injection E as <-; exists O; destruct w; reflexivity].
      destruct (prvCopyDataToQueue (ks_q s) x) as [q'|] eqn:K; [|discriminate]. injection E as <-.
      destruct (to_fields _ _ _ K) as (_ & _ & _ & _ & F5 & F6). unfold lst. cbn [ks_q wake_receiver k_senders k_receivers]. rewrite F5, F6, TL.
      destruct b; [exists O|exists 1%nat]; reflexivity.
    - destruct (0 <? k_count (ks_q s)); [|injection E as <-; exists O; destruct w; reflexivity].
      destruct (prvCopyDataFromQueue (ks_q s)) as [p|] eqn:K; [|discriminate]. injection E as <-.
      destruct (from_fields _ _ K) as (_ & _ & _ & _ & F5 & F6). unfold lst. cbn [ks_q wake_sender k_senders k_receivers]. rewrite F5, F6, TL.
      destruct b; [exists 1%nat|exists O]; reflexivity.
  Qed.
  Lemma step_lists : forall b s ev s', (forall t, ev <> KTimeout t) -> ks_step prio s ev = Some s' ->
    (exists n, lst b (ks_q s') = skipn n (lst b (ks_q s))) \/ (exists u, lst b (ks_q s') = event_insert prio u (lst b (ks_q s))).
  Proof.
    intros b s ev s' NT E.
    assert (TL : forall l : list Z, tl l = skipn 1 l) by (intros []; reflexivity).
    assert (SAME : (exists n, lst b (ks_q s) = skipn n (lst b (ks_q s))) \/ (exists u, lst b (ks_q s) = event_insert prio u (lst b (ks_q s)))) by (left; now exists O).
    destruct ev as [t o w|t e|x| |t]; cbn [ks_step] in *.
    - destruct (ks_pc s t); try (injection E as <-; exact SAME). destruct (may_run s t); injection E as <-; exact SAME.
    - destruct (may_run s t); [|injection E as <-; exact SAME]. unfold task_step in E.
      destruct (ks_pc s t) as [|o w|o w|o w|o w n|o w n|o w|].
      + injection E as <-; exact SAME.
      + left. eapply try_lists; eauto.
      + injection E as <-. left. exists O. destruct b; reflexivity.
      + destruct e; [injection E as <-; exact SAME|]. destruct (unmet (ks_q s) o); injection E as <-; [|exact SAME].
        destruct o, b; cbn; eauto; left; now exists O.
      + injection E as <-. left. destruct b; cbn; eauto. now exists O.
      + left. destruct n, o; injection E as <-; destruct b; cbn; eauto; now exists O.
      + destruct (listed (ks_q s) t o); [injection E as <-; exact SAME|]. left. eapply try_lists; eauto.
      + destruct (k_count (ks_q s) =? 0); injection E as <-; exact SAME.
    - unfold isr_send in E. destruct (k_count (ks_q s) <? k_len (ks_q s)); [|injection E as <-; exact SAME].
      destruct (prvCopyDataToQueue (ks_q s) x) as [q'|] eqn:K; [|discriminate]. injection E as <-.
      destruct (to_fields _ _ _ K) as (_ & _ & _ & _ & F5 & F6). left. unfold lst. cbn [ks_q].
      destruct (k_tx (ks_q s) =? queueUNLOCKED), b; cbn; rewrite ?F5, ?F6, ?TL; try (now exists O); now exists 1%nat.
    - unfold isr_receive in E. destruct (0 <? k_count (ks_q s)); [|injection E as <-; exact SAME].
      destruct (prvCopyDataFromQueue (ks_q s)) as [p|] eqn:K; [|discriminate]. injection E as <-.
      destruct (from_fields _ _ K) as (_ & _ & _ & _ & F5 & F6). left. unfold lst. cbn [ks_q].
      destruct (k_rx (ks_q s) =? queueUNLOCKED), b; cbn; rewrite ?F5, ?F6, ?TL; try (now exists O); now exists 1%nat.
    - now destruct (NT t).
  Qed.
  Lemma skipn_priority : forall n l t y, by_priority prio l -> In t l -> ~ In t (skipn n l) -> In y (skipn n l) -> prio y <= prio t.
  Proof.
    induction n as [|n IH]; intros l t y S I NI Y; [contradiction|]. destruct l as [|x l]; [destruct I|]. cbn [skipn] in *.
    destruct I as [-> |I].
    - apply (sorted_head prio t l S). eapply skipn_in; eauto.
    - apply (IH l); auto. apply (sorted_tl prio (x :: l) S).
  Qed.
  Lemma woken_highest : forall b s ev s' t y, sorted prio (ks_q s) -> (forall t, ev <> KTimeout t) -> ks_step prio s ev = Some s' ->
    In t (lst b (ks_q s)) -> ~ In t (lst b (ks_q s')) -> In y (lst b (ks_q s')) -> prio y <= prio t.
  Proof.
    intros b s ev s' t y S NT E I NI Y. destruct (step_lists b s ev s' NT E) as [(n & L)|(u & L)]; rewrite L in *.
    - eapply skipn_priority; eauto. destruct S, b; auto.
    - exfalso. apply NI. apply insert_in. now right.
  Qed.
End Calls.
