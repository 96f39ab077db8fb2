(** Waits end in time. *)
From Coq Require Import Lia ZifyBool ZifyNat.
From Verif.Model Require Import KNotify.
From Verif.Spec Require Import KNotifySpec KTimelySpec.
From Verif.Proof Require Import KNotifyProof KNotifyClaims.
Open Scope Z_scope.

Definition ends_by (z : nsleep) (w t tick : Z) : Prop :=
  match z with Awake => tick <= t + w | Until x => x = t + w | Forever => False end.

Definition timely (s : nt) : Prop :=
  match n_pc s with
  | POut => True
  | PTake _ w t | PRecv2 _ w t => w = portMAX_DELAY \/ ends_by (n_sleep s) w t (n_tick s)
  | PRecv1 _ w t => n_tick s = t
  | PRecv3 _ w t | PRecv4 _ w t => w = portMAX_DELAY \/ n_tick s <= t + w
  | PSend0 _ w t l | PSend1 _ w t l => w < portMAX_DELAY /\ n_tick s + l = t + w /\ 0 < l <= w
  | PSend2 _ w t _ => w < portMAX_DELAY /\ t <= n_tick s /\ ends_by (n_sleep s) w t (n_tick s)
  | PSend3 _ w t _ => w < portMAX_DELAY /\ t <= n_tick s <= t + w
  | PSend4 _ w t => n_tick s <= t + w
  end.

Ltac cases :=
  repeat match goal with
  | H : Some _ = Some _ |- _ => injection H as <-
  | H : None = Some _ |- _ => discriminate H
  | H : context [if ?b then _ else _] |- _ => destruct b eqn:?
  | H : context [match ?x with NotWaiting => _ | Waiting => _ | Received => _ end] |- _ => is_var x; destruct x
  | H : context [match ?x with Some _ => _ | None => _ end] |- _ => destruct x eqn:?
  end.

Lemma timely_step : forall s e s', inv s -> timely s -> n_susp s = 0 -> event_ok e -> e <> NSuspend ->
  (e = NTick -> outside s = true \/ sleeps s) -> n_step s e = Some s' ->
  timely s' /\ (n_log s' = n_log s \/ exists r, n_log s' = n_log s ++ [r] /\ in_time r).
Proof.
  intros s e s' [P _ _ RU _ DU _ _ _ _ _] T S0 OK NS TK E.
  destruct (RU S0) as (PE & LI). clear RU.
  destruct e; try congruence; unfold timely, pc_ok, sleeps in *; open_step s; subst su pe li;
    cbn [event_ok] in OK; try discriminate E.
  all: destruct pc; cbn [andb] in *.
  all: destruct sl; cbn [andb Z.eqb] in *; cases.
  all: cbn [n_val n_st n_sleep n_listed n_susp n_pend n_tick n_pc n_avail n_reader n_owed n_room n_sender n_irq n_last n_log due ends_by in_time] in *.
  all: try (split; [|now left]); try (split; [|right; eexists; split; [reflexivity|cbn [in_time]]]).
  all: cbn [n_val n_st n_sleep n_listed n_susp n_pend n_tick n_pc n_avail n_reader n_owed n_room n_sender n_irq n_last n_log due ends_by in_time] in *.
  all: try exact Logic.I; try tauto; try lia.
  all: try (exfalso; destruct (TK eq_refl); congruence).
  all: try (repeat match goal with |- context [if ?b then _ else _] => destruct b eqn:? end; cbn [ends_by]; intuition (try congruence; lia)).
  all: repeat match goal with
       | |- context [if ?b then _ else _] => destruct b eqn:?
       | |- context [match ?x with NotWaiting => _ | Waiting => _ | Received => _ end] => is_var x; destruct x
       end.
  all: cbn [n_val n_st n_sleep n_listed n_susp n_pend n_tick n_pc n_avail n_reader n_owed n_room n_sender n_irq n_last n_log due ends_by in_time] in *.
  all: try (split; [|now left]).
  all: try (intuition (try congruence; lia)).
Qed.

Lemma timely_run : forall first room tr s, 0 <= room -> history tr -> runs_at_once first room tr ->
  n_run (n_start first room) tr = Some s -> n_susp s = 0 /\ timely s /\ Forall in_time (n_log s).
Proof.
  intros first room tr. induction tr as [|e tr IH] using rev_ind; intros s R H (NS & TK) E.
  - injection E as <-. repeat split. constructor.
  - destruct (run_prefix _ _ _ _ E) as (s1 & E1 & E2). assert (HA := history_app _ _ H).
    destruct (IH s1 R HA) as (S1 & T1 & L1); [|exact E1|].
    { split; [intros IN; apply NS; apply in_or_app; now left|].
      intros a b x Q. apply (TK a (b ++ [e]) x). now rewrite Q, <- app_assoc. }
    cbn [n_run] in E2. destruct (n_step s1 e) as [s2|] eqn:ES; [|discriminate]. injection E2 as <-.
    assert (NE : e <> NSuspend) by (intros ->; apply NS; apply in_or_app; right; now left).
    assert (OK : event_ok e).
    { destruct H as (F & _). apply Forall_app in F. destruct F as (_ & F). now inversion F. }
    destruct (timely_step s1 e s2 (inv_reach _ _ _ _ R HA E1) T1 S1 OK NE) as (T2 & L2); [|exact ES|].
    { intros ->. exact (TK tr [] s1 eq_refl E1). }
    split; [|split; [exact T2|]].
    + rewrite (step_susp _ _ _ ES), S1. destruct e; try reflexivity; [congruence|].
      unfold n_step in ES. now rewrite S1 in ES.
    + destruct L2 as [->|(r & -> & Q)]; [exact L1|]. apply Forall_app. split; [exact L1|now constructor].
Qed.

(** Only the transmission-complete interrupt ends the time after the DMA interrupt. *)
Lemma last_stays : forall tr s s', n_last s = true -> Forall (fun e => forall j, e <> NRoom j) tr ->
  n_run s tr = Some s' -> n_last s' = true.
Proof.
  induction tr as [|e tr IH]; intros s s' L F E; [now injection E as <-|].
  inversion F as [|x y F1 F2]; subst. cbn [n_run] in E. destruct (n_step s e) as [s1|] eqn:ES; [|discriminate].
  apply (IH s1 s'); auto. clear IH E F F2. destruct e; try (now destruct (F1 k)); open_step s; subst la.
  all: try destruct pc; try destruct sl; cbn [andb] in *; cases; try reflexivity;
    repeat match goal with |- context [if ?b then _ else _] => destruct b
      | |- context [match ?x with NotWaiting => _ | Waiting => _ | Received => _ end] => is_var x; destruct x end; try reflexivity.
Qed.

(** ** A check for examples *)
Fixpoint at_once (s : nt) (tr : list nevent) : bool :=
  match tr with
  | [] => true
  | e :: r =>
      match e with NTick => outside s || match n_sleep s with Awake => false | _ => true end | _ => true end &&
      match n_step s e with Some s' => at_once s' r | None => true end
  end.
Definition not_suspend (e : nevent) : bool := match e with NSuspend => false | _ => true end.
Lemma at_once_ok : forall first room tr, forallb not_suspend tr && at_once (n_start first room) tr = true ->
  runs_at_once first room tr.
Proof.
  intros first room tr H. apply andb_prop in H. destruct H as (N & A). split.
  - intros IN. rewrite forallb_forall in N. specialize (N _ IN). discriminate.
  - revert A. generalize (n_start first room) as s0. clear N. induction tr as [|e tr IH]; intros s0 A [|x a] b s Q E; try discriminate.
    + cbn [app] in Q. injection Q as -> _. injection E as <-. cbn [at_once] in A. apply andb_prop in A. destruct A as (A & _).
      apply Bool.orb_prop in A. destruct A as [A|A]; [now left|]. right. unfold sleeps. destruct (n_sleep s0); [discriminate A|easy|easy].
    + cbn [app] in Q. injection Q as -> Q. cbn [at_once] in A. apply andb_prop in A. destruct A as (_ & A).
      cbn [n_run] in E. destruct (n_step s0 x) as [s1|]; [|discriminate]. exact (IH s1 A a b s Q E).
Qed.
