(** Words for the claims about task notifications and about waiting on streams. *)
From Verif.Model Require Export KNotify.

(** How often the task was notified by vTaskNotifyGiveFromISR. *)
Fixpoint gives (tr : list nevent) : Z :=
  match tr with [] => 0 | NGive :: r => 1 + gives r | _ :: r => gives r end.
(** How often the tick interrupt came. *)
Fixpoint nticks (tr : list nevent) : Z :=
  match tr with [] => 0 | NTick :: r => 1 + nticks r | _ :: r => nticks r end.

(** The notifications that the calls of ulTaskNotifyTake have consumed: all those
    reported if the call clears the count, otherwise one. *)
Fixpoint taken (log : list nret) : Z :=
  match log with
  | [] => 0
  | RTake true _ _ _ v :: r => v + taken r
  | RTake false _ _ _ v :: r => Z.min v 1 + taken r
  | _ :: r => taken r
  end.

(** Sizes and waits that C can express; every store is of at least one byte. *)
Definition event_ok (e : nevent) : Prop :=
  match e with
  | NTake _ w => 0 <= w <= portMAX_DELAY
  | NRecv n w => 0 <= n /\ 0 <= w <= portMAX_DELAY
  | NSend n w => 0 <= n /\ 0 <= w < portMAX_DELAY
  | NData k => 0 < k
  | NRoom k => 0 <= k
  | _ => True
  end.
(** Each xTaskResumeAll belongs to a vTaskSuspendAll; [n] are open. *)
Fixpoint paired (n : Z) (tr : list nevent) : Prop :=
  match tr with
  | [] => True
  | NSuspend :: r => paired (n + 1) r
  | NResume :: r => 0 < n /\ paired (n - 1) r
  | _ :: r => paired n r
  end.
(** A history that can happen. *)
Definition history (tr : list nevent) : Prop := Forall event_ok tr /\ paired 0 tr.

(** At no moment 2^32 notifications are outstanding. *)
Definition keeps_up (first room : Z) (tr : list nevent) : Prop :=
  forall a b s, tr = a ++ b -> n_run (n_start first room) a = Some s -> gives a - taken (n_log s) < 2 ^ 32.

(** The task is not ready. *)
Definition sleeps (s : nt) : Prop := n_sleep s <> Awake.
Definition in_take (s : nt) : Prop := exists c w t, n_pc s = PTake c w t.
Definition in_receive (s : nt) : Prop := exists n w t, n_pc s = PRecv2 n w t.

(** Every sender looks for a waiting reader right after it has stored its bytes, as an
    interrupt does that the reader cannot preempt. [o]: one is between the two. *)
Fixpoint prompt (o : bool) (tr : list nevent) : Prop :=
  match tr with
  | [] => True
  | NData _ :: r => o = false /\ prompt true r
  | NTold _ :: r => o = true /\ prompt false r
  | _ :: r => o = false /\ prompt false r
  end.
