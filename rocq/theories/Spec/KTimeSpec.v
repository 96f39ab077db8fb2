(** Vocabulary for C98: sleeping tasks as seen by someone with a clock that never wraps. *)
From Verif.Model Require Import KTime.

(** What a task does: ready, asleep until a time, asleep until something wakes it, or
    woken while the scheduler was suspended. *)
Inductive sleep := Ready | Until (d : Z) | Forever | Woken.

(** [cl_now]: ticks counted; [cl_pend]: ticks during the suspension of the scheduler,
    not counted yet; [cl_susp]: nested suspensions. *)
Record clock := mkCl { cl_now : Z; cl_pend : Z; cl_susp : Z; cl_task : Z -> sleep }.

Definition asleep (c : clock) (t : Z) : bool :=
  match cl_task c t with Ready => false | Until d => cl_now c <? d | Forever => true | Woken => true end.

Definition set_task (f : Z -> sleep) (t : Z) (s : sleep) : Z -> sleep := fun x => if x =? t then s else f x.

Definition cl_step (c : clock) (ev : tevent) : clock :=
  match ev with
  | TSleep t n f =>
      if asleep c t then c
      else mkCl (cl_now c) (cl_pend c) (cl_susp c)
                (set_task (cl_task c) t (if (n =? portMAX_DELAY) && f then Forever else Until (cl_now c + n)))
  | TWake t =>
      if asleep c t then mkCl (cl_now c) (cl_pend c) (cl_susp c) (set_task (cl_task c) t (if cl_susp c =? 0 then Ready else Woken))
      else c
  | TTick => if cl_susp c =? 0 then mkCl (cl_now c + 1) (cl_pend c) (cl_susp c) (cl_task c)
             else mkCl (cl_now c) (cl_pend c + 1) (cl_susp c) (cl_task c)
  | TSuspend => mkCl (cl_now c) (cl_pend c) (cl_susp c + 1) (cl_task c)
  | TResume =>
      if cl_susp c =? 1
      then mkCl (cl_now c + cl_pend c) 0 0 (fun t => match cl_task c t with Woken => Ready | s => s end)
      else mkCl (cl_now c) (cl_pend c) (cl_susp c - 1) (cl_task c)
  end.
Definition cl_run (c : clock) (tr : list tevent) : clock := fold_left cl_step tr c.
Definition cl_start (first : Z) : clock := mkCl first 0 0 (fun _ => Ready).

(** Sleeping for at least one tick, at most portMAX_DELAY. *)
Definition sleep_ok (ev : tevent) : Prop := match ev with TSleep _ n _ => 1 <= n < 2 ^ 32 | _ => True end.

(** [n] suspensions are open; each resume has its suspension, and fewer than 2^32 ticks
    fall into one suspension. *)
Fixpoint matched (n p : Z) (tr : list tevent) : Prop :=
  match tr with
  | [] => True
  | TSuspend :: r => matched (n + 1) p r
  | TResume :: r => 0 < n /\ matched (n - 1) (if n =? 1 then 0 else p) r
  | TTick :: r => if n =? 0 then matched n p r else p + 1 < 2 ^ 32 /\ matched n (p + 1) r
  | _ :: r => matched n p r
  end.

Definition ticks (tr : list tevent) : Z := Z.of_nat (length (filter (fun e => match e with TTick => true | _ => false end) tr)).

(** Nothing wakes [t], and it does not go to sleep anew. *)
Definition left_alone (t : Z) (ev : tevent) : Prop :=
  match ev with TSleep u _ _ => u <> t | TWake u => u <> t | _ => True end.

(** [t] does not go to sleep anew. *)
Definition not_asleep_anew (t : Z) (ev : tevent) : Prop := match ev with TSleep u _ _ => u <> t | _ => True end.

(** The kernel's counters show the time [n] of a clock that never wraps. *)
Definition at_time (n : Z) (k : ktime) : Prop := kt_tick k = n mod 2 ^ 32 /\ kt_ovf k = n / 2 ^ 32.

(** The answers of a call that waits and checks its time-out in the states [ks], until
    it expires. *)
Fixpoint checks (o : timeout) (ks : list ktime) : list bool :=
  match ks with
  | [] => []
  | k :: r => let p := xTaskCheckForTimeOut k o in fst p :: if fst p then [] else checks (snd p) r
  end.

(** The right answers at the times [ns] for a wait of [n] ticks that began at [start]. *)
Fixpoint right_answers (start n : Z) (ns : list Z) : list bool :=
  match ns with
  | [] => []
  | now :: r => if n <=? now - start then [true] else false :: right_answers start n r
  end.

(** Times that do not decrease, less than 2^32 ticks apart. *)
Fixpoint close_times (last : Z) (ns : list Z) : Prop :=
  match ns with [] => True | n :: r => 0 <= n - last < 2 ^ 32 /\ close_times n r end.
