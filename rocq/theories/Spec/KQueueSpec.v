(** Vocabulary for C97: what callers see of a kernel queue. *)
From Verif.Model Require Import KQueue.

(** The items whose sending succeeded, and those received, in order. *)
Definition accepted (log : list (option Z * kres)) : list (list Z) :=
  flat_map (fun e => match snd e with Sent x => [x] | _ => [] end) log.
Definition delivered (log : list (option Z * kres)) : list (list Z) :=
  flat_map (fun e => match snd e with Got x => [x] | _ => [] end) log.

(** Those sent and not yet received. *)
Definition held (log : list (option Z * kres)) : list (list Z) :=
  skipn (length (delivered log)) (accepted log).

(** The storage fits a queue of [len] items of [size] bytes. *)
Definition storage_ok (mem : list Z) (len size : Z) : Prop :=
  0 < len < 2 ^ 32 /\ 0 <= size /\ len * size < 2 ^ 32 /\ Z.of_nat (length mem) = len * size.

(** Every item given to the queue has its size. *)
Definition item_ok (size : Z) (ev : kevent) : Prop :=
  match ev with
  | KCall _ (Send x) _ | KIsrSend x => Z.of_nat (length x) = size
  | _ => True
  end.

(** The run of a new queue. *)
Definition kqueue_run (prio : Z -> Z) (mem : list Z) (len size : Z) (tr : list kevent) : option ksys :=
  ks_run prio (ks_init mem len size) tr.

(** Only the tasks [ts] call. *)
Definition called_by (ts : list Z) (ev : kevent) : Prop := match ev with KCall t _ _ => In t ts | _ => True end.

(** No interrupt sends, respectively receives. *)
Definition no_isr_send (ev : kevent) : Prop := match ev with KIsrSend _ => False | _ => True end.
Definition no_isr_receive (ev : kevent) : Prop := match ev with KIsrReceive => False | _ => True end.

(** Tasks of higher priority come first. *)
Fixpoint by_priority (prio : Z -> Z) (l : list Z) : Prop :=
  match l with
  | a :: (b :: _) as r => prio b <= prio a /\ by_priority prio r
  | _ => True
  end.

(** No call may wait. *)
Definition never_waits (ev : kevent) : Prop := match ev with KCall _ _ w => w = false | _ => True end.

(** What a call that does not wait returns, given the items held and the length. *)
Definition answer (len : Z) (items : list (list Z)) (o : kop) : kres :=
  match o, items with
  | Send x, _ => if Z.of_nat (length items) <? len then Sent x else Full
  | Receive, x :: _ => Got x
  | Receive, [] => Empty
  end.
