(** Words for the claim that a wait ends in time. *)
From Verif.Model Require Import KNotify.
From Verif.Spec Require Import KNotifySpec.

(** The tick count at the return is at most that at the call plus the time given; a wait
    without limit has no such bound. *)
Definition in_time (r : nret) : Prop :=
  match r with
  | RTake _ w t0 t1 _ | RRecv _ w t0 t1 _ | RSend _ w t0 t1 _ => w = portMAX_DELAY \/ t1 <= t0 + w
  end.

(** Nobody suspends the scheduler, and no tick comes while the task is ready inside a
    call: what it does between its sleeps takes less than a tick. *)
Definition runs_at_once (first room : Z) (tr : list nevent) : Prop :=
  ~ In NSuspend tr /\
  forall a b s, tr = a ++ NTick :: b -> n_run (n_start first room) a = Some s -> outside s = true \/ sleeps s.
