(** Vocabulary for C91: reaction time in ticks of the 100 Hz timer. *)
From Verif.Model Require Import RealTime.
From Verif.Spec Require Import FaultSpec InverterSpec EcuSpec.

(** Timer ticks in a run; one tick is 10 ms. *)
Fixpoint ticks_in (tr : list rt_event) : Z :=
  match tr with
  | [] => 0
  | RtTick :: t => 1 + ticks_in t
  | RtEcu _ :: t => ticks_in t
  end.

(** Both tasks have finished what they were woken for and wait for the timer. *)
Definition idle (x : timed) : Prop :=
  e_pend (rt_ecu x) = None /\ e_tpc (rt_ecu x) = TIdle /\ rt_nv x = 0 /\ rt_nt x = 0.

(** From [x] on, the tasks keep up with the timer: each tick finds both idle. *)
Fixpoint keeps_up (c : config) (tick : Z) (x : timed) (tr : list rt_event) : Prop :=
  match tr with
  | [] => True
  | ev :: t =>
      match ev with RtTick => idle x | RtEcu _ => True end /\
      keeps_up c tick (rt_step c tick x ev) t
  end.

(** Every snapshot the state manager takes satisfies [P]. *)
Definition sees (P : vsm_in -> Prop) (ev : rt_event) : Prop :=
  match ev with RtEcu (EvVsm i) => P i | _ => True end.

(** The snapshot was obtained and shows fault condition [k]. *)
Definition shows (c : config) (k : fault_kind) (i : vsm_in) : Prop :=
  exists d, vi_snap i = Some d /\ fault_cond c k d = true.

(** The setters of the throttle controller wait without limit (see [waits]). *)
Definition rt_waits (ev : rt_event) : Prop :=
  match ev with RtEcu e => waits e | RtTick => True end.

(** No command from the PC or the debug terminal sets the error output. *)
Definition no_pc (ev : rt_event) : Prop :=
  match ev with RtEcu e => is_pc e = false | RtTick => True end.

(** The event puts frame [t] on the list of frames sent. *)
Definition rt_sends (c : config) (tick : Z) (x : timed) (ev : rt_event) (t : tx) : Prop :=
  exists l, e_sent (rt_ecu (rt_step c tick x ev)) = e_sent (rt_ecu x) ++ l /\ In t l.
