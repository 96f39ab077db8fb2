(** What the timers have to do. *)
From Verif.Model Require Import WheelTimer.

(** Interrupts a periodic source of [period] cycles has raised [n] cycles after
    its start. *)
Definition periodic (period n : Z) : Z := n / period.

(** A timer raises exactly [k] interrupts in every [w] consecutive cycles,
    whenever that window begins. *)
Definition rate (t : tim) (k w : Z) : Prop :=
  forall n, interrupts t (n + Z.to_nat w) - interrupts t n = k.

(** The sensor samples and task runs in a trace, for a sampling timer of the
    given period that has run [c] cycles and a task timer alike. A task run with
    no notification pending does nothing and is left out. *)
Fixpoint seen (p2 p3 c : Z) (note : bool) (tr : list wheel_event) : list ws_event :=
  match tr with
  | [] => []
  | Cycle f r :: tl =>
      (if (c + 1) mod p3 =? 0 then [WsIrq f r] else []) ++
      seen p2 p3 (c + 1) (note || ((c + 1) mod p2 =? 0)) tl
  | RunTask l :: tl => if note then WsTick l :: seen p2 p3 c false tl else seen p2 p3 c note tl
  end.
