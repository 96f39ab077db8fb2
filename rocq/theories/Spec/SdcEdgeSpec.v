(** Reporting of shutdown-circuit edges (C60). *)
From Verif.Model Require Export SdcEdge.
From Verif.Spec Require Export IoSpec.

(** Everything handled: no interrupt pending, the task waits. *)
Definition settled (h : sdc_hw) : Prop := hw_pending h = false /\ idle (hw_w h).
(** Every input that is high in [a] is high in [b]. *)
Definition high_in (a b : sdc_t) : Prop :=
  (s_bms a = true -> s_bms b = true) /\ (s_bspd a = true -> s_bspd b = true) /\
  (s_imd a = true -> s_imd b = true) /\ (s_out a = true -> s_out b = true).
Definition hw_locks_ok (es : list hw_event) : Prop := ~ In (HwTask false) es.
(** Only the interrupt handler and the task run. *)
Definition only_software (es : list hw_event) : Prop :=
  forall e, In e es -> e = HwIrq \/ exists lock, e = HwTask lock.
