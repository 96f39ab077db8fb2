(** C81: a configured CAN bus receives every frame. *)
From Verif.Model Require Import CanFilter.
From Verif.Spec Require Import CanFilterSpec.
From Verif.Proof Require Import CanFilterProof.

(** After the shipped start-up every frame on each of the three buses, standard or
    extended, reaches the receive FIFO the driver serves, and the calls succeed. *)
Theorem C81_shipped_order_hears_all :
  forall d, hears_all (config_all shipped_config) d.
Proof. intros d f. rewrite hears. destruct d; reflexivity. Qed.
Print Assumptions C81_shipped_order_hears_all.

Example C81_ex :
  to_fifo0 (config_all shipped_config) DEV1 (mkFrame 0x7FF false false) = true /\
  to_fifo0 cells_reset DEV1 (mkFrame 0x7FF false false) = false.
Proof. split; reflexivity. Qed.

(** For any sequence of configuration calls: CAN2 and CAN3 hear everything once
    they are configured; CAN1 does if it is configured and the last configuration
    of CAN1 and CAN2 was that of CAN2. In every other case the bus hears nothing. *)
Theorem C81_exact_partial :
  forall l,
    (configured l DEV2 -> hears_all (config_all l) DEV2) /\
    (configured l DEV3 -> hears_all (config_all l) DEV3) /\
    (configured l DEV1 /\ can2_last l -> hears_all (config_all l) DEV1) /\
    (~ configured l DEV2 -> deaf (config_all l) DEV2) /\
    (~ configured l DEV3 -> deaf (config_all l) DEV3) /\
    (~ (configured l DEV1 /\ can2_last l) -> deaf (config_all l) DEV1).
Proof.
  intros l. unfold configured.
  assert (H : forall d, ~ In d l -> has l d = false).
  { intros d N. destruct (has l d) eqn:E; [|reflexivity]. now apply has_in in E. }
  repeat split.
  - intros I f. rewrite hears. now apply has_in.
  - intros I f. rewrite hears. now apply has_in.
  - intros [I L] f. rewrite hears. apply has_in in I. apply last_can2 in L. now rewrite I, L.
  - intros N f. rewrite hears. now apply H.
  - intros N f. rewrite hears. now apply H.
  - intros N f. rewrite hears. destruct (has l DEV1) eqn:E; [|reflexivity].
    destruct (last_shared l) as [[]|] eqn:L; try reflexivity.
    elim N. split; [now apply has_in|now apply last_can2].
Qed.
Print Assumptions C81_exact_partial.

(** So it does not hold for every order: configured on its own, or after CAN2, the
    CAN1 bus hears nothing at all, and the calls still report success. *)
Theorem C81_order_matters_refuted :
  deaf (config_all [DEV2; DEV1; DEV3]) DEV1 /\ deaf (config_all [DEV1]) DEV1 /\
  snd (CAN_Config (config_all [DEV2]) DEV1) = true /\ snd (CAN_Config cells_reset DEV1) = true.
Proof. split; [intros f; now rewrite hears|]. split; [intros f; now rewrite hears|]. split; reflexivity. Qed.
Print Assumptions C81_order_matters_refuted.
