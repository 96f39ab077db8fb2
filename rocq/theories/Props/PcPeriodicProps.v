(** C36, C37: what the PC learns on its own. *)
From Coq Require Import ZifyBool ZifyNat.
From Verif.Base Require Import Mem Stream Text.
From Verif.Model Require Import VehicleState MsgFrame PcPeriodic.
From Verif.Spec Require Import FrameSpec PcPeriodicSpec.
From Verif.Proof Require Import MemFacts FrameProof PcPeriodicProof.
Ltac Zify.zify_post_hook ::= Z.div_mod_to_equations.

(** ** C36 *)
(** Every state: in a broadcast pass both ports get the same eleven frames, the
    PC accepts each, they carry the ids 1 to 11 in order, and except for id 6
    each value read stands for the value the id names, floats bit for bit.
    Missing: id 6, refuted below. *)
Theorem C36_fields_true_partial :
  forall d counter locks buffer, state_ok d -> length buffer = 18%nat -> counter mod 100 = 0 ->
    Forall (eq true) locks ->
    exists b o, periodicStateUpdate true counter (Some d) locks buffer = Some (b, o) /\
      on_port UartA o = on_port UartB o /\
      Forall (fun w => pc_accepts 18 1 w = true) (on_port UartA o) /\
      map (fun w => fst (pc_field w)) (on_port UartA o) = [1; 2; 3; 4; 5; 6; 7; 8; 9; 10; 11] /\
      forall w, In w (on_port UartA o) -> fst (pc_field w) <> 6 ->
        exists v, true_value d (fst (pc_field w)) = Some v /\ reads (snd (pc_field w)) v.
Proof.
  intros d counter locks buffer OK LB C LK. unfold periodicStateUpdate, COUNT_1HZ. rewrite C.
  change (0 =? 0) with true. cbn [negb].
  destruct (send_all_frames (sent_fields d) locks buffer LB) as (b & E & _); [|exact LK|].
  { repeat constructor; cbn; lia. }
  eexists _, _. split; [exact E|]. clear E.
  rewrite !flat_map_ports. split; [reflexivity|]. split.
  { apply Forall_forall. intros w Hw. apply in_map_iff in Hw. destruct Hw as (x & <- & _). apply field_accepted. }
  destruct OK as (B1 & B2 & B3 & B4 & B5 & F1 & F2 & F3 & F4 & F5).
  assert (RD : forall x, In x (sent_fields d) ->
            pc_field (encode 2 1 (state_payload (fst (fst x)) (snd (fst x)) (snd x))) = (fst (fst x), snd x)).
  { assert (BZ : forall b, 0 <= b2z b < 256) by (intros []; cbn; lia).
    unfold is_byte in *. intros x Hx. apply pc_reads_field; unfold sent_fields in Hx; cbv zeta in Hx.
    - repeat (destruct Hx as [<- | Hx]; [cbn [fst]; unfold is_u16; lia|]). destruct Hx.
    - repeat (destruct Hx as [<- | Hx];
        [cbn [fst snd]; first
          [ right; split; [reflexivity|]; now apply f_bits_range
          | left; split; [reflexivity|]; first [assumption | apply BZ | idtac ] ]|]).
      3: destruct Hx.
      + rewrite sdc_value. destruct (vs_sdc d) as [[] [] [] []]; cbn [s_bms s_bspd s_imd s_out b2z]; lia.
      + rewrite pdm_value. cbv zeta.
        assert (BO : forall i, 0 <= b2z (nth i (vs_glv d) false) <= 1)
          by (intros i; destruct (nth i (vs_glv d) false); cbn [b2z]; lia).
        pose proof (BO 0%nat). pose proof (BO 1%nat). pose proof (BO 2%nat).
        pose proof (BO 3%nat). pose proof (BO 4%nat). pose proof (BO 5%nat). lia. }
  split.
  - rewrite map_map. erewrite map_ext_in; [|intros x Hx; rewrite (RD x Hx); reflexivity]. reflexivity.
  - intros w Hw N. apply in_map_iff in Hw. destruct Hw as (x & <- & Hx). rewrite (RD x Hx) in *. cbn [fst snd] in *.
    unfold sent_fields in Hx. cbv zeta in Hx.
    repeat (destruct Hx as [<- | Hx]; [cbn [fst snd] in *; try lia;
      (eexists; split; [reflexivity|]; cbn [reads]; first [now apply bits_float | reflexivity | apply sdc_value | apply pdm_value])|]).
    destruct Hx.
Qed.
Print Assumptions C36_fields_true_partial.

(** Id 6 is named for the hottest cell and carries the coldest one. *)
Definition two_cells : vstate :=
  set_battery zero_vstate
    (mkBattery f_zero f_zero f_zero f_zero 3 17 5 42 f_zero f_zero f_zero false 0 0 0).
Theorem C36_hottest_cell_refuted :
  exists d o b w, state_ok d /\
    periodicStateUpdate true 0 (Some d) [] (repeat 0 18) = Some (b, o) /\
    In w (on_port UartA o) /\ pc_accepts 18 1 w = true /\ pc_field w = (6, 42) /\
    true_value d 6 = Some (Num 17).
Proof.
  exists two_cells. eexists _, _, (encode 2 1 (state_payload 6 1 42)).
  split. { unfold state_ok, is_byte. cbn. repeat split; lia. }
  split; [vm_compute; reflexivity|]. split; [vm_compute; auto 10|].
  split; [vm_compute; reflexivity|]. split; [vm_compute; reflexivity|reflexivity].
Qed.
Print Assumptions C36_hottest_cell_refuted.

Example C36_applies : state_ok two_cells /\ length (repeat 0 18) = 18%nat /\ 700 mod 100 = 0.
Proof. split; [unfold state_ok, is_byte; cbn; repeat split; lia|split; reflexivity]. Qed.

(** Once a second: of any hundred consecutive passes (10 ms apart) before the
    32-bit counter wraps, exactly one broadcasts. *)
Theorem C36_once_a_second :
  forall c buffer l, 0 <= c -> c + 100 <= 2 ^ 32 -> length buffer = 18%nat -> length l = 100%nat ->
    Forall (fun x => exists d, fst x = Some d) l -> Forall (fun x => Forall (eq true) (snd x)) l ->
    exists st os, broadcast_passes true (c, buffer) l = Some (st, os) /\ length os = 100%nat /\
      exists k, (k < 100)%nat /\ nth k os [] <> [] /\ forall j, (j < 100)%nat -> j <> k -> nth j os [] = [].
Proof.
  intros c buffer l C0 C1 LB LL FS FL. change (2 ^ 32) with 4294967296 in C1.
  destruct (passes_count l c buffer LB FS FL) as (st & os & E & LO & K); [change (2 ^ 32) with 4294967296; lia|].
  exists st, os. split; [exact E|]. split; [congruence|]. rewrite LL in K.
  assert (U : forall k, (k < 100)%nat -> u32 (c + Z.of_nat k) = c + Z.of_nat k).
  { intros k Hk. unfold u32. change (2 ^ 32) with 4294967296. lia. }
  exists (Z.to_nat ((- c) mod 100)). split; [lia|]. split.
  - apply K; [lia|]. rewrite U by lia. lia.
  - intros j Hj N. destruct (nth j os []) eqn:EJ; [reflexivity|]. exfalso.
    assert (NE : nth j os [] <> []) by (rewrite EJ; discriminate).
    apply K in NE; [|exact Hj]. rewrite U in NE by exact Hj. lia.
Qed.
Print Assumptions C36_once_a_second.
Example C36_cadence_applies :
  let l := repeat (Some zero_vstate, @nil bool) 100 in
  length l = 100%nat /\ Forall (fun x => exists d, fst x = Some d) l /\ Forall (fun x => Forall (eq true) (snd x)) l.
Proof.
  cbv zeta. split; [reflexivity|]. split; apply Forall_forall; intros x Hx; apply repeat_spec in Hx; subst; cbn; eauto.
Qed.

(** Nothing is broadcast while state updates are disabled, and nothing in a pass
    that could not copy the vehicle state. *)
Theorem C36_silent_when_disabled :
  forall l st, exists st' os, broadcast_passes false st l = Some (st', os) /\ length os = length l /\
    Forall (fun o => o = []) os.
Proof.
  induction l as [|(snap & locks) l IH]; intros (c & buffer); cbn [broadcast_passes].
  - eexists _, _. split; [reflexivity|]. split; [reflexivity|constructor].
  - unfold broadcast_pass. cbn [periodicStateUpdate negb].
    destruct (IH (u32 (c + 1), buffer)) as (st' & os & E & LO & F). rewrite E.
    eexists _, _. split; [reflexivity|]. cbn [length]. split; [now rewrite LO|]. now constructor.
Qed.
Print Assumptions C36_silent_when_disabled.

Theorem C36_silent_without_snapshot :
  forall enabled l st, Forall (fun x => fst x = None) l ->
    exists st' os, broadcast_passes enabled st l = Some (st', os) /\ length os = length l /\
    Forall (fun o => o = []) os.
Proof.
  induction l as [|(snap & locks) l IH]; intros (c & buffer) H; cbn [broadcast_passes].
  - eexists _, _. split; [reflexivity|]. split; [reflexivity|constructor].
  - inversion H as [|x y E0 H']; subst. cbn [fst] in E0. subst snap.
    unfold broadcast_pass, periodicStateUpdate.
    assert (Q : (if negb enabled then Some (buffer, @nil uart_out)
                 else if negb (c mod COUNT_1HZ =? 0) then Some (buffer, []) else Some (buffer, []))
                = Some (buffer, [])).
    { destruct (negb enabled), (negb (c mod COUNT_1HZ =? 0)); reflexivity. }
    rewrite Q. destruct (IH (u32 (c + 1), buffer) H') as (st' & os & E & LO & F). rewrite E.
    eexists _, _. split; [reflexivity|]. cbn [length]. split; [now rewrite LO|]. now constructor.
Qed.
Print Assumptions C36_silent_without_snapshot.

(** ** C37 *)
(** Any interleaving of log calls (any message, lock available or not) and
    iterations of the sending loop: the non-padding payloads sent so far followed
    by what is still in the stream are exactly the bytes stored in the stream. Both
    ports carry the same frames, and all are valid if the CRC unit was available. *)
Theorem C37_text_unaltered :
  forall evs buffer b s o stored, length buffer = 43%nat -> log_run buffer [] evs = Some (b, s, o, stored) ->
      on_port UartA o = on_port UartB o /\
      stored = log_text (on_port UartA o) ++ s /\
      ((forall l, In (Flush l) evs -> l = true) -> Forall (fun w => pc_accepts 43 2 w = true) (on_port UartA o)).
Proof.
  intros evs buffer b s o stored LB R.
  destruct (log_history evs buffer [] LB) as (b' & s' & o' & st' & E & _ & _ & _ & P & T & _ & V);
    [constructor|simpl; lia|right; now rewrite R|].
  rewrite R in E.
  assert (Q : s' = s /\ o' = o /\ st' = stored).
  { split; [|split].
    - now apply (f_equal (fun x => match x with Some (_, y, _, _) => y | None => s' end)) in E.
    - now apply (f_equal (fun x => match x with Some (_, _, y, _) => y | None => o' end)) in E.
    - now apply (f_equal (fun x => match x with Some (_, _, _, y) => y | None => st' end)) in E. }
  destruct Q as (-> & -> & ->). split; [exact P|]. split; [exact T|].
  intros H. apply V. intros I. apply H in I. discriminate.
Qed.
Print Assumptions C37_text_unaltered.

(** If no message is empty, logging never misbehaves, and no frame is cut. *)
Theorem C37_logging_safe :
  forall evs buffer, length buffer = 43%nat -> no_empty_message evs ->
    exists b s o stored, log_run buffer [] evs = Some (b, s, o, stored) /\
      Forall (fun w => length w = 43%nat) (on_port UartA o) /\ (length s <= LOG_STREAM_CAP)%nat.
Proof.
  intros evs buffer LB NE.
  destruct (log_history evs buffer [] LB) as (b & s & o & st & E & _ & _ & L & _ & _ & F & _);
    [constructor|simpl; lia|now left|]. exists b, s, o, st. auto.
Qed.
Print Assumptions C37_logging_safe.

(** One pass of the loop (at most 64 frames) empties any stream content. *)
Theorem C37_nothing_left_behind :
  forall locks buffer stream, length buffer = 43%nat -> Forall (fun c => c <> 0) stream ->
    (length stream <= LOG_STREAM_CAP)%nat ->
    exists b o, flushLogMessage 64 locks buffer stream = Some (b, [], o) /\
      on_port UartA o = on_port UartB o /\ log_text (on_port UartA o) = stream.
Proof.
  intros locks buffer stream LB NZ LS. unfold LOG_STREAM_CAP in LS.
  destruct (flush_drains 64 locks buffer stream LB NZ) as (b & o & E & _ & P & T); [lia|]. eauto.
Qed.
Print Assumptions C37_nothing_left_behind.

(** Messages fit whole as long as there is room: only text beyond 512 characters
    or beyond the free space is dropped, always at the end. *)
Theorem C37_stored_text :
  forall stream msg rest, msg <> [] -> ~ In 0 msg -> (length msg <= 512)%nat ->
    (length stream + length msg <= LOG_STREAM_CAP)%nat ->
    Log_Print true stream (msg ++ 0 :: rest) = Some (stream ++ msg).
Proof.
  intros stream msg rest NE NZ L C. unfold Log_Print, log_bytes, LOGGING_MAX_MSG_LEN.
  assert (CS : cstr (msg ++ 0 :: rest) = msg).
  { clear -NZ. induction msg as [|c m IH]; [reflexivity|]. simpl. destruct (Z.eqb_spec c 0) as [->|N].
    - exfalso. apply NZ. now left.
    - rewrite IH; [reflexivity|]. intros I. apply NZ. now right. }
  rewrite CS. rewrite (firstn_all2 (n := 512)) by lia. rewrite stream_send_checked_ok by exact NE.
  unfold stream_send. now rewrite firstn_all2 by lia.
Qed.
Print Assumptions C37_stored_text.

(** The empty message: if the log stream has room, the kernel's assertion stops
    the controller with the interrupts off (C74). *)
Theorem C37_empty_message_stops_refuted :
  forall buffer stream rest, (length stream < LOG_STREAM_CAP)%nat ->
    log_run buffer stream [Write true (0 :: rest)] = None.
Proof.
  intros buffer stream rest H. cbn [log_run log_step]. unfold Log_Print, log_bytes, stream_send_checked.
  cbn [cstr Z.eqb]. rewrite firstn_nil. now rewrite (proj2 (Nat.ltb_lt _ _) H).
Qed.
Print Assumptions C37_empty_message_stops_refuted.

Example C37_applies :
  let msg := [72; 105; 10] ++ repeat 65 40 ++ [0; 9] in
  match log_run (repeat 0 43) [] [Write true msg; Flush true; Write false msg; Write true [66; 0]; Flush true; Flush true] with
  | Some (_, s, o, stored) => s = [] /\ length (on_port UartA o) = 2%nat /\ stored = [72; 105; 10] ++ repeat 65 40 ++ [66]
                              /\ log_text (on_port UartB o) = stored
  | None => False
  end.
Proof. vm_compute. auto. Qed.
