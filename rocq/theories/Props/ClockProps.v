(** C86: date and time. *)
From Verif.Model Require Import Clock.
From Verif.Spec Require Import ClockSpec.
From Verif.Proof Require Import ClockProof.

(** One reader: however long its reads are held up, the date and time it gets are
    those the calendar showed at one instant, when the read began. *)
Theorem C86_read_is_one_instant_partial :
  forall c n m, valid_cal c -> fst (get_date_time (mkClock c None) n m) = c.
Proof. intros c n m V. rewrite get_exact by exact V. reflexivity. Qed.
Print Assumptions C86_read_is_one_instant_partial.

(** Setting and then reading: the date is the one set and the time the one set
    plus the seconds gone by, for every valid date and time, if no midnight falls
    inside the setting and before the reading. *)
Theorem C86_set_then_read_partial :
  forall c0 c n1 n2 n m, valid_cal c0 -> valid_cal c ->
    sec_of_day (c_time c) + Z.of_nat n1 + Z.of_nat n2 < 86400 ->
    let (ok, k) := set_date_time (mkClock c0 None) c n1 true true in
    let got := fst (get_date_time (ticks n2 k) n m) in
    ok = true /\ valid_cal got /\ c_date got = c_date c /\
    sec_of_day (c_time got) = sec_of_day (c_time c) + Z.of_nat n1 + Z.of_nat n2.
Proof.
  intros c0 c n1 n2 n m V0 V L. unfold set_date_time, set_time, set_date. cbn [k_cal c_date k_held].
  rewrite time_round by apply V. rewrite ticks_eq. cbn [k_cal k_held]. rewrite date_round by apply V.
  set (c1 := mkCal (c_time c) (c_date c0)).
  assert (V1 : valid_cal c1) by (split; [apply V|apply V0]).
  destruct (tickn_same_day n1 c1 V1 ltac:(cbn [c1 c_time]; lia)) as [E1 _].
  rewrite ticks_eq. cbn [k_cal k_held].
  set (c2 := mkCal (c_time (tickn n1 c1)) (c_date c)).
  assert (V2 : valid_cal c2) by (split; [apply (tickn_valid n1 c1 V1)|apply V]).
  assert (S2 : sec_of_day (c_time c2) = sec_of_day (c_time c) + Z.of_nat n1) by (cbn [c2 c_time]; exact E1).
  destruct (tickn_same_day n2 c2 V2 ltac:(lia)) as [E2 D2].
  rewrite get_exact by (apply tickn_valid; exact V2). cbn [fst shown k_held k_cal].
  split; [reflexivity|]. split; [apply tickn_valid; exact V2|]. split; [exact D2|lia].
Qed.
Print Assumptions C86_set_then_read_partial.

Example C86_set_ex :
  let c := mkCal (mkTime 23 59 50) (mkDate 24 2 29 4) in
  valid_cal c /\ sec_of_day (c_time c) + 3 + 4 < 86400 /\
  let k := snd (set_date_time (mkClock (mkCal (mkTime 0 0 0) (mkDate 0 1 1 1)) None) c 3 true true) in
  fst (get_date_time (ticks 4 k) 20 30) = mkCal (mkTime 23 59 57) (mkDate 24 2 29 4).
Proof.
  cbv zeta. split; [|split; [reflexivity|reflexivity]].
  repeat split; vm_compute; congruence.
Qed.

(** The setting is not one step. If midnight passes between the time and the date,
    the clock is a day slow from then on: 23:59:59 on 28 February is set, one second
    later the clock says midnight of 28 February. *)
Theorem C86_day_lost_refuted :
  let c := mkCal (mkTime 23 59 59) (mkDate 23 2 28 2) in
  let (ok, k) := set_date_time (mkClock (mkCal (mkTime 12 0 0) (mkDate 0 1 1 6)) None) c 1 true true in
  valid_cal c /\ ok = true /\
  fst (get_date_time k 0 0) = mkCal (mkTime 0 0 0) (mkDate 23 2 28 2) /\
  tick c = mkCal (mkTime 0 0 0) (mkDate 23 3 1 3).
Proof.
  vm_compute. repeat split; discriminate.
Qed.
Print Assumptions C86_day_lost_refuted.

(** A failure between the two leaves the new time with the old date. *)
Theorem C86_half_set_refuted :
  forall c0 c n, valid_cal c0 -> valid_cal c ->
    sec_of_day (c_time c) + Z.of_nat n < 86400 ->
    let (ok, k) := set_date_time (mkClock c0 None) c n true false in
    ok = false /\ c_date (k_cal k) = c_date c0 /\
    sec_of_day (c_time (k_cal k)) = sec_of_day (c_time c) + Z.of_nat n.
Proof.
  intros c0 c n V0 V L. unfold set_date_time, set_time, set_date. cbn [k_cal c_date k_held].
  rewrite time_round by apply V. rewrite ticks_eq. cbn [k_cal k_held].
  set (c1 := mkCal (c_time c) (c_date c0)).
  assert (V1 : valid_cal c1) by (split; [apply V|apply V0]).
  destruct (tickn_same_day n c1 V1 ltac:(cbn [c1 c_time]; lia)) as [E1 D1].
  split; [reflexivity|]. split; [exact D1|exact E1].
Qed.
Print Assumptions C86_half_set_refuted.

(** Two readers: the second one's date read ends the hold of the first. The first
    then gets 23:59:59 on 1 January, a date and time nearly a day ahead that the
    calendar has not shown. *)
Theorem C86_two_readers_refuted :
  let k0 := mkClock (mkCal (mkTime 23 59 59) (mkDate 23 12 31 7)) None in
  let (tA, k1) := get_time k0 0 in
  let (cB, k2) := get_date_time k1 0 0 in
  let (dA, k3) := get_date (ticks 1 k2) in
  cB = k_cal k0 /\ mkCal tA dA = mkCal (mkTime 23 59 59) (mkDate 24 1 1 1) /\
  k_cal k3 = mkCal (mkTime 0 0 0) (mkDate 24 1 1 1).
Proof. vm_compute. repeat split. Qed.
Print Assumptions C86_two_readers_refuted.
