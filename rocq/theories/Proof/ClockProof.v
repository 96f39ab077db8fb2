From Verif.Model Require Import Clock.
From Verif.Spec Require Import ClockSpec.
From Coq Require Import Lia ZifyBool ZifyNat.

(** Binary and BCD *)
Definition bcd_good (n : Z) : bool :=
  (bcd_to_byte (byte_to_bcd n) =? n) && (0 <=? byte_to_bcd n) &&
  (byte_to_bcd n <? 256) && ((n >=? 80) || (byte_to_bcd n <? 128)) && ((n >=? 40) || (byte_to_bcd n <? 64)) &&
  ((n >=? 20) || (byte_to_bcd n <? 32)).

Lemma in_range n l : 0 <= n < Z.of_nat l -> In n (map Z.of_nat (seq 0 l)).
Proof. intros H. apply in_map_iff. exists (Z.to_nat n). split; [lia|]. apply in_seq. lia. Qed.

Lemma bcd_all n : 0 <= n < 100 -> bcd_good n = true.
Proof.
  intros H. assert (A : forallb bcd_good (map Z.of_nat (seq 0 100)) = true) by (vm_compute; reflexivity).
  rewrite forallb_forall in A. apply A. apply in_range. lia.
Qed.

Lemma bcd_facts n : 0 <= n < 100 ->
  bcd_to_byte (byte_to_bcd n) = n /\ 0 <= byte_to_bcd n < 256 /\ (n < 80 -> byte_to_bcd n < 128) /\
  (n < 40 -> byte_to_bcd n < 64) /\ (n < 20 -> byte_to_bcd n < 32).
Proof. intros H. pose proof (bcd_all n H) as B. unfold bcd_good in B. repeat (apply andb_prop in B as [B ?]). lia. Qed.

(** Fields of a packed word, bit by bit *)
Lemma high_bit b k i : 0 <= b < 2 ^ k -> 0 <= k <= i -> Z.testbit b i = false.
Proof.
  intros B K. destruct (Z.eq_dec b 0) as [->|N]; [apply Z.testbit_0_l|].
  apply Z.bits_above_log2; [lia|]. apply Z.lt_le_trans with k; [|lia]. apply Z.log2_lt_pow2; lia.
Qed.

Lemma lt8 n : 0 <= n < 8 -> n = 0 \/ n = 1 \/ n = 2 \/ n = 3 \/ n = 4 \/ n = 5 \/ n = 6 \/ n = 7.
Proof. lia. Qed.

Lemma eight x y : 0 <= x < 256 -> 0 <= y < 256 ->
  Z.testbit x 0 = Z.testbit y 0 -> Z.testbit x 1 = Z.testbit y 1 -> Z.testbit x 2 = Z.testbit y 2 ->
  Z.testbit x 3 = Z.testbit y 3 -> Z.testbit x 4 = Z.testbit y 4 -> Z.testbit x 5 = Z.testbit y 5 ->
  Z.testbit x 6 = Z.testbit y 6 -> Z.testbit x 7 = Z.testbit y 7 -> x = y.
Proof.
  intros X Y H0 H1 H2 H3 H4 H5 H6 H7. apply Z.bits_inj'. intros n N. assert (Z8 : 0 <= 8) by (clear; lia).
  destruct (Z_lt_le_dec n 8) as [L|L].
  - pose proof (lt8 n (conj N L)) as C.
    repeat (destruct C as [->|C]; [assumption|]). now rewrite C.
  - rewrite (high_bit x 8 n X (conj Z8 L)), (high_bit y 8 n Y (conj Z8 L)). reflexivity.
Qed.

Lemma u8_range z : 0 <= u8 z < 256.
Proof. unfold u8. change (2 ^ 8) with 256. apply Z.mod_pos_bound. lia. Qed.

Lemma u8_bit z i : 0 <= i < 8 -> Z.testbit (u8 z) i = Z.testbit z i.
Proof. intros H. unfold u8. apply Z.mod_pow2_bits_low. lia. Qed.

Ltac idx t := let v := eval vm_compute in t in change t with v.
Ltac bitsolve :=
  repeat (first
    [ rewrite u8_bit by lia | rewrite Z.land_spec | rewrite Z.lor_spec
    | rewrite Z.shiftr_spec by lia | rewrite Z.shiftl_spec by lia ]);
  repeat match goal with
  | |- context [Z.testbit ?b ?i] =>
      match i with context [Z.add _ _] => idx i | context [Z.sub _ _] => idx i end
  end;
  repeat match goal with
  | |- context [Z.testbit (Zpos ?b) ?i] =>
      let v := eval vm_compute in (Z.testbit (Zpos b) i) in change (Z.testbit (Zpos b) i) with v
  end;
  rewrite ?Bool.andb_true_r, ?Bool.andb_false_r, ?Bool.orb_false_r;
  repeat match goal with
  | |- context [Z.testbit ?b (Zneg ?i)] => rewrite (Z.testbit_neg_r b (Zneg i)) by lia
  end;
  rewrite ?Bool.andb_true_r, ?Bool.andb_false_r, ?Bool.orb_false_r, ?Bool.orb_false_l;
  repeat match goal with
  | H : 0 <= ?b < 2 ^ ?k |- context [Z.testbit ?b ?i] =>
      assert_succeeds (assert (k <= i) by lia); rewrite (high_bit b k i H) by lia
  end;
  rewrite ?Bool.andb_true_r, ?Bool.andb_false_r, ?Bool.orb_false_r, ?Bool.orb_false_l;
  try reflexivity.

Lemma tr_fields a b c : 0 <= a < 2 ^ 6 -> 0 <= b < 2 ^ 7 -> 0 <= c < 2 ^ 7 ->
  let v := Z.land (Z.land (Z.lor (Z.lor (Z.shiftl a 16) (Z.shiftl b 8)) c) TR_MASK) TR_MASK in
  u8 (Z.shiftr (Z.land v 0x3F0000) 16) = a /\ u8 (Z.shiftr (Z.land v 0x7F00) 8) = b /\ u8 (Z.land v 0x7F) = c.
Proof.
  intros A B C v. unfold v, TR_MASK. 
  split; [|split]; (apply eight; [apply u8_range|lia|..]); bitsolve.
Qed.

Lemma dr_fields y m d w : 0 <= y < 2 ^ 8 -> 0 <= m < 2 ^ 5 -> 0 <= d < 2 ^ 6 -> 0 <= w < 2 ^ 3 ->
  let v := Z.land (Z.land (Z.lor (Z.lor (Z.lor (Z.shiftl y 16) (Z.shiftl m 8)) d) (Z.shiftl w 13)) DR_MASK) DR_MASK in
  u8 (Z.shiftr (Z.land v 0xFF0000) 16) = y /\ u8 (Z.shiftr (Z.land v 0x1F00) 8) = m /\ u8 (Z.land v 0x3F) = d /\
  u8 (Z.shiftr (Z.land v 0xE000) 13) = w.
Proof.
  intros Y M D W v. unfold v, DR_MASK.
  split; [|split; [|split]]; (apply eight; [apply u8_range|lia|..]); bitsolve.
Qed.

Lemma time_round t : valid_time t -> dec_tr (enc_tr t) = t.
Proof.
  intros (H & M & S). destruct t as [h m s]. cbn [t_h t_m t_s] in *.
  destruct (bcd_facts h ltac:(lia)) as (EH & RH & _ & RH' & _).
  destruct (bcd_facts m ltac:(lia)) as (EM & RM & RM' & _).
  destruct (bcd_facts s ltac:(lia)) as (ES & RS & RS' & _).
  unfold dec_tr, enc_tr. cbn [t_h t_m t_s].
  destruct (tr_fields (byte_to_bcd h) (byte_to_bcd m) (byte_to_bcd s)) as (E1 & E2 & E3);
    [change (2 ^ 6) with 64; lia|change (2 ^ 7) with 128; lia|change (2 ^ 7) with 128; lia|].
  cbv zeta in *. rewrite E1, E2, E3, EH, EM, ES. reflexivity.
Qed.

Lemma month_ok m : 1 <= m <= 12 -> month_in m = m.
Proof.
  intros H. assert (m = 1 \/ m = 2 \/ m = 3 \/ m = 4 \/ m = 5 \/ m = 6 \/ m = 7 \/ m = 8 \/ m = 9 \/ m = 10 \/ m = 11 \/ m = 12) as C by lia.
  repeat (destruct C as [->|C]; [reflexivity|]). now rewrite C.
Qed.

Lemma month_len_le y m : 28 <= month_len y m <= 31.
Proof. unfold month_len. destruct (m =? 2), (y mod 4 =? 0), ((m =? 4) || (m =? 6) || (m =? 9) || (m =? 11)); lia. Qed.

Lemma date_round d : valid_date d -> dec_dr (enc_dr d) = d.
Proof.
  intros (Y & M & D & W). destruct d as [y m d w]. cbn [d_y d_mo d_d d_wd] in *.
  pose proof (month_len_le y m) as L.
  destruct (bcd_facts y ltac:(lia)) as (EY & RY & _).
  destruct (bcd_facts m ltac:(lia)) as (EM & RM & _ & _ & RM').
  destruct (bcd_facts d ltac:(lia)) as (ED & RD & _ & RD' & _).
  unfold dec_dr, enc_dr. cbn [d_y d_mo d_d d_wd]. rewrite month_ok by exact M.
  destruct (dr_fields (byte_to_bcd y) (byte_to_bcd m) (byte_to_bcd d) w) as (E1 & E2 & E3 & E4);
    [change (2 ^ 8) with 256; lia|change (2 ^ 5) with 32; lia|change (2 ^ 6) with 64; lia|change (2 ^ 3) with 8; lia|].
  cbv zeta in *. rewrite E1, E2, E3, E4, EY, EM, ED. reflexivity.
Qed.

(** The calendar *)
Lemma next_date_valid d : valid_date d -> valid_date (next_date d).
Proof.
  intros (Y & M & D & W). unfold valid_date, next_date.
  pose proof (month_len_le (d_y d) (d_mo d + 1)). pose proof (month_len_le ((d_y d + 1) mod 100) 1).
  pose proof (Z.mod_pos_bound (d_y d + 1) 100 ltac:(lia)).
  destruct (d_wd d =? 7) eqn:E7, (d_d d <? month_len (d_y d) (d_mo d)) eqn:E1; [| destruct (d_mo d <? 12) eqn:E2| |destruct (d_mo d <? 12) eqn:E2];
    cbn [d_y d_mo d_d d_wd]; lia.
Qed.

Lemma tick_valid c : valid_cal c -> valid_cal (tick c).
Proof.
  intros [(H & M & S) D]. unfold tick, valid_cal, valid_time.
  destruct (t_s (c_time c) <? 59) eqn:A; [cbn [c_time c_date t_h t_m t_s]; split; [lia|exact D]|].
  destruct (t_m (c_time c) <? 59) eqn:B; [cbn [c_time c_date t_h t_m t_s]; split; [lia|exact D]|].
  destruct (t_h (c_time c) <? 23) eqn:C; cbn [c_time c_date t_h t_m t_s]; split; try lia; [exact D|now apply next_date_valid].
Qed.

Lemma tick_same_day c : valid_cal c -> sec_of_day (c_time c) + 1 < 86400 ->
  sec_of_day (c_time (tick c)) = sec_of_day (c_time c) + 1 /\ c_date (tick c) = c_date c.
Proof.
  intros [(H & M & S) D] L. unfold tick, sec_of_day in *.
  destruct (t_s (c_time c) <? 59) eqn:A; [cbn [c_time c_date t_h t_m t_s]; split; [lia|reflexivity]|].
  destruct (t_m (c_time c) <? 59) eqn:B; [cbn [c_time c_date t_h t_m t_s]; split; [lia|reflexivity]|].
  destruct (t_h (c_time c) <? 23) eqn:C; cbn [c_time c_date t_h t_m t_s]; [split; [lia|reflexivity]|lia].
Qed.

Fixpoint tickn (n : nat) (c : cal) : cal := match n with O => c | S m => tickn m (tick c) end.

Lemma ticks_eq n k : ticks n k = mkClock (tickn n (k_cal k)) (k_held k).
Proof. revert k. induction n as [|n IH]; intros [c h]; [reflexivity|]. cbn [ticks tickn]. rewrite IH. reflexivity. Qed.

Lemma tickn_valid n c : valid_cal c -> valid_cal (tickn n c).
Proof. revert c. induction n as [|n IH]; intros c V; [exact V|]. apply IH. now apply tick_valid. Qed.

Lemma tickn_same_day n c : valid_cal c -> sec_of_day (c_time c) + Z.of_nat n < 86400 ->
  sec_of_day (c_time (tickn n c)) = sec_of_day (c_time c) + Z.of_nat n /\ c_date (tickn n c) = c_date c.
Proof.
  revert c. induction n as [|n IH]; intros c V L; [cbn [tickn]; split; [lia|reflexivity]|].
  destruct (tick_same_day c V ltac:(lia)) as [E D]. cbn [tickn].
  destruct (IH (tick c) (tick_valid c V) ltac:(lia)) as [E2 D2]. rewrite E2, D2, E. split; [lia|exact D].
Qed.

Lemma get_exact k n m : valid_cal (shown k) ->
  get_date_time k n m = (shown k, mkClock (tickn m (tickn n (k_cal k))) None).
Proof.
  intros V. unfold get_date_time, get_time, get_date, hold. rewrite !ticks_eq. cbn [k_cal k_held]. unfold shown. cbn [k_held].
  fold (shown k). rewrite time_round, date_round by apply V. destruct (shown k). reflexivity.
Qed.
