(** Proofs about the state broadcast and the log text. *)
From Coq Require Import SpecFloat ZifyBool ZifyNat.
From Verif.Base Require Import Mem Stream Text.
From Verif.Model Require Import VehicleState MsgFrame PcPeriodic.
From Verif.Spec Require Import FrameSpec PcPeriodicSpec.
From Verif.Proof Require Import MemFacts BitFacts FrameProof.
Ltac Zify.zify_post_hook ::= Z.div_mod_to_equations.

(** ** Float bit patterns *)
Lemma digits_bounds : forall p, 2 ^ (Zpos (digits2_pos p) - 1) <= Zpos p < 2 ^ Zpos (digits2_pos p).
Proof.
  induction p as [p IH|p IH|]; cbn [digits2_pos].
  - rewrite Pos2Z.inj_succ. replace (Z.succ (Zpos (digits2_pos p)) - 1) with (Zpos (digits2_pos p)) by lia.
    rewrite Z.pow_succ_r by lia. rewrite (Pos2Z.inj_xI p).
    assert (E : 2 ^ Zpos (digits2_pos p) = 2 * 2 ^ (Zpos (digits2_pos p) - 1)).
    { rewrite <- Z.pow_succ_r by lia. f_equal. lia. }
    lia.
  - rewrite Pos2Z.inj_succ. replace (Z.succ (Zpos (digits2_pos p)) - 1) with (Zpos (digits2_pos p)) by lia.
    rewrite Z.pow_succ_r by lia. rewrite (Pos2Z.inj_xO p).
    assert (E : 2 ^ Zpos (digits2_pos p) = 2 * 2 ^ (Zpos (digits2_pos p) - 1)).
    { rewrite <- Z.pow_succ_r by lia. f_equal. lia. }
    lia.
  - vm_compute. split; [discriminate|reflexivity].
Qed.

Lemma finite_shape : forall s m e, f_ok (S754_finite s m e) = true ->
  (Zpos m < 2 ^ 23 /\ e = -149) \/ (2 ^ 23 <= Zpos m < 2 ^ 24 /\ -149 <= e <= 104).
Proof.
  intros s m e H. unfold f_ok, valid_binary, bounded, canonical_mantissa in H.
  apply andb_prop in H. destruct H as [H1 H2]. apply Zeq_bool_eq in H1. apply Zle_bool_imp_le in H2.
  unfold fexp, SpecFloat.emin in H1. pose proof (digits_bounds m) as D.
  set (d := Zpos (digits2_pos m)) in *. assert (d > 0) by (unfold d; lia).
  destruct (Z_lt_ge_dec d 24) as [L|G].
  - left. assert (2 ^ d <= 2 ^ 23) by (apply Z.pow_le_mono_r; lia). lia.
  - right. assert (E : d = 24) by lia. rewrite E in D. change (24 - 1) with 23 in D. lia.
Qed.

Lemma bits_float : forall x, f_ok x = true -> float_of_bits (f_bits x) = x.
Proof.
  intros [s|s| |s m e] H; [destruct s; vm_compute; reflexivity..|vm_compute; reflexivity|].
  unfold f_bits, float_of_bits.
  change (2 ^ 31) with 2147483648 in *. 
  destruct (finite_shape s m e H) as [[L ->]|[[L1 L2] [E1 E2]]];
    change (2 ^ 23) with 8388608 in *; change (2 ^ 24) with 16777216 in *.
  - destruct (Z.ltb_spec (Zpos m) 8388608); [|lia].
    set (z := (if s then 2147483648 else 0) + Zpos m).
    assert (ZM : z mod 2147483648 = Zpos m) by (unfold z; destruct s; lia). rewrite ZM.
    assert (ZS : (2147483648 <=? z) = s) by (unfold z; destruct s; lia). rewrite ZS.
    rewrite Z.div_small, Z.mod_small by lia. reflexivity.
  - destruct (Z.ltb_spec (Zpos m) 8388608); [lia|].
    set (z := (if s then 2147483648 else 0) + ((e + 150) * 8388608 + (Zpos m - 8388608))).
    assert (ZM : z mod 2147483648 = (e + 150) * 8388608 + (Zpos m - 8388608)) by (unfold z; destruct s; lia).
    rewrite ZM.
    assert (ZS : (2147483648 <=? z) = s) by (unfold z; destruct s; lia). rewrite ZS.
    assert (D1 : ((e + 150) * 8388608 + (Zpos m - 8388608)) / 8388608 = e + 150) by lia.
    assert (D2 : ((e + 150) * 8388608 + (Zpos m - 8388608)) mod 8388608 = Zpos m - 8388608) by lia.
    rewrite D1, D2. destruct (Z.eqb_spec (e + 150) 255); [lia|]. destruct (Z.eqb_spec (e + 150) 0); [lia|].
    replace (Zpos m - 8388608 + 8388608) with (Zpos m) by lia. f_equal. lia.
Qed.

Lemma f_bits_range : forall x, f_ok x = true -> 0 <= f_bits x < 2 ^ 32.
Proof.
  intros [s|s| |s m e] H; [destruct s; vm_compute; split; [discriminate|reflexivity|discriminate|reflexivity]..|
    vm_compute; split; [discriminate|reflexivity]|].
  unfold f_bits. change (2 ^ 31) with 2147483648 in *. change (2 ^ 32) with 4294967296.
  destruct (finite_shape s m e H) as [[L ->]|[[L1 L2] [E1 E2]]];
    change (2 ^ 23) with 8388608 in *; change (2 ^ 24) with 16777216 in *;
    destruct (Z.ltb_spec (Zpos m) 8388608); destruct s; lia.
Qed.

(** ** Frames *)
Definition state_payload (i n v : Z) : list Z :=
  [byte 1 i; byte 0 i; byte 0 n; byte 3 v; byte 2 v; byte 1 v; byte 0 v].

Lemma send_field_frame : forall buffer lock i n v, length buffer = 18%nat -> n <= 4 ->
  let w := framed lock 2 1 (state_payload i n v) in
  sendStateField lock buffer i n v = Some (w, [(UartA, w); (UartB, w)]) /\ length w = 18%nat.
Proof.
  intros buffer lock i n v L N w. unfold sendStateField. destruct (Z.gtb_spec n 4); [lia|].
  destruct (encoder_builds_any lock mfStateUpdate buffer (state_payload i n v)) as (b1 & b2 & E1 & E2 & E3);
    [reflexivity..|rewrite L; reflexivity|].
  rewrite E1. fold (state_payload i n v). rewrite E2, E3.
  change (e_address mfStateUpdate) with 2. change (e_function mfStateUpdate) with 1. fold w.
  assert (LW : length w = 18%nat) by (unfold w; now rewrite framed_length).
  assert (RB : rd_block w 0 18 = Some w).
  { rewrite <- (app_nil_r w) at 1. apply (rd_block_mid _ [] w []); [reflexivity|]. now rewrite LW. }
  rewrite RB. auto.
Qed.

Lemma send_all_frames : forall l locks buffer, length buffer = 18%nat ->
  Forall (fun x => snd (fst x) <= 4) l -> Forall (eq true) locks ->
  exists b, send_all locks buffer l = Some (b, flat_map (fun x =>
     let w := encode 2 1 (state_payload (fst (fst x)) (snd (fst x)) (snd x)) in [(UartA, w); (UartB, w)]) l) /\
   length b = 18%nat.
Proof.
  induction l as [|[[i n] v] l IH]; intros locks buffer L F LK; cbn [send_all flat_map].
  - eauto.
  - inversion F as [|? ? N F']; subst. cbn [fst snd] in *.
    assert (HD : hd true locks = true) by (destruct locks; [reflexivity|]; inversion LK; auto).
    assert (TL : Forall (eq true) (tl locks)) by (destruct locks; [constructor|]; inversion LK; auto).
    destruct (send_field_frame buffer (hd true locks) i n v L N) as [E LW]. rewrite E, HD in *.
    destruct (IH (tl locks) _ LW F' TL) as (b & Eb & Lb). rewrite Eb. rewrite framed_true. eauto.
Qed.

Lemma flat_map_ports : forall A (l : list A) (g : A -> list Z) p,
  on_port p (flat_map (fun x => [(UartA, g x); (UartB, g x)]) l) = map g l.
Proof.
  induction l as [|x l IH]; intros g p; [reflexivity|]. cbn [flat_map map].
  unfold on_port in *. rewrite flat_map_app, IH. destruct p; reflexivity.
Qed.

Lemma pc_reads_field : forall i n v, is_u16 i -> (n = 1 /\ 0 <= v < 256) \/ (n = 4 /\ 0 <= v < 2 ^ 32) ->
  pc_field (encode 2 1 (state_payload i n v)) = (i, v).
Proof.
  intros i n v I H. unfold pc_field. rewrite <- framed_true, framed_payload. unfold state_payload. cbn [nth].
  unfold is_u16 in I. unfold byte.
  change (2 ^ (8 * 3)) with 16777216. change (2 ^ (8 * 2)) with 65536.
  change (2 ^ (8 * 1)) with 256. change (2 ^ (8 * 0)) with 1.
  destruct H as [[-> V]|[-> V]].
  - change (Z.to_nat (1 / 1 mod 256)) with 1%nat. cbn [low_bytes]. cbn [Nat.sub nth].
    change (2 ^ (8 * Z.of_nat 0)) with 1. f_equal; lia.
  - change (2 ^ 32) with 4294967296 in V.
    change (Z.to_nat (4 / 1 mod 256)) with 4%nat. cbn [low_bytes]. cbn [Nat.sub nth].
    change (2 ^ (8 * Z.of_nat 0)) with 1. change (2 ^ (8 * Z.of_nat 1)) with 256.
    change (2 ^ (8 * Z.of_nat 2)) with 65536. change (2 ^ (8 * Z.of_nat 3)) with 16777216.
    f_equal; lia.
Qed.

Lemma field_accepted : forall i n v, pc_accepts 18 1 (encode 2 1 (state_payload i n v)) = true.
Proof.
  intros. unfold pc_accepts.
  pose proof (encode_valid 2 1 (state_payload i n v)) as V.
  change (length (state_payload i n v) + 11)%nat with (Z.to_nat 18) in V. rewrite V.
  destruct (encode_fields 2 1 (state_payload i n v)) as (A & F & _); [split; [lia|reflexivity]..|].
  rewrite A, F. reflexivity.
Qed.

Lemma sdc_value : forall d, tmpSdc d = b2z (s_bms d) + 2 * b2z (s_bspd d) + 4 * b2z (s_imd d) + 8 * b2z (s_out d).
Proof. intros [[] [] [] []]; reflexivity. Qed.

Lemma pdm_value : forall l, tmpPdm l = let p i := b2z (nth i l false) in
  p 0%nat + 2 * p 1%nat + 4 * p 2%nat + 8 * p 3%nat + 16 * p 4%nat + 32 * p 5%nat.
Proof.
  intros l. unfold tmpPdm. cbn [fold_left]. cbv zeta.
  change (Z.to_nat 0) with 0%nat. change (Z.to_nat 1) with 1%nat. change (Z.to_nat 2) with 2%nat.
  change (Z.to_nat 3) with 3%nat. change (Z.to_nat 4) with 4%nat. change (Z.to_nat 5) with 5%nat.
  destruct (nth 0 l false), (nth 1 l false), (nth 2 l false), (nth 3 l false), (nth 4 l false), (nth 5 l false);
    reflexivity.
Qed.

(** ** Log text *)
Lemma flush_frame : forall lock buffer stream, length buffer = 43%nat ->
  let w := framed lock 2 2 (firstn 32 stream ++ repeat 0 (32 - length stream)) in
  flush_iteration lock buffer stream = Some (w, skipn 32 stream, [(UartA, w); (UartB, w)]) /\ length w = 43%nat.
Proof.
  intros lock buffer stream L w. unfold flush_iteration.
  assert (W0 : wr_block buffer 0 (repeat 0 43) = Some (repeat 0 43)).
  { pose proof (wr_block_mid _ [] buffer (repeat 0 43) [] 0 eq_refl) as W. cbn [app] in W.
    rewrite !app_nil_r in W. apply W. rewrite L. reflexivity. }
  rewrite W0. clear W0.
  set (pl := firstn 32 stream ++ repeat 0 (32 - length stream)) in *.
  assert (LP : length pl = 32%nat) by (unfold pl; rewrite app_length, firstn_length, repeat_length; lia).
  destruct (encoder_builds_any lock mfLogData (repeat 0 43) pl) as (b1 & b2 & E1 & E2 & E3);
    [rewrite LP; reflexivity|reflexivity..|].
  rewrite E1. unfold stream_recv.
  assert (EI : Some b1 = MsgFrameEncode_InitFrame mfLogData (repeat 0 43)) by auto.
  vm_compute in EI. injection EI as EI.
  assert (E2' : wr_block b1 5 (firstn 32 stream) = Some b2).
  { subst b1. rewrite <- E2.
    pose (hd5 := [58; 0; 2; 0; 2]). pose (tl6 := [0; 0; 0; 0; 13; 10]).
    assert (ZB : [58; 0; 2; 0; 2; 0; 0; 0; 0; 0; 0; 0; 0; 0; 0; 0; 0; 0; 0; 0; 0; 0; 0; 0; 0; 0; 0; 0; 0; 0; 0; 0;
                  0; 0; 0; 0; 0; 0; 0; 0; 0; 13; 10] = hd5 ++ repeat 0 32 ++ tl6) by reflexivity.
    rewrite ZB.
    rewrite (wr_block_mid _ hd5 (repeat 0 32) pl tl6 5 eq_refl) by now rewrite LP.
    assert (SP : hd5 ++ repeat 0 32 ++ tl6
                 = hd5 ++ repeat 0 (length (firstn 32 stream)) ++ (repeat 0 (32 - length stream) ++ tl6)).
    { f_equal. rewrite app_assoc, <- repeat_app. f_equal. f_equal. rewrite firstn_length. lia. }
    rewrite SP. rewrite (wr_block_mid _ hd5 _ (firstn 32 stream) _ 5 eq_refl) by now rewrite repeat_length.
    unfold pl. rewrite <- app_assoc. reflexivity. }
  rewrite E2'. rewrite E3.
  change (e_address mfLogData) with 2. change (e_function mfLogData) with 2. fold w.
  assert (LW : length w = 43%nat) by (unfold w; rewrite framed_length; lia).
  assert (RB : rd_block w 0 43 = Some w).
  { rewrite <- (app_nil_r w) at 1. apply (rd_block_mid _ [] w []); [reflexivity|]. now rewrite LW. }
  rewrite RB. auto.
Qed.

Definition no_zero (l : list Z) : Prop := Forall (fun c => c <> 0) l.

Lemma filter_id : forall l, no_zero l -> filter (fun c => negb (c =? 0)) l = l.
Proof.
  induction l as [|c l IH]; intros H; [reflexivity|]. inversion H; subst. simpl.
  destruct (Z.eqb_spec c 0); [easy|]. simpl. now rewrite IH.
Qed.
Lemma filter_zeros : forall n, filter (fun c => negb (c =? 0)) (repeat 0 n) = [].
Proof. induction n; [reflexivity|]. simpl. exact IHn. Qed.

Lemma frame_text : forall lock stream, no_zero stream ->
  filter (fun c => negb (c =? 0))
    (frame_payload (framed lock 2 2 (firstn 32 stream ++ repeat 0 (32 - length stream)))) = firstn 32 stream.
Proof.
  intros lock stream H. rewrite framed_payload, filter_app, filter_zeros, app_nil_r.
  apply filter_id. unfold no_zero in *. rewrite <- (firstn_skipn 32 stream) in H. now apply Forall_app in H.
Qed.

Lemma cstr_no_zero : forall l, no_zero (cstr l).
Proof.
  induction l as [|c l IH]; simpl; [constructor|]. destruct (Z.eqb_spec c 0); [constructor|]. now constructor.
Qed.
Lemma firstn_no_zero : forall n l, no_zero l -> no_zero (firstn n l).
Proof. intros n l H. unfold no_zero in *. rewrite <- (firstn_skipn n l) in H. now apply Forall_app in H. Qed.
Lemma skipn_no_zero : forall n l, no_zero l -> no_zero (skipn n l).
Proof. intros n l H. unfold no_zero in *. rewrite <- (firstn_skipn n l) in H. now apply Forall_app in H. Qed.

Lemma log_text_app : forall a b, log_text (a ++ b) = log_text a ++ log_text b.
Proof. intros. unfold log_text. now rewrite map_app, concat_app. Qed.
Lemma on_port_app : forall p a b, on_port p (a ++ b) = on_port p a ++ on_port p b.
Proof. intros. unfold on_port. now rewrite flat_map_app. Qed.

Definition crc_ok (evs : list log_event) : Prop := ~ In (Flush false) evs.

Lemma log_bytes_ne msg : cstr msg <> [] -> log_bytes msg <> [].
Proof. unfold log_bytes. destruct (cstr msg); [congruence|discriminate]. Qed.

Lemma Log_Print_some lock stream msg s : Log_Print lock stream msg = Some s ->
  s = if lock then stream_send LOG_STREAM_CAP stream (log_bytes msg) else stream.
Proof.
  unfold Log_Print. destruct lock; [apply stream_send_checked_some|congruence].
Qed.
Lemma Log_Print_ok lock stream msg : cstr msg <> [] -> Log_Print lock stream msg <> None.
Proof.
  intros H. unfold Log_Print. destruct lock; [|discriminate].
  rewrite stream_send_checked_ok by now apply log_bytes_ne. discriminate.
Qed.

Lemma log_history : forall evs buffer stream, length buffer = 43%nat -> no_zero stream ->
  (length stream <= LOG_STREAM_CAP)%nat -> no_empty_message evs \/ log_run buffer stream evs <> None ->
  exists b s o st, log_run buffer stream evs = Some (b, s, o, st) /\
    length b = 43%nat /\ no_zero s /\ (length s <= LOG_STREAM_CAP)%nat /\
    on_port UartA o = on_port UartB o /\
    stream ++ st = log_text (on_port UartA o) ++ s /\
    Forall (fun w => length w = 43%nat) (on_port UartA o) /\
    (crc_ok evs -> Forall (fun w => pc_accepts 43 2 w = true) (on_port UartA o)).
Proof.
  induction evs as [|ev evs IH]; intros buffer stream LB NZ LS NE.
  - exists buffer, stream, [], []. cbn. rewrite app_nil_r. auto 10.
  - assert (SUB : no_empty_message (ev :: evs) -> no_empty_message evs)
      by (intros X l m J; apply (X l m); now right).
    cbn [log_run] in *. destruct ev as [lock msg|lock]; cbn [log_step] in *.
    + destruct (Log_Print lock stream msg) as [s1|] eqn:LP.
      2:{ destruct NE as [NE|NE]; [|congruence]. exfalso.
          apply (Log_Print_ok lock stream msg); [apply (NE lock); now left|exact LP]. }
      apply Log_Print_some in LP.
      assert (NE' : no_empty_message evs \/ log_run buffer s1 evs <> None).
      { destruct NE as [NE|NE]; [auto|]. right. intros X. now rewrite X in NE. }
      destruct (IH buffer s1 LB) as (b & s & o & st & E & A1 & A2 & A3 & A4 & A5 & A6 & A7); [| |exact NE'|].
      * subst s1. unfold stream_send. destruct lock; [|exact NZ]. apply Forall_app. split; [exact NZ|].
        apply firstn_no_zero. apply firstn_no_zero. apply cstr_no_zero.
      * subst s1. unfold stream_send. destruct lock; [|exact LS]. rewrite app_length, firstn_length. lia.
      * rewrite E. eexists _, _, _, _. split; [reflexivity|]. cbn [app].
        split; [exact A1|]. split; [exact A2|]. split; [exact A3|]. split; [exact A4|].
        split; [|split; [exact A6|]].
        -- destruct lock.
           ++ rewrite <- A5, LP. unfold stream_send, stream_stored. now rewrite <- app_assoc.
           ++ rewrite <- A5, LP. reflexivity.
        -- intros C. apply A7. intros I. apply C. now right.
    + destruct stream as [|x stream].
      * assert (NE' : no_empty_message evs \/ log_run buffer [] evs <> None).
        { destruct NE as [NE|NE]; [auto|]. right. intros X. now rewrite X in NE. }
        destruct (IH buffer [] LB NZ LS NE') as (b & s & o & st & E & A1 & A2 & A3 & A4 & A5 & A6 & A7).
        rewrite E. eexists _, _, _, _. split; [reflexivity|]. cbn [app]. 
        split; [exact A1|]. split; [exact A2|]. split; [exact A3|]. split; [exact A4|].
        split; [exact A5|]. split; [exact A6|]. intros C. apply A7. intros I. apply C. now right.
      * set (str := x :: stream) in *.
        destruct (flush_frame lock buffer str LB) as [EF LW]. rewrite EF in *.
        set (w := framed lock 2 2 _) in *.
        assert (NE' : no_empty_message evs \/ log_run w (skipn 32 str) evs <> None).
        { destruct NE as [NE|NE]; [auto|]. right. intros X. now rewrite X in NE. }
        destruct (IH w (skipn 32 str) LW) as (b & s & o & st & E & A1 & A2 & A3 & A4 & A5 & A6 & A7); [| |exact NE'|].
        { now apply skipn_no_zero. }
        { rewrite skipn_length. lia. }
        rewrite E. eexists _, _, _, _. split; [reflexivity|]. cbn [app].
        split; [exact A1|]. split; [exact A2|]. split; [exact A3|].
        change ((UartA, w) :: (UartB, w) :: o) with ([(UartA, w); (UartB, w)] ++ o). rewrite !on_port_app.
        change (on_port UartA [(UartA, w); (UartB, w)]) with [w].
        change (on_port UartB [(UartA, w); (UartB, w)]) with [w].
        split; [now rewrite A4|]. split; [|split].
        -- rewrite log_text_app, <- app_assoc, <- A5.
           assert (LT : log_text [w] = firstn 32 str).
           { unfold log_text. cbn [map concat]. rewrite app_nil_r. now apply frame_text. }
           rewrite LT. rewrite app_assoc. now rewrite firstn_skipn.
        -- constructor; auto.
        -- intros C. apply Forall_app. split.
           ++ constructor; [|constructor]. destruct lock; [|exfalso; apply C; now left].
              unfold w. rewrite framed_true. unfold pc_accepts.
              set (pl := firstn 32 str ++ repeat 0 (32 - length str)).
              assert (LP : length pl = 32%nat)
                by (unfold pl; rewrite app_length, firstn_length, repeat_length; lia).
              pose proof (encode_valid 2 2 pl) as V. rewrite LP in V. change (32 + 11)%nat with (Z.to_nat 43) in V.
              rewrite V. destruct (encode_fields 2 2 pl) as (A & F & _); [split; [lia|reflexivity]..|].
              rewrite A, F. reflexivity.
           ++ apply A7. intros I. apply C. now right.
Qed.

Lemma flush_drains : forall fuel locks buffer stream, length buffer = 43%nat -> no_zero stream ->
  (length stream <= 32 * fuel)%nat ->
  exists b o, flushLogMessage fuel locks buffer stream = Some (b, [], o) /\ length b = 43%nat /\
    on_port UartA o = on_port UartB o /\ log_text (on_port UartA o) = stream.
Proof.
  induction fuel as [|fuel IH]; intros locks buffer stream LB NZ LS.
  - destruct stream; [|simpl in LS; lia]. exists buffer, []. cbn. auto.
  - destruct stream as [|x stream]; [exists buffer, []; cbn; auto|].
    set (str := x :: stream) in *. 
    assert (EU : flushLogMessage (S fuel) locks buffer str =
      match flush_iteration (hd true locks) buffer str with
      | Some (b, s, o) => match flushLogMessage fuel (tl locks) b s with
                          | Some (b2, s2, o2) => Some (b2, s2, o ++ o2) | None => None end
      | None => None end) by reflexivity.
    rewrite EU. destruct (flush_frame (hd true locks) buffer str LB) as [EF LW]. rewrite EF.
    set (w := framed _ 2 2 _) in *.
    destruct (IH (tl locks) w (skipn 32 str) LW) as (b & o & E & A1 & A2 & A3).
    { now apply skipn_no_zero. } { rewrite skipn_length. lia. }
    rewrite E. eexists _, _. split; [reflexivity|]. split; [exact A1|].
    rewrite !on_port_app.
    change (on_port UartA [(UartA, w); (UartB, w)]) with [w].
    change (on_port UartB [(UartA, w); (UartB, w)]) with [w].
    split; [now rewrite A2|]. rewrite log_text_app, A3.
    assert (LT : log_text [w] = firstn 32 str).
    { unfold log_text. cbn [map concat]. rewrite app_nil_r. now apply frame_text. }
    rewrite LT. apply firstn_skipn.
Qed.

(** ** Cadence *)
Lemma pass_output : forall c b d locks, length b = 18%nat -> Forall (eq true) locks ->
  exists b' o, periodicStateUpdate true c (Some d) locks b = Some (b', o) /\ length b' = 18%nat /\
    (o <> [] <-> c mod 100 = 0).
Proof.
  intros c b d locks LB FL. unfold periodicStateUpdate, COUNT_1HZ. cbn [negb].
  destruct (Z.eqb_spec (c mod 100) 0) as [E|E]; cbn [negb].
  - destruct (send_all_frames (sent_fields d) locks b LB) as (b' & -> & L'); [|exact FL|].
    { repeat constructor; cbn; lia. }
    eexists _, _. split; [reflexivity|]. split; [exact L'|]. split; [auto|discriminate].
  - exists b, []. split; [reflexivity|]. split; [exact LB|]. split; [congruence|lia].
Qed.

Lemma passes_count : forall l c b, length b = 18%nat ->
  Forall (fun x => exists d, fst x = Some d) l -> Forall (fun x => Forall (eq true) (snd x)) l ->
  0 <= c < 2 ^ 32 ->
  exists st' os, broadcast_passes true (c, b) l = Some (st', os) /\ length os = length l /\
    forall k, (k < length l)%nat -> (nth k os [] <> [] <-> u32 (c + Z.of_nat k) mod 100 = 0).
Proof.
  induction l as [|[snap locks] l IH]; intros c b LB FS FL CR.
  - exists (c, b), []. split; [reflexivity|]. split; [reflexivity|]. simpl. lia.
  - inversion FS as [|? ? (d & ED) FS']; inversion FL as [|? ? FL1 FL']; subst. cbn [fst snd] in *. subst snap.
    destruct (pass_output c b d locks LB FL1) as (b' & o & E & L' & O).
    cbn [broadcast_passes broadcast_pass]. rewrite E.
    destruct (IH (u32 (c + 1)) b' L' FS' FL') as (st' & os & E2 & LO & K).
    { unfold u32. change (2 ^ 32) with 4294967296 in *. lia. }
    rewrite E2. exists st', (o :: os). split; [reflexivity|]. split; [simpl; lia|].
    intros [|k] HK; cbn [nth].
    + rewrite O. unfold u32. change (2 ^ 32) with 4294967296 in *. change (Z.of_nat 0) with 0.
      rewrite Z.add_0_r, (Z.mod_small c 4294967296) by lia. reflexivity.
    + rewrite K by (simpl in HK; lia). unfold u32. change (2 ^ 32) with 4294967296 in *.
      replace (((c + 1) mod 4294967296 + Z.of_nat k) mod 4294967296) with ((c + Z.of_nat (S k)) mod 4294967296) by lia.
      reflexivity.
Qed.
