(** C34, C35: commands from the PC. *)
From Coq Require Import ZifyBool ZifyNat.
From Verif.Base Require Import Mem Stream.
From Verif.Model Require Import MsgFrame PcRequests.
From Verif.Spec Require Import PcSpec.
From Verif.Proof Require Import MemFacts FrameProof PcProof.

(** ** C34 *)
(** Before control is enabled nothing happens, whatever arrives. *)
Theorem C34_nothing_before_enable :
  forall q evs, pc_fresh q -> events_ok evs -> no_enable evs ->
    exists q' got, pc_run q evs = Some (q', got, []).
Proof.
  intros q evs HF HO HN. destruct (pc_fresh_inv q HF) as (I & R & B).
  destruct (history_spec evs q [] I R B HO)
    as (q' & got & calls & rest' & eaten & fs & E & I' & R' & B' & S' & M' & C' & F').
  exists q', got. rewrite E. destruct (C' (or_intror HN)) as [-> _].
  destruct HF as (_ & _ & ->). reflexivity.
Qed.
Print Assumptions C34_nothing_before_enable.

(** From then on the calls are exactly the commands of the valid frames that are
    completed after enabling, each once, in order. [taken1] and [taken2] are the
    bytes the loop took from the stream before and after. *)
Theorem C34_exactly_the_commands :
  forall q evs1 evs2, pc_fresh q -> events_ok evs1 -> events_ok evs2 -> no_enable evs1 ->
    crc_available evs1 -> crc_available evs2 ->
    exists q1 got1 q2 got2 calls taken1 taken2,
      pc_run q evs1 = Some (q1, got1, []) /\
      pc_run q1 (EnableControl :: evs2) = Some (q2, got2, calls) /\
      got1 = taken1 ++ q_stream q1 /\ got1 ++ got2 = taken1 ++ taken2 ++ q_stream q2 /\
      let before := frames_in 19 taken1 in
      exists after, frames_in 19 (taken1 ++ taken2) = before ++ after /\
        calls = concat (map command after).
Proof.
  intros q evs1 evs2 HF HO1 HO2 HN HC1 HC2. destruct (pc_fresh_inv q HF) as (I & R & B).
  destruct HF as (HS & _ & HQ).
  destruct (history_spec evs1 q [] I R B HO1)
    as (q1 & got1 & calls1 & rest1 & eaten1 & fs1 & E1 & I1 & R1 & B1 & S1 & M1 & C1 & F1).
  destruct (C1 (or_intror HN)) as [-> QC]. rewrite HQ in E1. cbn [calls_of] in E1.
  rewrite HS in S1. cbn [app] in S1.
  destruct (history_spec evs2 (mkReq (q_stream q1) (q_dec q1) true) rest1 I1 R1 B1 HO2)
    as (q2 & got2 & calls2 & rest2 & eaten2 & fs2 & E2 & I2 & R2 & B2 & S2 & M2 & C2 & F2).
  destruct (C2 (or_introl eq_refl)) as [-> QC2]. cbn [q_stream q_control] in *.
  exists q1, got1, q2, got2, (calls_of true fs2), eaten1, eaten2.
  split; [exact E1|]. split. { cbn [pc_run pc_step]. rewrite E2. reflexivity. }
  split; [exact S1|]. split. { rewrite S1, <- app_assoc, S2. reflexivity. }
  specialize (F1 HC1). specialize (F2 HC2). cbn [app] in F1.
  assert (A1 : frames_in 19 eaten1 = fs1).
  { specialize (F1 []). rewrite !app_nil_r in F1. unfold frames_in. rewrite F1.
    rewrite (scan_short 19 0 rest1) by (eapply roomy_short; eauto). apply app_nil_r. }
  cbv zeta. rewrite A1. exists fs2. split; [|reflexivity].
  unfold frames_in. rewrite F1. f_equal. specialize (F2 []). rewrite !app_nil_r in F2. rewrite F2.
  rewrite (scan_short 19 0 rest2) by (eapply roomy_short; eauto). apply app_nil_r.
Qed.
Print Assumptions C34_exactly_the_commands.

(** Every frame behind a call has all the attributes of the property. *)
Theorem C34_genuine_and_addressed :
  forall s w call, In w (frames_in 19 s) -> In call (command w) ->
    length w = 19%nat /\ delimited w = true /\ crc_field w = HAL_CRC_Calculate (covered w) /\
    frame_addr w = 1 /\ (frame_func w = 9 \/ frame_func w = 0x101 \/ frame_func w = 0x102).
Proof.
  intros s w call HI HC. assert (V := scan_valid 19 s 0). rewrite Forall_forall in V. apply V in HI.
  unfold valid_frame in HI. apply andb_prop in HI. destruct HI as [HI H3]. apply andb_prop in HI.
  destruct HI as [H1 H2]. apply Nat.eqb_eq in H1. apply Z.eqb_eq in H3.
  split; [exact H1|]. split; [exact H2|]. split; [exact H3|]. unfold command in HC.
  destruct (Z.eqb_spec (frame_addr w) 1) as [EA|]; [split; [exact EA|]|destruct HC].
  destruct (Z.eqb_spec (frame_func w) 257) as [E1|_]; [right; left; exact E1|].
  destruct (Z.eqb_spec (frame_func w) 258) as [E2|_]; [right; right; exact E2|].
  destruct (Z.eqb_spec (frame_func w) 9) as [E3|_]; [left; exact E3|destruct HC].
Qed.
Print Assumptions C34_genuine_and_addressed.

(** Example: a frame before enabling (ignored), then noise, a PDM frame, a frame
    for another address, and half an SDC frame. *)
Definition q0 : pcreq := mkReq [] (mkDec 19 0 0 1024 (repeat 0 (Z.to_nat 1024))) false.
Lemma q0_fresh : pc_fresh q0.
Proof. split; [reflexivity|]. split; [|reflexivity]. exists (q_dec q0). repeat split. Qed.
Definition pdm_frame := encode 1 0x102 [0; 0; 1; 0; 1; 0; 0; 0].
Definition sdc_frame := encode 1 0x101 [0; 0; 0; 0; 0; 0; 0; 5].
Example C34_run :
  exists q' got, pc_run q0
    ([Arrive sdc_frame; Turn []; Turn []; Turn []; EnableControl;
      Arrive ([58; 7] ++ pdm_frame ++ encode 3 0x101 (repeat 1 8)); Turn []; Turn []; Turn [];
      Arrive (firstn 9 sdc_frame); Turn []; Turn []; Turn []; Turn []; Turn []])
   = Some (q', got, [SetPowerChannel 0 true; SetPowerChannel 1 false; SetPowerChannel 2 true;
                     SetPowerChannel 3 false; SetPowerChannel 4 false; SetPowerChannel 5 false]).
Proof. do 2 eexists. vm_compute. reflexivity. Qed.

(** ** C35 *)
(** The decode buffer never fills up: at any time, whatever the CRC mutex does,
    at most 27 of its 1024 bytes are in use and the next batch is accepted. *)
Theorem C35_buffer_never_full :
  forall q evs, pc_fresh q -> events_ok evs ->
    exists q' got calls m1, pc_run q evs = Some (q', got, calls) /\
      d_end (q_dec q') <= 27 /\
      MsgFrameDecode_RecvBytes (q_dec q') (firstn 8 (q_stream q')) = Some (true, m1).
Proof.
  intros q evs HF HO. destruct (pc_fresh_inv q HF) as (I & R & B).
  destruct (history_spec evs q [] I R B HO)
    as (q' & got & calls & rest' & eaten & fs & E & I' & R' & B' & S' & M' & C' & F').
  destruct (push_spec 19 (q_dec q') rest' (firstn 8 (q_stream q')) I') as (ok & m1 & P & OK & _).
  { now apply Forall_firstn. }
  pose proof (inv_avail _ _ _ I') as (A1 & A2 & A3 & A4).
  assert (d_end (q_dec q') <= 27) by (unfold roomy in R'; lia).
  assert (ok = true).
  { apply OK. pose proof (firstn_le_length 8 (q_stream q')). lia. }
  subst ok. exists q', got, calls, m1. auto.
Qed.
Print Assumptions C35_buffer_never_full.

(** No frame is lost or left waiting: whatever was received and however it was
    batched, a run of the loop that empties the stream has handled every frame
    in the received bytes (control enabled). *)
Theorem C35_all_frames_handled :
  forall q evs q' got calls, pc_fresh q -> events_ok evs -> crc_available evs ->
    pc_run q (EnableControl :: evs) = Some (q', got, calls) ->
    exists q2 calls2, HandleRequests (length (q_stream q')) q' = Some (q2, calls2) /\
      q_stream q2 = [] /\ calls ++ calls2 = concat (map command (frames_in 19 got)).
Proof.
  intros q evs q' got calls HF HO HC HR. destruct (pc_fresh_inv q HF) as (I & R & B).
  destruct HF as (HS & _ & _).
  destruct (history_spec evs (mkReq (q_stream q) (q_dec q) true) [] I R B HO)
    as (q1 & g & c1 & rest1 & eaten1 & fs1 & E1 & I1 & R1 & B1 & S1 & M1 & C1 & F1).
  cbn [pc_run pc_step] in HR. rewrite E1 in HR. cbn [app] in HR. injection HR as -> -> ->.
  destruct (C1 (or_introl eq_refl)) as [-> QC]. cbn [q_control q_stream] in *.
  rewrite HS in S1. cbn [app] in S1.
  destruct (handle_requests_spec (length (q_stream q')) q' rest1 (le_n _) I1 R1 B1)
    as (q2 & r2 & f2 & E2 & S2 & I2 & R2 & F2).
  exists q2, (calls_of (q_control q') f2). split; [exact E2|]. split; [exact S2|].
  rewrite QC. unfold calls_of. rewrite <- concat_app, <- map_app. do 2 f_equal.
  specialize (F1 HC (q_stream q')). cbn [app] in F1. unfold frames_in. rewrite S1, F1.
  specialize (F2 []). rewrite !app_nil_r in F2. rewrite F2.
  now rewrite (scan_short 19 0 r2), app_nil_r by (eapply roomy_short; eauto).
Qed.
Print Assumptions C35_all_frames_handled.

(** In particular frames arriving back to back are all handled. *)
Theorem C35_back_to_back :
  forall q evs q' calls fs, pc_fresh q -> events_ok evs -> crc_available evs ->
    Forall (fun w => valid_frame 19 w = true) fs ->
    pc_run q (EnableControl :: evs) = Some (q', concat fs, calls) ->
    exists q2 calls2, HandleRequests (length (q_stream q')) q' = Some (q2, calls2) /\
      calls ++ calls2 = concat (map command fs).
Proof.
  intros q evs q' calls fs HF HO HC HV HR.
  destruct (C35_all_frames_handled q evs q' _ calls HF HO HC HR) as (q2 & c2 & E & _ & H).
  exists q2, c2. split; [exact E|]. rewrite H. rewrite frames_in_concat; auto. lia.
Qed.
Print Assumptions C35_back_to_back.

(** A frame is handled in the very turn in which its last byte is taken: the
    calls made so far are always those of the frames among the bytes taken. *)
Theorem C35_no_delay :
  forall q evs, pc_fresh q -> events_ok evs -> crc_available evs ->
    exists q' got calls taken, pc_run q (EnableControl :: evs) = Some (q', got, calls) /\
      got = taken ++ q_stream q' /\ calls = concat (map command (frames_in 19 taken)).
Proof.
  intros q evs HF HO HC. destruct (pc_fresh_inv q HF) as (I & R & B).
  destruct HF as (HS & _ & _).
  destruct (history_spec evs (mkReq (q_stream q) (q_dec q) true) [] I R B HO)
    as (q1 & g & c1 & rest1 & eaten1 & fs1 & E1 & I1 & R1 & B1 & S1 & M1 & C1 & F1).
  destruct (C1 (or_introl eq_refl)) as [-> QC]. cbn [q_control q_stream] in *.
  rewrite HS in S1. cbn [app] in S1.
  exists q1, g, (calls_of true fs1), eaten1. cbn [pc_run pc_step]. rewrite E1.
  split; [reflexivity|]. split; [exact S1|]. unfold calls_of. do 2 f_equal.
  specialize (F1 HC []). cbn [app] in F1. rewrite !app_nil_r in F1. unfold frames_in. rewrite F1.
  now rewrite (scan_short 19 0 rest1), app_nil_r by (eapply roomy_short; eauto).
Qed.
Print Assumptions C35_no_delay.

Example C35_run :
  match pc_run q0 [EnableControl; Arrive (sdc_frame ++ sdc_frame ++ pdm_frame)] with
  | Some (q', _, _) =>
      option_map snd (HandleRequests (length (q_stream q')) q') =
        Some ([SetECUError true; SetECUError true] ++ command pdm_frame)
  | None => False
  end.
Proof. vm_compute. reflexivity. Qed.
