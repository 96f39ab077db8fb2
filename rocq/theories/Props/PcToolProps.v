(** C63 to C67: the PC program and the ECU on the two ends of the serial line.
    [chunks] is what successive reads of the serial port return. *)
From Coq Require Import ZifyBool ZifyNat String.
From Verif.Base Require Import Mem Text.
From Verif.Model Require Import VehicleState Crc MsgFrame PcPeriodic PcTool.
From Verif.Spec Require Import FrameSpec DecoderSpec PcPeriodicSpec PcToolSpec.
From Verif.Proof Require Import MemFacts CrcProof FrameProof PcPeriodicProof PcToolProof PcViewProof.
From Verif.Props Require Import PcPeriodicProps.
Open Scope Z_scope.
Ltac Zify.zify_post_hook ::= Z.div_mod_to_equations.

(** ** C63 *)
(** The Python CRC is the CRC of the STM32 unit, for every byte string. *)
Theorem C63_crc_agrees :
  forall l, Forall is_byte l -> crc32mpeg2 l = HAL_CRC_Calculate l.
Proof. exact crc_agrees. Qed.
Print Assumptions C63_crc_agrees.

(** What the PC encodes reaches the ECU: the message exists for every payload of
    bytes, and the ECU's decoder, fed in any chunks that fit its buffer, hands out
    this one frame, with the address, function and payload that went in. *)
Theorem C63_pc_to_ecu :
  forall addr func payload, is_u16 addr -> is_u16 func -> Forall is_byte payload ->
    let L := (length payload + 11)%nat in
    (L <= 1024)%nat ->
    exists w, encode_message addr func payload = Some w /\
      frame_addr w = addr /\ frame_func w = func /\ frame_payload w = payload /\
      forall m chunks, fresh (Z.of_nat L) m -> concat chunks = w ->
        Forall (fun c => Z.of_nat (length c) <= 1024 - Z.of_nat L) chunks ->
        exists m', deliver m chunks = Some (m', [w]).
Proof.
  intros addr func payload A F P L HL. exists (encode addr func payload).
  split; [now apply encode_message_encode|].
  destruct (encode_fields addr func payload A F) as (E1 & E2 & E3). repeat (split; [assumption|]).
  intros m chunks FR C S. 
  assert (FB : Forall (Forall is_byte) chunks).
  { pose proof (encode_bytes addr func payload P) as EB. rewrite <- C in EB. clear -EB.
    induction chunks as [|c t IH]; [constructor|]. cbn [concat] in EB. apply Forall_app in EB. destruct EB. auto. }
  destruct (deliver_spec L chunks m []) as (m' & out & rest' & E & I & R & S' & X); auto; try (cbn; lia).
  - apply fresh_inv; [lia|exact FR].
  - destruct FR as (m0 & _ & _ & Q). unfold MsgFrameDecode_Init in Q.
    destruct (_ >? _); [discriminate|]. injection Q as <-. cbn. lia.
  - exists m'. rewrite E. do 2 f_equal.
    specialize (X []). cbn [app] in X. rewrite C, !app_nil_r in X.
    rewrite (scan_short L 0 rest') in X by lia. rewrite app_nil_r in X. rewrite <- X.
    pose proof (scan_hit L (encode addr func payload) [] ltac:(lia) (encode_valid _ _ _)) as H.
    rewrite app_nil_r in H. exact H.
Qed.
Print Assumptions C63_pc_to_ecu.

(** A payload element that is not a byte raises an exception, no message is made. *)
Theorem C63_bad_payload_rejected :
  forall addr func payload, ~ Forall is_byte payload -> encode_message addr func payload = None.
Proof.
  intros addr func payload N. unfold encode_message. cbv zeta. unfold py_bytes.
  destruct (forallb _ _) eqn:E; [|reflexivity]. exfalso. apply N.
  rewrite !forallb_app in E. apply andb_prop in E. destruct E as [_ E]. apply andb_prop in E. destruct E as [E _].
  apply Forall_forall. intros x Hx. rewrite forallb_forall in E. specialize (E x Hx). unfold is_byte. lia.
Qed.
Print Assumptions C63_bad_payload_rejected.

(** What the ECU's encoder builds is read back by the PC, with a correct CRC. *)
Theorem C63_ecu_to_pc :
  forall e buffer payload, is_u16 (e_address e) -> is_u16 (e_function e) -> Forall is_byte payload ->
    Z.of_nat (length payload) = e_dataLen e -> e_msgLen e = e_dataLen e + 11 -> e_msgLen e < 65536 ->
    Z.of_nat (length buffer) = e_msgLen e ->
    exists b1 b2 w m,
      MsgFrameEncode_InitFrame e buffer = Some b1 /\ wr_block b1 5 payload = Some b2 /\
      MsgFrameEncode_UpdateCRC true e b2 = Some w /\
      try_decode w (Z.to_nat (e_msgLen e)) = Some m /\ m_payload m = payload /\
      m_addr m = e_address e /\ m_type m = e_function e /\ m_crc_correct m = true.
Proof.
  intros e buffer payload A F P H1 H2 H3 H4.
  destruct (encoder_builds e buffer payload H1 H2 H3 H4) as (b1 & b2 & E1 & E2 & E3).
  set (w := encode (e_address e) (e_function e) payload) in *.
  exists b1, b2, w, (message_of w). split; [exact E1|]. split; [exact E2|]. split; [exact E3|].
  assert (LW : length w = Z.to_nat (e_msgLen e)) by (unfold w; rewrite encode_length; lia).
  pose proof (encode_valid (e_address e) (e_function e) payload) as V. fold w in V.
  unfold valid_frame in V. apply andb_prop in V. destruct V as [V1 V2]. apply andb_prop in V1. destruct V1 as [_ V1].
  split.
  - rewrite try_decode_spec; [now rewrite V1|lia|exact LW|unfold w; now apply encode_bytes].
  - cbn [message_of m_payload m_addr m_type m_crc_correct].
    destruct (encode_fields (e_address e) (e_function e) payload A F) as (X1 & X2 & X3).
    repeat split; assumption.
Qed.
Print Assumptions C63_ecu_to_pc.

Example C63_applies :
  crc32mpeg2 [0x31;0x32;0x33;0x34;0x35;0x36;0x37;0x38;0x39] = 0x0376E6E7 /\
  (exists w, encode_message 1 0x102 [0; 0; 1; 0; 1; 0; 0; 0] = Some w /\ length w = 19%nat) /\
  encode_message 1 0x102 [256] = None.
Proof. vm_compute. split; [reflexivity|]. split; [eexists; split; reflexivity|reflexivity]. Qed.

(** ** C64 *)
(** The messages a decoder reports depend only on the bytes received, not on how
    the reads cut them up: they are the stretches of the expected length with the
    frame delimiters, from left to right. *)
Theorem C64_any_chunking :
  forall L chunks, (11 <= L)%nat -> Forall (Forall is_byte) chunks ->
    snd (recv_all L [] chunks) = map message_of (stretches L 0 (concat chunks)).
Proof. intros L chunks HL F. apply recv_all_spec; auto. cbn. lia. Qed.
Print Assumptions C64_any_chunking.

(** Nothing is made up: what is reported lies in the stream, in this order and
    without overlap, and a report with a correct CRC is a valid frame. *)
Theorem C64_nothing_made_up :
  forall L chunks, (11 <= L)%nat -> Forall (Forall is_byte) chunks ->
    exists ws, snd (recv_all L [] chunks) = map message_of ws /\ in_order ws (concat chunks) /\
      Forall (fun w => m_crc_correct (message_of w) = true <-> valid_frame L w = true) ws.
Proof.
  intros L chunks HL F. exists (stretches L 0 (concat chunks)). split; [now apply C64_any_chunking|].
  split; [apply (stretches_in_order L (concat chunks) 0); lia|]. apply stretches_valid.
Qed.
Print Assumptions C64_nothing_made_up.

(** A line that carries only frames of the decoder's length, after noise without
    a colon: all are reported, corrupted CRCs included, nothing else. *)
Theorem C64_frames_of_one_kind :
  forall L noise frames chunks, (11 <= L)%nat -> Forall (Forall is_byte) chunks ->
    ~ In 58 noise -> Forall (fun w => is_frame L w = true) frames ->
    concat chunks = noise ++ concat frames ->
    snd (recv_all L [] chunks) = map message_of frames.
Proof.
  intros L noise frames chunks HL F N FR E. rewrite C64_any_chunking, E by assumption. f_equal.
  apply stretches_one_kind; auto. lia.
Qed.
Print Assumptions C64_frames_of_one_kind.

(** A line that carries frames of several lengths and noise: if CR LF occurs only
    where a piece ends, every frame of the decoder's length is reported, in order;
    all other reports come from pieces that are not such frames. Missing: lines
    with CR LF inside a piece, see the refutation. *)
Theorem C64_mixed_line_partial :
  forall L pieces chunks, (11 <= L)%nat -> Forall (Forall is_byte) chunks ->
    crlf_only_at_ends pieces -> concat chunks = concat pieces ->
    exists ws, snd (recv_all L [] chunks) = map message_of ws /\
      picked (spurious L pieces) (filter (is_frame L) pieces) ws.
Proof.
  intros L pieces chunks HL F C E. exists (stretches L 0 (concat pieces)).
  split; [rewrite C64_any_chunking, E by assumption; reflexivity|].
  apply (proj1 (pieces_picked L pieces (2 * (length (concat pieces) + length pieces)) ltac:(lia)))
    with (pre := []); auto.
Qed.
Print Assumptions C64_mixed_line_partial.

(** It is enough to look at each piece by itself. *)
Theorem C64_piecewise :
  forall pieces, Forall tidy pieces -> crlf_only_at_ends pieces.
Proof. exact tidy_ends. Qed.
Print Assumptions C64_piecewise.

(** A log frame, then the pack voltage 141.039 V (0x430D0A00): the state decoder
    takes the colon in the text and the CR LF in the voltage for a frame, finds a
    wrong CRC, and throws away the beginning of the genuine frame with it. *)
Definition ends_in_colon : list Z := str "The measured battery voltage is:".
Definition volts : list Z := encode 2 1 (state_payload 8 4 0x430D0A00).
Theorem C64_frame_lost_refuted :
  exists text f chunks, length text = 32%nat /\ valid_frame 18 f = true /\ addressed 1 f = true /\
    concat chunks = encode 2 2 text ++ f /\
    view_state chunks = Some [] /\
    view_state [f] = Some [StateUpdate (str "BMS Pack voltage") 0x430D0A00].
Proof.
  exists ends_in_colon, volts, [encode 2 2 ends_in_colon; volts].
  split; [reflexivity|]. split; [vm_compute; reflexivity|]. split; [vm_compute; reflexivity|].
  split; [cbn [concat]; now rewrite app_nil_r|]. split; vm_compute; reflexivity.
Qed.
Print Assumptions C64_frame_lost_refuted.

(** Non-vacuity: a log frame and two state frames, each free of CR LF inside. *)
Definition mixed : list (list Z) :=
  [encode 2 2 (str "Entering state: LV_READY........"); encode 2 1 (state_payload 8 4 0x43AF0000);
   encode 2 1 (state_payload 1 1 15)].
Definition tidyb (p : list Z) : bool :=
  forallb (fun k => negb ((nth k p 0 =? 13) && (nth (S k) p 0 =? 10)) || Nat.eqb (k + 2) (length p))
          (seq 0 (length p)) && negb (nth 0 p 0 =? 10).
Example C64_applies :
  forallb tidyb mixed = true /\ map (@length Z) mixed = [43; 18; 18]%nat /\
  map (@length Z) (filter (is_frame 18) mixed) = [18; 18]%nat /\
  view_state [concat mixed] = Some [StateUpdate (str "BMS Pack voltage") 0x43AF0000; StateUpdate (str "SDC") 15].
Proof. vm_compute. auto. Qed.

(** ** C65 *)
(** Every broadcast of the ECU, read by the PC in any chunks: eleven lines, with
    the names of the fields in order, and each value stands for the value its name
    stands for, except the hottest cell (field 6, refuted in C36). *)
Theorem C65_broadcast_on_terminal_partial :
  forall d counter locks buffer b o chunks,
    state_ok d -> length buffer = 18%nat -> counter mod 100 = 0 -> Forall (eq true) locks ->
    periodicStateUpdate true counter (Some d) locks buffer = Some (b, o) ->
    concat chunks = concat (on_port UartA o) ->
    exists zs, view_state chunks = Some (map (fun x => StateUpdate (fst x) (snd x)) (combine field_names zs)) /\
      length zs = 11%nat /\
      forall k, (k < 11)%nat -> k <> 5%nat ->
        exists v, true_value d (Z.of_nat k + 1) = Some v /\ reads (nth k zs 0) v.
Proof. exact broadcast_viewed. Qed.
Print Assumptions C65_broadcast_on_terminal_partial.

(** On a line shared with other frames: if CR LF occurs only at the ends of the
    pieces and no accidental stretch is a valid state frame, the terminal shows one
    line for each valid state frame, in order, and nothing else. Frames whose length
    byte is above 7 do not come from the ECU; the viewer fails on some. *)
Theorem C65_shared_line_partial :
  forall pieces chunks, Forall (Forall is_byte) chunks -> crlf_only_at_ends pieces ->
    concat chunks = concat pieces ->
    (forall w, spurious 18 pieces w -> addressed 1 w && crc_good w = false) ->
    Forall (fun w => is_frame 18 w && addressed 1 w && crc_good w = true -> nth 2 (frame_payload w) 0 <= 7) pieces ->
    view_state chunks =
      Some (map state_shown (filter (fun w => pc_accepts 18 1 w) pieces)).
Proof. exact shared_line. Qed.
Print Assumptions C65_shared_line_partial.

(** A valid frame with length byte 15 raises IndexError: the receiving thread
    ends, and nothing is shown any more. The ECU never sends one (C65 above). *)
Theorem C65_long_field_refuted :
  exists f, pc_accepts 18 1 f = true /\ forall rest, Forall is_byte rest -> view_state [f; rest] = None.
Proof.
  exists (encode 2 1 (state_payload 1 15 0)). split; [vm_compute; reflexivity|].
  intros rest FR. unfold view_state.
  assert (FB : Forall is_byte (encode 2 1 (state_payload 1 15 0))).
  { apply encode_bytes. repeat constructor; vm_compute; try reflexivity; discriminate. }
  rewrite recv_all_spec; [|unfold MSG_LEN_STATE; lia|cbn; unfold MSG_LEN_STATE; lia|constructor|constructor; [exact FB|constructor; [exact FR|constructor]]].
  cbn [concat app]. rewrite app_nil_r. rewrite stretches_hit; [|unfold MSG_LEN_STATE; lia|vm_compute; reflexivity].
  cbn [map handle_each].
  replace (handle_data ADDR_PC 1 handle_state_data (message_of (encode 2 1 (state_payload 1 15 0)))) with (@None (list shown));
    [reflexivity|vm_compute; reflexivity].
Qed.
Print Assumptions C65_long_field_refuted.

Example C65_applies :
  exists b o, periodicStateUpdate true 0 (Some two_cells) [] (repeat 0 18) = Some (b, o) /\
    length (on_port UartA o) = 11%nat /\
    option_map (@length shown) (view_state [concat (on_port UartA o)]) = Some 11%nat.
Proof. eexists _, _. split; [vm_compute; reflexivity|]. split; vm_compute; reflexivity. Qed.

(** ** C66 *)
(** Any history of log calls and transmissions, the line read in any chunks: the
    plain text on the terminal is the logged text up to what still waits in the
    stream, and nothing is shown in red, as long as the CRC unit was available. *)
Theorem C66_log_on_terminal :
  forall evs buffer b s o stored chunks, length buffer = 43%nat ->
    Forall (fun ev => match ev with Write _ msg => Forall is_byte msg | Flush l => l = true end) evs ->
    log_run buffer [] evs = Some (b, s, o, stored) ->
    concat chunks = concat (on_port UartA o) ->
    exists out, view_log chunks = Some out /\ stored = plain_text out ++ s /\
      (forall t, ~ In (LogTextRed t) out).
Proof. exact log_viewed. Qed.
Print Assumptions C66_log_on_terminal.

(** The simulated sender and the viewer: any text of 8-bit characters without NUL
    is shown as it is. *)
Theorem C66_simulated_sender :
  forall text chunks, Forall (fun c => 1 <= c < 256) text ->
    exists ms, create_log_msgs (length text) text = Some ms /\
      (concat chunks = concat ms ->
       exists out, view_log chunks = Some out /\ plain_text out = text /\ (forall t, ~ In (LogTextRed t) out)).
Proof. exact simulated. Qed.
Print Assumptions C66_simulated_sender.

Example C66_applies :
  exists b s o stored,
    log_run (repeat 0 43) [] [Write true (line "Vehicle state machine: FAULT, inverter off"); Flush true; Flush true] =
      Some (b, s, o, stored) /\
    view_log [concat (on_port UartA o)] =
      Some [LogText (str "Vehicle state machine: FAULT, in"); LogText (line "verter off" ++ repeat 0 21)].
Proof. eexists _, _, _, _. split; [vm_compute; reflexivity|vm_compute; reflexivity]. Qed.

(** ** C67 *)
(** The variable-length decoder reports only valid frames of the stream, in order
    and without overlap, whatever the bytes and the chunks. Missing: that it
    reports all of them, see the refutation. *)
Theorem C67_only_valid_frames_partial :
  forall chunks, Forall (Forall is_byte) chunks ->
    exists ws, Forall2 describes (snd (recv_all_variable [] chunks)) ws /\
      Forall (fun w => valid_frame (length w) w = true) ws /\ in_order ws (concat chunks).
Proof.
  intros chunks F. destruct (recv_variable_spec chunks [] (Forall_nil _) F) as (ws & D & V & used & E & O).
  exists ws. split; [exact D|]. split; [exact V|]. cbn [app] in E. rewrite E.
  rewrite <- (app_nil_r ws). apply in_order_app; [exact O|constructor].
Qed.
Print Assumptions C67_only_valid_frames_partial.

(** A complete frame is not reported when it has arrived, only with a later byte. *)
Theorem C67_complete_frame_refuted :
  exists w, valid_frame (length w) w = true /\
    recv_all_variable [] [w] = (w, []) /\
    map m_payload (snd (recv_all_variable [] [w; [0]])) = [frame_payload w].
Proof.
  exists (encode 1 0x102 [0; 0; 1; 0; 1; 0; 0; 0]). split; [vm_compute; reflexivity|].
  split; vm_compute; reflexivity.
Qed.
Print Assumptions C67_complete_frame_refuted.

Example C67_applies :
  map m_payload (snd (recv_all_variable [] [[1; 2] ++ encode 1 3 [7; 8; 9]; encode 1 4 [5] ++ [0; 0]; [0]]))
    = [[7; 8; 9]; [5]].
Proof. vm_compute. reflexivity. Qed.
