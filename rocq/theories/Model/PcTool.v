(** The PC side of the serial protocol: tools/ecu-config/decode_common.py,
    encode_common.py and the handlers of log_view.py. Python integers are
    unbounded, lists of small integers hold bytes; [None] is a Python exception.
    Options -v and -b only print more and are left out. *)
From Coq Require Import String.
From Verif.Base Require Export Text.

(** decode_common.py:6 *)
Definition CHAR_COLON : Z := 0x3A.
(** decode_common.py:7 *)
Definition CHAR_CR : Z := 0x0D.
(** decode_common.py:8 *)
Definition CHAR_LF : Z := 0x0A.

(** decode_common.py:20, one round of the inner loop. *)
Definition py_bit (crc : Z) : Z :=
  if Z.land crc 0x80000000 =? 0 then Z.shiftl crc 1
  else Z.lxor (Z.shiftl crc 1) 0x104c11db7.

(** decode_common.py:19-20, the inner loop. *)
Fixpoint py_times (n : nat) (crc : Z) : Z :=
  match n with O => crc | S k => py_times k (py_bit crc) end.

(** decode_common.py:16-21. *)
Definition crc32mpeg2 (buf : list Z) : Z :=
  fold_left (fun crc val => py_times 8 (Z.lxor crc (Z.shiftl val 24))) buf 0xffffffff.

(** bytes(list): ValueError unless every element is in range(256). Python built-in,
    called at encode_common.py:48. *)
Definition py_bytes (l : list Z) : option (list Z) :=
  if forallb (fun z => (0 <=? z) && (z <? 256)) l then Some l else None.

(** encode_common.py:15-48. *)
Definition encode_message (target_addr function : Z) (payload : list Z) : option (list Z) :=
  let ff z := Z.land z 0xFF in
  let msg_header := [CHAR_COLON; ff (Z.shiftr target_addr 8); ff target_addr;
                     ff (Z.shiftr function 8); ff function] in
  let calc_crc := crc32mpeg2 (msg_header ++ payload ++ [0; 0; 0; 0; CHAR_CR; CHAR_LF]) in
  py_bytes (msg_header ++ payload ++
    [ff (Z.shiftr calc_crc 24); ff (Z.shiftr calc_crc 16); ff (Z.shiftr calc_crc 8);
     ff (Z.shiftr calc_crc 0); CHAR_CR; CHAR_LF]).

(** The dict built in decode_common.py:180-187. *)
Record py_msg := mkPyMsg {
  m_payload : list Z; m_type : Z; m_addr : Z; m_crc_calc : Z; m_crc_recv : Z; m_crc_correct : bool }.

(** decode_common.py:158-162: big endian, or-ed together. *)
Definition py_or_bytes (bs : list Z) : Z :=
  fst (fold_left (fun '(acc, offset) b => (Z.lor acc (Z.shiftl b offset), offset - 8)) bs (0, 24)).

(** decode_common.py:143-188. The slices msg[-6:-2], msg[5:-6] and the indices
    1..4 are those of a message of at least six bytes; the callers use lengths
    18 and 43 (log_view.py:20,22) or at least MIN_NUM_BYTES = 10. *)
Definition try_decode (msg : list Z) (expected_len : nat) : option py_msg :=
  let n := length msg in
  if negb (Nat.eqb n expected_len) then None
  else if negb ((nth 0 msg 0 =? CHAR_COLON) && (nth (n - 2) msg 0 =? CHAR_CR)
                && (nth (n - 1) msg 0 =? CHAR_LF)) then None
  else
    let msg_crc := py_or_bytes (firstn 4 (skipn (n - 6) msg)) in
    let msg' := firstn (n - 6) msg ++ [0; 0; 0; 0] ++ skipn (n - 2) msg in
    let calc_crc := crc32mpeg2 msg' in
    Some (mkPyMsg (firstn (n - 6 - 5) (skipn 5 msg'))
                  (Z.lor (Z.shiftl (nth 3 msg' 0) 8) (nth 4 msg' 0))
                  (Z.lor (Z.shiftl (nth 1 msg' 0) 8) (nth 2 msg' 0))
                  calc_crc msg_crc (calc_crc =? msg_crc)).

(** int.from_bytes(b, 'little'), decode_common.py:61. *)
Fixpoint from_bytes_little (b : list Z) : Z :=
  match b with [] => 0 | x :: t => x + 256 * from_bytes_little t end.

(** decode_common.py:60-64: the bytes appended to the buffer. *)
Definition unpacked (b : list Z) : list Z :=
  let v := from_bytes_little b in
  map (fun i => Z.land (Z.shiftr v (Z.of_nat i * 8)) 0xFF) (seq 0 (length b)).

(** decode_common.py:70-71. *)
Fixpoint pop_to_colon (buf : list Z) : list Z :=
  match buf with
  | [] => []
  | c :: t => if c =? CHAR_COLON then buf else pop_to_colon t
  end.

(** decode_common.py:82-97. Result: the remaining buffer and the messages passed
    to handle_data. [fuel]: the buffer shrinks in every round. *)
Fixpoint decode_fixed (fuel : nat) (L : nat) (buf : list Z) : list Z * list py_msg :=
  match fuel with
  | O => (buf, [])
  | S k =>
      if Nat.ltb (length buf) L then (buf, [])
      else
        match try_decode (firstn L buf) L with
        | Some m => let '(b, ms) := decode_fixed k L (skipn L buf) in (b, m :: ms)
        | None => decode_fixed k L (skipn 1 buf)
        end
  end.

(** decode_common.py:58-80 for a fixed length. *)
Definition recv_bytes (L : nat) (buf b : list Z) : list Z * list py_msg :=
  let buf' := pop_to_colon (buf ++ unpacked b) in
  decode_fixed (length buf') L buf'.

(** A sequence of recv_bytes calls (serial_common.py:38-45 reads at most ten
    bytes at a time; any chunking is allowed here). *)
Fixpoint recv_all (L : nat) (buf : list Z) (chunks : list (list Z)) : list Z * list py_msg :=
  match chunks with
  | [] => (buf, [])
  | c :: t =>
      let '(b1, ms1) := recv_bytes L buf c in
      let '(b2, ms2) := recv_all L b1 t in
      (b2, ms1 ++ ms2)
  end.

(** ** Variable-length decoder *)
(** decode_common.py:10 *)
Definition MIN_NUM_BYTES : nat := 10.

(** decode_common.py:111-133, the inner loop over the lengths [lens] (the range
    is fixed when the loop starts, the buffer changes inside it). *)
Fixpoint variable_lens (lens : list nat) (try_offset : nat) (buf : list Z) : list Z * list py_msg :=
  match lens with
  | [] => (buf, [])
  | try_len :: t =>
      match try_decode (firstn try_len (skipn try_offset buf)) try_len with
      | Some m =>
          if m_crc_correct m then
            let '(b, ms) := variable_lens t try_offset (skipn (try_offset + try_len) buf) in (b, m :: ms)
          else variable_lens t try_offset buf
      | None => variable_lens t try_offset buf
      end
  end.

(** decode_common.py:108-133, the outer loop over the offsets [offs]. *)
Fixpoint variable_offsets (offs : list nat) (buf : list Z) : list Z * list py_msg :=
  match offs with
  | [] => (buf, [])
  | o :: t =>
      let '(b1, ms1) := variable_lens (seq MIN_NUM_BYTES (length buf - MIN_NUM_BYTES)) o buf in
      let '(b2, ms2) := variable_offsets t b1 in
      (b2, ms1 ++ ms2)
  end.

(** decode_common.py:99-133. *)
Definition decode_variable (buf : list Z) : list Z * list py_msg :=
  if Nat.ltb (length buf) MIN_NUM_BYTES then (buf, [])
  else variable_offsets (seq 0 (length buf - MIN_NUM_BYTES)) buf.

(** decode_common.py:58-80 for MSG_TYPE_LEN_VARIABLE. *)
Definition recv_bytes_variable (buf b : list Z) : list Z * list py_msg :=
  decode_variable (pop_to_colon (buf ++ unpacked b)).

(** A sequence of recv_bytes calls (serial_common.py:38-45). *)
Fixpoint recv_all_variable (buf : list Z) (chunks : list (list Z)) : list Z * list py_msg :=
  match chunks with
  | [] => (buf, [])
  | c :: t =>
      let '(b1, ms1) := recv_bytes_variable buf c in
      let '(b2, ms2) := recv_all_variable b1 t in
      (b2, ms1 ++ ms2)
  end.

(** What appears on the terminal. log_view.py:43-76. *)
Inductive shown :=
| LogText (chars : list Z)          (* plain *)
| LogTextRed (chars : list Z)       (* between bcolors.FAIL and bcolors.ENDC *)
| StateUpdate (name : list Z) (value : Z)
| UnexpectedField (id : Z).

(** log_view.py:24-36. *)
Definition FIELD_ID_NAMES (id : Z) : option (list Z) :=
  match id with
  | 1 => Some (str "SDC")
  | 2 => Some (str "PDM")
  | 3 => Some (str "BMS Max cell voltage")
  | 4 => Some (str "BMS Max cell voltage ID")
  | 5 => Some (str "BMS Max cell temp")
  | 6 => Some (str "BMS Max cell temp ID")
  | 7 => Some (str "BMS DC current")
  | 8 => Some (str "BMS Pack voltage")
  | 9 => Some (str "BMS SOC")
  | 10 => Some (str "BMS Counter")
  | 11 => Some (str "BMS Fault")
  | _ => None
  end.

(** log_view.py:43-55 without option -r. *)
Definition handle_log_data (m : py_msg) : option (list shown) :=
  Some [if m_crc_correct m then LogText (m_payload m) else LogTextRed (m_payload m)].

(** Python list indexing: negative indices count from the end. Used at
    log_view.py:61-76. *)
Definition py_get (l : list Z) (i : Z) : option Z :=
  if i <? 0 then get l (Z.of_nat (length l) + i) else get l i.

Local Notation "x <- e ;; f" :=
  (match e with Some x => f | None => None end) (at level 61, e at next level, right associativity).

(** log_view.py:68-70. *)
Fixpoint state_value (n : nat) (i : Z) (d : list Z) (value : Z) : option Z :=
  match n with
  | O => Some value
  | S k =>
      ith_byte <- py_get d (6 - i) ;;
      state_value k (i + 1) d (Z.lor value (Z.shiftl ith_byte (i * 8)))
  end.

(** log_view.py:61-76. *)
Definition handle_state_data (m : py_msg) : option (list shown) :=
  let d := m_payload m in
  if m_crc_correct m then
    d0 <- py_get d 0 ;;
    d1 <- py_get d 1 ;;
    field_len <- py_get d 2 ;;
    value <- state_value (Z.to_nat field_len) 0 d 0 ;;
    let field_id := Z.lor (Z.shiftl d0 8) d1 in
    Some [match FIELD_ID_NAMES field_id with
          | None => UnexpectedField field_id
          | Some name => StateUpdate name value
          end]
  else Some [].

(** decode_common.py:195-210. *)
Definition handle_data (self_address type : Z) (handler : py_msg -> option (list shown)) (m : py_msg)
  : option (list shown) :=
  if negb (m_addr m =? self_address) then Some []
  else if negb (m_type m =? type) then Some []
  else handler m.

(** decode_common.py:82-97 calls handle_data for one message after the other. *)
Fixpoint handle_each (h : py_msg -> option (list shown)) (ms : list py_msg) : option (list shown) :=
  match ms with
  | [] => Some []
  | m :: t => a <- h m ;; b <- handle_each h t ;; Some (a ++ b)
  end.

(** log_view.py:18 *)
Definition ADDR_PC : Z := 2.
(** log_view.py:20 *)
Definition MSG_LEN_LOG : nat := 43.
(** log_view.py:22 *)
Definition MSG_LEN_STATE : nat := 18.

(** log_view.py:96-125: the output of each of the two decoders for the bytes that
    came in (the thread dies if a handler raises). *)
Definition view_log (chunks : list (list Z)) : option (list shown) :=
  handle_each (handle_data ADDR_PC 2 handle_log_data) (snd (recv_all MSG_LEN_LOG [] chunks)).
(** log_view.py:107-125 *)
Definition view_state (chunks : list (list Z)) : option (list shown) :=
  handle_each (handle_data ADDR_PC 1 handle_state_data) (snd (recv_all MSG_LEN_STATE [] chunks)).

(** ** The simulated sender *)
(** sim-server.py:16-26: a string, given by the code points of its characters, in
    log messages of 32 characters, the last padded with zeros. [n]: rounds of the
    loop, at least length / 32. *)
Fixpoint create_log_msgs (n : nat) (text : list Z) : option (list (list Z)) :=
  match n, text with
  | S k, _ :: _ =>
      let part := firstn 32 text in
      m <- encode_message ADDR_PC 2 (part ++ repeat 0 (32 - length part)) ;;
      ms <- create_log_msgs k (skipn 32 text) ;;
      Some (m :: ms)
  | _, _ => Some []
  end.
