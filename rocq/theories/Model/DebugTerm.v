(** The debug terminal: pcinterface/debugterm.c, debugtermcommands.c and
    debugtermlib.h. *)
From Coq Require Import String.
From Coq Require Import List.
From Verif.Base Require Export Mem Text.
From Verif.Model Require Export PcRequests.
Open Scope Z_scope.

(** pcinterface.h:47, debugtermcommands.h:16, debugtermlib.h:18, messages.h:30-31 *)
Definition DEBUGTERM_BUFLEN : Z := 64.
(** debugtermcommands.h:16 *)
Definition DEBUGTERM_NUM_ARGS : Z := 8.
(** debugtermlib.h:18 *)
Definition DEBUGTERM_MAX_MSG_LEN : Z := 256.
(** messages.h:31 *)
Definition DEBUGTERM_FRAME_BUFFER : Z := 256.

(** debugtermlib.h:28-59: the frame a text is sent in (to both UARTs). [msg] is
    the text without its '\0'; the encoder's buffer has 256 bytes. *)
Definition DebugPrint_frame (lock : bool) (buffer msg : list Z) : option (list Z * list Z) :=
  let n := Z.min (Z.of_nat (length msg)) DEBUGTERM_MAX_MSG_LEN in
  let payloadLen := u16 (n + 2) in
  let e := mkEnc (u16 (payloadLen + 11)) payloadLen 2 9 in
  let text := if n =? DEBUGTERM_MAX_MSG_LEN then str "[Message truncated]" ++ [10; 0] else msg in
  let textLen := Z.of_nat (length text) in
  b <- MsgFrameEncode_InitFrame e buffer ;;
  b <- wr_block b 5 (byte 0 textLen :: byte 1 textLen :: text) ;;
  b <- MsgFrameEncode_UpdateCRC lock e b ;;
  sent <- rd_block b 0 (e_msgLen e) ;;
  Some (b, sent).

(** What the terminal does: calls of the vehicle interface, texts printed.
    VehicleControl calls of debugtermcommands.c:98, 130; DebugPrint
    (debugtermlib.h:28-59). *)
Inductive term_out := Do (c : pc_call) | Print (text : list Z).

(** A DebugPrint call; [None] if its frame does not fit the 256-byte buffer (see
    [DebugPrint_frame]). debugtermlib.h:28-59. *)
Definition say (text : list Z) : option (list term_out) :=
  if Z.of_nat (length text) + 13 <=? DEBUGTERM_FRAME_BUFFER then Some [Print text] else None.

(** Calls one after the other (as in debugtermcommands.c:33-135); the first that
    leaves its array ends the sequence. *)
Fixpoint seq_out (l : list (option (list term_out))) : option (list term_out) :=
  match l with
  | [] => Some []
  | o :: t => a <- o ;; b <- seq_out t ;; Some (a ++ b)
  end.

(** debugtermcommands.c:137-161 (names, descriptions and help texts). *)
Inductive cmd_id := CmdHelp | CmdSetpdm | CmdSetsdc.
(** debugtermcommands.c:139, 145, 154 *)
Definition cmd_name (c : cmd_id) : list Z :=
  match c with CmdHelp => str "help" | CmdSetpdm => str "setpdm" | CmdSetsdc => str "setsdc" end.
(** debugtermcommands.c:140, 146, 155 *)
Definition cmd_desc (c : cmd_id) : list Z :=
  match c with
  | CmdHelp => str "Display command help screen"
  | CmdSetpdm => str "Control PDM channels"
  | CmdSetsdc => str "Control shutdown circuit output state"
  end.
(** debugtermcommands.c:141, 147-150, 156-157 *)
Definition cmd_help_text (c : cmd_id) : list Z :=
  match c with
  | CmdHelp => str "Use help [cmd] for extended help for a specific command"
  | CmdSetpdm =>
      line "Usage: setpdm 1 2 3 4 5 6" ++
      line "1-6 are the on off states for channels 1-6, respectively." ++
      line "For example, `setpdm 0 0 1 0 1 0` turns on channels 3 and 5, and switches" ++
      line "off remaining channels."
  | CmdSetsdc =>
      line "Usage: setsdc x" ++
      line "where x is 0 or 1 to disable or enable the SDC output."
  end.
(** debugtermcommands.c:137-160, in this order. *)
Definition commands : list cmd_id := [CmdHelp; CmdSetpdm; CmdSetsdc].

(** debugtermcommands.c:20-31; [None] is the returned NULL. *)
Definition findCmdByName (name : list Z) : option cmd_id :=
  find (fun c => bytes_eqb (cmd_name c) name) commands.

(** "%-12s %s\n" (debugtermcommands.c:45-46); all texts fit the 256 bytes. *)
Definition help_line (c : cmd_id) : list Z :=
  firstn 255 (cmd_name c ++ repeat 32 (12 - length (cmd_name c)) ++ [32] ++ cmd_desc c ++ [NL]).

(** debugtermcommands.c:39-50 *)
Definition help_list : option (list term_out) :=
  seq_out (say (line "Available commands:") :: map (fun c => say (help_line c)) commands).

(** debugtermcommands.c:33-71. argv is the table of char arrays. A NULL command
    is dereferenced at line 55. *)
Definition cmd_help (argc : Z) (argv : list (list Z)) : option (list term_out) :=
  if argc =? 1 then help_list
  else if argc =? 2 then
    a1 <- rd argv 1 ;;
    c <- findCmdByName (cstr a1) ;;
    seq_out [say (cmd_desc c); say [NL]; say (cmd_help_text c)]
  else
    seq_out [say (line "Unexpected number of arguments." ++ [NL]); help_list].

(** debugtermcommands.c:84-94: the six parameters; [Some None] is the error exit. *)
Fixpoint parse01 (n : nat) (i : Z) (argv : list (list Z)) : option (option (list bool)) :=
  match n with
  | O => Some (Some [])
  | S n' =>
      row <- rd argv (i + 1) ;;
      c <- rd row 0 ;;
      if c =? 48 then r <- parse01 n' (i + 1) argv ;; Some (option_map (cons false) r)
      else if c =? 49 then r <- parse01 n' (i + 1) argv ;; Some (option_map (cons true) r)
      else Some None
  end.

(** "%u" of a bool, debugtermcommands.c:101, 133. *)
Definition digit (b : bool) : Z := if b then 49 else 48.
(** debugtermcommands.c:97-103 *)
Fixpoint pdm_outputs (i : Z) (l : list bool) : list (option (list term_out)) :=
  match l with
  | [] => []
  | b :: t =>
      Some [Do (SetPowerChannel i b)]
      :: say (str "  PDM channel " ++ [48 + i] ++ str ": " ++ [digit b; NL])
      :: pdm_outputs (i + 1) t
  end.

(** debugtermcommands.c:73-104 *)
Definition cmd_setpdm (argc : Z) (argv : list (list Z)) : option (list term_out) :=
  if negb (argc =? 7) then say (line "Unexpected number of params") else
  r <- parse01 6 0 argv ;;
  match r with
  | None => say (line "Param must be 0 or 1")
  | Some l => seq_out (say (line "Test command executed: set PDM states to") :: pdm_outputs 0 l)
  end.

(** debugtermcommands.c:106-135 *)
Definition cmd_setsdc (argc : Z) (argv : list (list Z)) : option (list term_out) :=
  if negb (argc =? 2) then say (line "Unexpected number of params") else
  r <- parse01 1 0 argv ;;
  match r with
  | Some [b] => seq_out [Some [Do (SetECUError b)]; say (str "  SDC output set to: " ++ [digit b; NL])]
  | _ => say (line "Param must be 0 or 1")
  end.

(** The member exec of debugtermcommands.c:142, 151, 158. *)
Definition exec (c : cmd_id) : Z -> list (list Z) -> option (list term_out) :=
  match c with CmdHelp => cmd_help | CmdSetpdm => cmd_setpdm | CmdSetsdc => cmd_setsdc end.

(** debugterm.c:47-59 *)
Definition processCommand (argc : Z) (argv : list (list Z)) : option (list term_out) :=
  a0 <- rd argv 0 ;;
  seq_out (map (fun c => if bytes_eqb (cstr a0) (cmd_name c) then exec c argc argv else Some [])
               commands).

(** debugterm.c:77 *)
Definition is_blank (c : Z) : bool := (c =? 32) || (c =? 9).

(** debugterm.c:73-94, the tokenizer loop. Result: argument table and nArgs. *)
Fixpoint tokenize (cmd : list Z) (args : list (list Z)) (nArgs argIdx : Z) (ws : bool)
  : option (list (list Z) * Z) :=
  match cmd with
  | [] => Some (args, nArgs)
  | c :: t =>
      if is_blank c then
        if ws then tokenize t args nArgs argIdx true
        else tokenize t args (u16 (nArgs + 1)) 0 true
      else if c =? NL then tokenize t args (u16 (nArgs + 1)) 0 ws
      else
        row <- rd args nArgs ;;
        row' <- wr row argIdx c ;;
        args' <- wr args nArgs row' ;;
        tokenize t args' nArgs (u16 (argIdx + 1)) false
  end.

(** debugterm.c:67: 8 arrays of 65 characters. *)
Definition empty_args : list (list Z) := repeat (repeat 0 65) 8.

(** debugterm.c:61-97; [cmd] are the first cmdLen characters. *)
Definition processCommandStr (cmd : list Z) : option (list term_out) :=
  '(argv, argc) <- tokenize cmd empty_args 0 0 false ;;
  processCommand argc argv.

(** pcinterface.h:48-51 *)
Record term := mkTerm { t_buf : list Z; t_next : Z }.

(** debugterm.c:109-119. Result: outputs, receivedFullCmd, lastObservedBegin. *)
Fixpoint scan_lines (n : nat) (i : Z) (buf cmdBuf : list Z) (cmdBufIdx : Z) (full : bool) (begin : Z)
  : option (list term_out * bool * Z) :=
  match n with
  | O => Some ([], full, begin)
  | S n' =>
      c <- rd buf i ;;
      cmdBuf' <- wr cmdBuf cmdBufIdx c ;;
      if c =? NL then
        cmd <- rd_block cmdBuf' 0 (cmdBufIdx + 1) ;;
        o <- processCommandStr cmd ;;
        '(o2, full', begin') <- scan_lines n' (i + 1) buf cmdBuf' (cmdBufIdx + 1) true (i + 1) ;;
        Some (o ++ o2, full', begin')
      else scan_lines n' (i + 1) buf cmdBuf' (cmdBufIdx + 1) full begin
  end.

(** debugterm.c:123-125 *)
Fixpoint shift_buf (n : nat) (i begin : Z) (buf : list Z) : option (list Z) :=
  match n with
  | O => Some buf
  | S n' =>
      x <- rd buf i ;;
      buf' <- wr buf (i - begin) x ;;
      shift_buf n' (i + 1) begin buf'
  end.

(** debugterm.c:99-132 *)
Definition processBuffer (t : term) : option (term * list term_out) :=
  '(o, full, begin) <- scan_lines (Z.to_nat (t_next t)) 0 (t_buf t)
                         (repeat 0 (Z.to_nat DEBUGTERM_BUFLEN)) 0 false 0 ;;
  buf <- shift_buf (Z.to_nat (t_next t - begin)) begin begin (t_buf t) ;;
  p <- (if (full : bool) then say (str "> ") else Some []) ;;
  Some (mkTerm buf (u16 (t_next t - begin)), o ++ p).

(** debugterm.c:26-37 with dest = buf + next. Result: buffer, characters copied. *)
Fixpoint strncpyl (src : list Z) (buf : list Z) (pos copied : Z) : option (list Z * Z) :=
  match src with
  | [] => Some (buf, copied)
  | c :: t =>
      if c =? 0 then Some (buf, copied)
      else buf' <- wr buf pos c ;; strncpyl t buf' (pos + 1) (copied + 1)
  end.

(** debugterm.c:135-157 *)
Definition DebugTermRecv (t : term) (payload : list Z) : option (term * list term_out) :=
  if t_next t + Z.of_nat (length payload) >? DEBUGTERM_BUFLEN then
    o <- say (line "error: buffer full") ;; Some (mkTerm (t_buf t) 0, o)
  else
    '(buf, n) <- strncpyl payload (t_buf t) (t_next t) 0 ;;
    let t1 := mkTerm buf (u16 (t_next t + n)) in
    if t_next t1 =? 0 then Some (t1, []) else processBuffer t1.
