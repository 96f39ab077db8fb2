(** What C45 and C46 speak about. *)
From Verif.Model Require Export CanDriver.

(** The registrations accepted so far for one bus: the first eight requests. *)
Definition reg_requests (bus : Z) (tr : list can_event) : list recv_entry :=
  flat_map (fun e => match e with
                     | CanReg b i m q => if b =? bus then [mkEntry i m q] else []
                     | _ => []
                     end) tr.
Definition registered (bus : Z) (tr : list can_event) : list recv_entry := firstn 8 (reg_requests bus tr).

(** The driver behind registration [r] is interested in identifier [id]. *)
Definition interested (id : Z) (r : recv_entry) : bool := Z.land id (re_mask r) =? re_id r.

(** What queue [q] should get for one frame: one copy per interested
    registration of that queue. *)
Definition copies (regs : list recv_entry) (q : Z) (f : can_frame) : list can_frame :=
  repeat f (length (filter (fun r => (re_queue r =? q) && interested (fr_id f) r) regs)).

(** The frame as the drivers should see it. *)
Definition as_received (bus : Z) (h : hw_frame) : can_frame :=
  mkFrame bus (hw_id h) (hw_dlc h) (hw_data h).

(** The registrations of a history are within the C types: bus numbers are not
    negative. *)
Definition buses_ok (tr : list can_event) : Prop :=
  forall b i m q, In (CanReg b i m q) tr -> 0 <= b.

(** Frames in the mailboxes. *)
Definition in_mailboxes (mb : list (option tx_item)) : list tx_item :=
  flat_map (fun m => match m with Some it => [it] | None => [] end) mb.

(** No transmission of the history fails. *)
Definition no_loss (tr : list tx_event) : Prop := ~ In (TxDone false) tr.

(** Every frame is sent only when the mailboxes are empty: one frame at a time. *)
Fixpoint sends_when_idle (c : can_tx) (tr : list tx_event) : Prop :=
  match tr with
  | [] => True
  | e :: t =>
      match e with TxSend _ _ _ _ => in_mailboxes (tx_mb c) = [] | _ => True end /\
      match tx_step c e with Some c' => sends_when_idle c' t | None => True end
  end.
