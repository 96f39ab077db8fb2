(** What C82 speaks about. *)
From Verif.Model Require Import BusOff.

(** The node takes no part in the bus. *)
Definition off_bus (s : node) : Prop := fc_off (nd_fc s) = true.

(** Number of transmissions a disturbance spoiled. *)
Definition disturbances (tr : list node_event) : Z :=
  Z.of_nat (length (filter (fun e => match e with NFailed Disturbed => true | _ => false end) tr)).
Definition counted_failures (tr : list node_event) : Z :=
  Z.of_nat (length (filter (fun e => match e with NFailed Disturbed | NFailed NoAck => true | _ => false end) tr)).

(** The status the driver would return for a message of eight bytes. *)
Definition send_status (s : node) (msgId : Z) (data : list Z) : option Z :=
  option_map snd (CAN_SendMessage (nd_tx s) msgId data 8 true).

(** Frames waiting in mailboxes and queue. *)
Definition waiting (s : node) : Z :=
  3 - free_level (tx_mb (nd_tx s)) + Z.of_nat (length (tx_q (nd_tx s))).

(** Messages sent one by one, each spoiled by a disturbance. *)
Definition spoiled (msgs : list (Z * list Z)) : list node_event :=
  flat_map (fun m => [NSend (fst m) (snd m) 8; NStart; NFailed Disturbed]) msgs.

(** Times the bus was idle for 11 bits. *)
Definition recessives (tr : list node_event) : Z :=
  Z.of_nat (length (filter (fun e => match e with NRecessive => true | _ => false end) tr)).

(** Messages sent one by one (identifier, eight bytes), each of which gets through
    ([true]) or is spoiled by a disturbance ([false]). *)
Definition traffic (msgs : list (Z * list Z * bool)) : list node_event :=
  flat_map (fun m : Z * list Z * bool => [NSend (fst (fst m)) (snd (fst m)) 8; NStart; if snd m then NSent else NFailed Disturbed]) msgs.
Definition got_through (msgs : list (Z * list Z * bool)) : Z := Z.of_nat (length (filter snd msgs)).
Definition were_spoiled (msgs : list (Z * list Z * bool)) : Z := Z.of_nat (length (filter (fun m : Z * list Z * bool => negb (snd m)) msgs)).
