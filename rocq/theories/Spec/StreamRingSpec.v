(** What a stream buffer is for its users: a queue of bytes. *)
From Verif.Base Require Export Stream.
From Verif.Model Require Export StreamRing.

(** Index [x] of a ring of [len] bytes, for x below 2 * len. *)
Definition wrap (len x : Z) : Z := if x <? len then x else x - len.

(** The bytes between the tail and the head, oldest first. *)
Definition held_count (r : ring) : Z :=
  if rb_tail r <=? rb_head r then rb_head r - rb_tail r else rb_head r + rb_len r - rb_tail r.
Definition held_byte (r : ring) (i : nat) : Z :=
  nth (Z.to_nat (wrap (rb_len r) (rb_tail r + Z.of_nat i))) (rb_buf r) 0.
Definition held (r : ring) : list Z := map (held_byte r) (seq 0 (Z.to_nat (held_count r))).

(** Room for more bytes: one byte of the buffer always stays free. *)
Definition room (r : ring) : nat := Z.to_nat (rb_len r - 1) - length (held r).

(** Sizes that xStreamBufferCreateStatic accepts (stream_buffer.c:319) and that
    cannot make the size_t sums wrap. *)
Definition size_ok (size : nat) : Prop := 4 < Z.of_nat size < 2 ^ 31.

(** The states that one sender and one receiver can reach. *)
Definition stream_reach (size : nat) (s : stream1) : Prop :=
  exists es, stream1_run (stream1_new size) es = Some s.

Definition nonempty_sends (es : list stream_event) : Prop := ~ In (ESend []) es.

(** No new call is made by the sender (by the receiver) in [es]. *)
Definition no_send (es : list stream_event) : Prop := forall d, ~ In (ESend d) es.
Definition no_recv (es : list stream_event) : Prop := forall n, ~ In (ERecv n) es.

(** How many accesses the sender (the receiver) makes in [es]. *)
Fixpoint snd_steps (es : list stream_event) : nat :=
  match es with [] => 0 | ESndStep :: es => S (snd_steps es) | _ :: es => snd_steps es end.
Fixpoint rcv_steps (es : list stream_event) : nat :=
  match es with [] => 0 | ERcvStep :: es => S (rcv_steps es) | _ :: es => rcv_steps es end.

(** ** Two ports on one stream *)

(** [l] consists of the bytes of [a] and of [b], each in their order. *)
Inductive merge : list Z -> list Z -> list Z -> Prop :=
| merge_nil : merge [] [] []
| merge_a x a b l : merge a b l -> merge (x :: a) b (x :: l)
| merge_b x a b l : merge a b l -> merge a (x :: b) (x :: l).

(** The interrupt of port B may interrupt the one of port A and runs to its end;
    the receiving task runs when no interrupt is being served. *)
Definition irq_allowed (s : stream2) (e : stream2_event) : bool :=
  let idle w := match w with SIdle => true | _ => false end in
  match e with
  | ESendA _ | EStepA => idle (s2_b s)
  | ESendB _ | EStepB => true
  | ERecv2 _ | EStepRcv => idle (s2_a s) && idle (s2_b s)
  end.

(** Neither port's interrupt runs while the other one is inside a send. *)
Definition no_overlap (s : stream2) (e : stream2_event) : bool :=
  let idle w := match w with SIdle => true | _ => false end in
  match e with
  | ESendA _ | EStepA => idle (s2_b s)
  | ESendB _ | EStepB => idle (s2_a s)
  | ERecv2 _ | EStepRcv => true
  end.

(** Every event of the run satisfies [ok] in the state in which it happens. *)
Fixpoint schedule (ok : stream2 -> stream2_event -> bool) (s : stream2) (es : list stream2_event) : bool :=
  match es with
  | [] => true
  | e :: es => ok s e && match stream2_step s e with Some s' => schedule ok s' es | None => true end
  end.
