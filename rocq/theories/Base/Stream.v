(** FreeRTOS stream buffers as bounded FIFO lists of bytes. A buffer created
    with size n holds n - 1 bytes (stream_buffer.c keeps one byte free). *)
From Verif.Base Require Export Words.

(** xStreamBufferSend / SendFromISR without waiting: as many bytes as fit. *)
Definition stream_send (cap : nat) (s b : list Z) : list Z :=
  s ++ firstn (cap - length s) b.

(** The same with the assertion of stream_buffer.c:1092: sending no byte while
    there is room stops the controller (None). C74 shows that this is what the
    kernel's code does. *)
Definition stream_send_checked (cap : nat) (s b : list Z) : option (list Z) :=
  match b with
  | [] => if (length s <? cap)%nat then None else Some s
  | _ => Some (stream_send cap s b)
  end.

(** What of [b] was stored. *)
Definition stream_stored (cap : nat) (s b : list Z) : list Z :=
  firstn (cap - length s) b.

(** xStreamBufferReceive of at most [n] bytes: (received, rest). *)
Definition stream_recv (n : nat) (s : list Z) : list Z * list Z :=
  (firstn n s, skipn n s).

Lemma stream_send_checked_some cap s b s' : stream_send_checked cap s b = Some s' -> s' = stream_send cap s b.
Proof.
  unfold stream_send_checked. destruct b.
  - destruct (_ <? _)%nat; [discriminate|]. intros [= <-]. unfold stream_send. now rewrite firstn_nil, app_nil_r.
  - intros H. congruence.
Qed.
Lemma stream_send_checked_ok cap s b : b <> [] -> stream_send_checked cap s b = Some (stream_send cap s b).
Proof. destruct b; [congruence|reflexivity]. Qed.
