(** C87: the text the GPS task makes of what it receives stays inside its buffer. *)
From Coq Require Import String.
From Verif.Model Require Import GpsText.
From Verif.Proof Require Import GpsTextProof.

(** For every chunk the receive call can return (at most 2048 bytes, of any value),
    no write leaves the 4096-byte buffer, and the buffer then holds exactly the
    heading, the bytes, a newline and zeros. *)
Theorem C87_text_inside_buffer :
  forall bytes, Z.of_nat (List.length bytes) <= 2048 ->
    exists buf,
      gps_text bytes = Some (buf, 24 + Z.of_nat (List.length bytes)) /\
      List.length buf = Z.to_nat 4096 /\
      exists zeros, buf = str "GPS received sentence: " ++ bytes ++ [10] ++ zeros /\
                    zeros <> [] /\ Forall (fun z => z = 0) zeros.
Proof.
  intros bytes L. destruct (gps_text_ok bytes L) as (buf & E & [LL B]).
  exists buf. split; [exact E|].
  set (text := str "GPS received sentence: " ++ bytes ++ [10]) in *.
  split; [rewrite B, app_length, repeat_length; unfold SIZE in *; change (2 * GPS_RECV) with 4096 in *; lia|].
  exists (repeat 0 (SIZE - List.length text)). split; [|split].
  - rewrite B. unfold text. now rewrite <- !app_assoc.
  - destruct (SIZE - List.length text)%nat eqn:D; [lia|discriminate].
  - apply Forall_forall. intros z. apply repeat_spec.
Qed.
Print Assumptions C87_text_inside_buffer.

Example C87_ex : exists b, gps_text (str "$GPGGA") = Some (b, 30) /\
  firstn 31 b = str "GPS received sentence: " ++ str "$GPGGA" ++ [10; 0].
Proof. eexists. split; vm_compute; reflexivity. Qed.

(** The sizes the code passes are not what protects it: for chunks of more than 2025
    bytes the last call may write, as far as it is told, beyond the buffer's end. *)
Example C87_stated_room_too_large : 23 + 2026 + 2048 > 4096.
Proof. reflexivity. Qed.
