(** What C83 speaks about. *)
From Verif.Model Require Import SerialLine.

(** Characters sent one after the other from time [t] on, with any pauses. *)
Fixpoint sent_from (bit t : Z) (cs : list (Z * Z)) : Prop :=
  match cs with
  | [] => True
  | (s, b) :: cs' => t <= s /\ 0 <= b < 256 /\ sent_from bit (s + 10 * bit) cs'
  end.

(** Two bit times that differ by no more than a 32nd. *)
Definition close (bit_tx bit_rx : Z) : Prop := 0 < bit_tx /\ 16 <= bit_rx /\ 32 * Z.abs (bit_tx - bit_rx) <= bit_rx.

(** Bit times in units of 1 / (clock * baud) seconds: the nominal one is [clock],
    the one of a port with divider [brr] is [brr * baud]. A partner is within [p]
    thousandths of the nominal rate. *)
Definition port_bit (p : port) : option Z := option_map (fun brr => brr * port_baud p) (usart_brr (port_clock p) (port_baud p)).
Definition within (permille nominal bit : Z) : Prop := 1000 * Z.abs (bit - nominal) <= permille * nominal.
