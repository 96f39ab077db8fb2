(** system-lib/gpio/gpio.c: pins are (port, pin number) pairs; the hardware is
    the level of every pin. *)
From Verif.Base Require Export Words.

Definition pin : Set := (Z * Z)%type.
Definition gpio : Set := pin -> bool.
Definition pin_eqb (a b : pin) : bool := (fst a =? fst b) && (snd a =? snd b).

(** gpio.c:13-16 *)
Definition GPIO_ReadPin (g : gpio) (p : pin) : bool := g p.
(** gpio.c:18-21 *)
Definition GPIO_WritePin (g : gpio) (p : pin) (v : bool) : gpio :=
  fun q => if pin_eqb q p then v else g q.
(** gpio.c:23-26 *)
Definition GPIO_TogglePin (g : gpio) (p : pin) : gpio :=
  fun q => if pin_eqb q p then negb (g q) else g q.
