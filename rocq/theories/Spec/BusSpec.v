(** Vocabulary for the I2C and SPI properties. *)
From Verif.Model Require Import I2c Spi.

(** A call returned OK. *)
Definition ok_return (r : i2c_ret) : bool := match rt_status r with I2C_OK => true | _ => false end.
Definition ok_count (b : i2c_bus) : nat := length (filter ok_return (ib_returns b)).

(** The task is inside a call that has the bus. *)
Definition inside (b : i2c_bus) (t : Z) : Prop := ib_pc b t <> Outside.

(** No start of a transfer fails. *)
Definition no_failed_start (es : list spi_event) : Prop := forall d, ~ In (STransfer d false) es.

(** The callback task is blocked, waiting for a notification. *)
Definition rx_blocked (s : spi) : Prop := sp_budget s = 0 /\ sp_notif s = 0.

(** The callback task runs [n] steps undisturbed. *)
Fixpoint rx_runs (n : nat) (s : spi) : spi :=
  match n with
  | O => s
  | S n' => rx_runs n' (if sp_budget s =? 0 then rx_take s else rx_item s)
  end.

(** The devices whose transfers complete during [es], in order. *)
Fixpoint completions (s : spi) (es : list spi_event) : list Z :=
  match es with
  | [] => []
  | e :: es' =>
      match e with
      | SComplete k => match sp_dma s k with Some d => [sd_id d] | None => [] end
      | _ => []
      end ++ completions (spi_step s e) es'
  end.

(** Every device is on one bus. *)
Definition wired (bus_of : Z -> Z) (es : list spi_event) : Prop :=
  forall d ok, In (STransfer d ok) es -> sd_bus d = bus_of (sd_id d).
