(** Vocabulary for C88. *)
From Verif.Model Require Import SpiSync.

(** The chip-select of device [x] is low. *)
Definition selected (b : sync) (x : Z) : Prop := sp_cs (sy_spi b) x = false.

(** Bus [k] is being clocked for device [d], by DMA or by a blocking call. *)
Definition clocked (b : sync) (k : Z) (d : spi_dev) : Prop :=
  sp_dma (sy_spi b) k = Some d \/ exists t len, sy_pc b t = BMoving d len /\ sd_bus d = k.

(** The task is between taking and giving the mutex. *)
Definition in_call (b : sync) (t : Z) : Prop := sy_pc b t <> BOut.

(** Every device is on one bus, and every bus is used in one way: with the
    blocking call if [blocking] says so, otherwise with DMA. *)
Definition one_way (bus_of : Z -> Z) (blocking : Z -> bool) (es : list sync_event) : Prop :=
  forall e, In e es ->
    match e with
    | YEnter _ d _ => sd_bus d = bus_of (sd_id d) /\ blocking (sd_bus d) = true
    | YDma (STransfer d _) => sd_bus d = bus_of (sd_id d) /\ blocking (sd_bus d) = false
    | _ => True
    end.
