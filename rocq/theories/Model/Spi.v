(** system-lib/spi/spi.c, transfers by DMA; the blocking call is in SpiSync. *)
From Verif.Base Require Export Words.

(** spi.h:20 *)
Definition SPI_QUEUE_LENGTH : Z := 10.
(** spi.c:26 *)
Definition SPI_NUM_BUSSES : Z := 4.
(** spi.h:23 *)
Definition SPI_SYNC_MAX_DATA_LENGTH : Z := 16.
(** spi.h:36 *)
Definition SPI_STATUS_OK : Z := 0.
(** spi.h:37 *)
Definition SPI_STATUS_ERROR_TX : Z := 1.
(** spi.h:38 *)
Definition SPI_STATUS_ERROR_BUSY : Z := 2.
(** spi.h:39 *)
Definition SPI_STATUS_ERROR_INVALID_BUS : Z := 3.
(** spi.h:40 *)
Definition SPI_STATUS_ERROR_SEM : Z := 4.
(** spi.h:41 *)
Definition SPI_STATUS_ERROR_TOO_MUCH_DATA : Z := 5.

(** SPI_Device_T (spi.h:64-72): its bus (getSPIBusIndex of the handle, spi.c:89-99;
    0..3, anything else is not a known bus) and a number naming the device, which
    stands for its chip-select pin and its callback. *)
Record spi_dev := mkSpiDev { sd_bus : Z; sd_id : Z }.

(** - [sp_sem] k: the binary semaphore of bus k is available
    - [sp_device] k: spiDevices[k].device
    - [sp_dma] k: the device for which the hardware is doing a DMA transfer on bus k
    - [sp_cs] d: chip-select of device d is high
    - [sp_queue], [sp_notif]: completion queue and notification count
    - [sp_budget]: notifiedValue of the callback task, 0 when it waits
    - [sp_calls]: callbacks made, in order
    - [sp_null]: a null pointer was dereferenced
    (spi.c:28-81.) *)
Record spi := mkSpi {
  sp_sem : Z -> bool;
  sp_device : Z -> option spi_dev;
  sp_dma : Z -> option spi_dev;
  sp_cs : Z -> bool;
  sp_queue : list Z;
  sp_notif : Z;
  sp_budget : Z;
  sp_calls : list Z;
  sp_null : bool
}.

(** spi.c:180-226; chip-selects are high after reset. *)
Definition spi_init : spi :=
  mkSpi (fun _ => true) (fun _ => None) (fun _ => None) (fun _ => true) [] 0 0 [] false.

(** An element of an array indexed by bus (spi.c:47). No code of its own. *)
Definition put {A : Type} (f : Z -> A) (k : Z) (v : A) : Z -> A := fun i => if i =? k then v else f i.

(** spi.c:89-99 *)
Definition spi_bus_known (k : Z) : bool := (0 <=? k) && (k <? SPI_NUM_BUSSES).

(** spi.c:229-265. The take succeeds iff the semaphore is available (waiting up
    to 10 ticks and then obtaining it is the same call later). [hal_ok]: the HAL
    accepts the transfer; it never does while one is in progress on the bus. *)
Definition SPI_TransmitReceive (s : spi) (d : spi_dev) (hal_ok : bool) : spi * Z :=
  let k := sd_bus d in
  if negb (spi_bus_known k) then (s, SPI_STATUS_ERROR_INVALID_BUS) else
  if negb (sp_sem s k) then (s, SPI_STATUS_ERROR_BUSY) else
  match hal_ok, sp_dma s k with
  | true, None =>
      (mkSpi (put (sp_sem s) k false) (put (sp_device s) k (Some d)) (put (sp_dma s) k (Some d))
         (put (sp_cs s) (sd_id d) false) (sp_queue s) (sp_notif s) (sp_budget s) (sp_calls s) (sp_null s),
       SPI_STATUS_OK)
  | _, _ =>
      (mkSpi (put (sp_sem s) k false) (put (sp_device s) k (Some d)) (sp_dma s)
         (put (sp_cs s) (sd_id d) true) (sp_queue s) (sp_notif s) (sp_budget s) (sp_calls s) (sp_null s),
       SPI_STATUS_ERROR_TX)
  end.

(** spi.c:154-175, the interrupt at the end of the DMA transfer on bus [k]. *)
Definition HAL_SPI_TxRxCpltCallback (s : spi) (k : Z) : spi :=
  match sp_dma s k with
  | None => s
  | Some _ =>
      if negb (spi_bus_known k) then
        mkSpi (sp_sem s) (sp_device s) (put (sp_dma s) k None) (sp_cs s) (sp_queue s) (sp_notif s) (sp_budget s)
          (sp_calls s) (sp_null s)
      else
      let fits := Z.of_nat (length (sp_queue s)) <? SPI_QUEUE_LENGTH in
      mkSpi (sp_sem s) (sp_device s) (put (sp_dma s) k None)
        (match sp_device s k with Some d => put (sp_cs s) (sd_id d) true | None => sp_cs s end)
        (if fits then sp_queue s ++ [k] else sp_queue s)
        (if fits then sp_notif s + 1 else sp_notif s) (sp_budget s)
        (sp_calls s)
        (match sp_device s k with Some _ => sp_null s | None => true end)
  end.

(** spi.c:113: the callback task waits; taking a notification returns the count
    and decrements it. *)
Definition rx_take (s : spi) : spi :=
  if (sp_budget s =? 0) && (0 <? sp_notif s) then
    mkSpi (sp_sem s) (sp_device s) (sp_dma s) (sp_cs s) (sp_queue s) (sp_notif s - 1) (sp_notif s)
      (sp_calls s) (sp_null s)
  else s.

(** spi.c:115-143: one iteration. *)
Definition rx_item (s : spi) : spi :=
  if 0 <? sp_budget s then
    match sp_queue s with
    | [] => mkSpi (sp_sem s) (sp_device s) (sp_dma s) (sp_cs s) [] (sp_notif s) 0
              (sp_calls s) (sp_null s)
    | k :: q =>
        mkSpi (put (sp_sem s) k true) (sp_device s) (sp_dma s) (sp_cs s) q (sp_notif s) (sp_budget s - 1)
         
          (match sp_device s k with Some d => sp_calls s ++ [sd_id d] | None => sp_calls s end)
          (match sp_device s k with Some _ => sp_null s | None => true end)
    end
  else s.

(** spi.c:104-175, 229-265. *)
Inductive spi_event :=
| STransfer (d : spi_dev) (hal_ok : bool)
| SComplete (k : Z)
| SRxTake
| SRxItem.

(** No code of its own; drives spi.c:104-175, 229-265. *)
Definition spi_step (s : spi) (e : spi_event) : spi :=
  match e with
  | STransfer d ok => fst (SPI_TransmitReceive s d ok)
  | SComplete k => HAL_SPI_TxRxCpltCallback s k
  | SRxTake => rx_take s
  | SRxItem => rx_item s
  end.

(** A history of these events (spi.c:104-175, 229-265). *)
Definition spi_run (s : spi) (es : list spi_event) : spi := fold_left spi_step es s.
