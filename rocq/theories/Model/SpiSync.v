(** system-lib/spi/spi.c: SPI_TransmitReceiveBlocking, called from any number of
    tasks, together with the transfers by DMA of Spi. *)
From Verif.Model Require Export Spi.

(** stm32f7xx_hal_def.h:38-44 *)
Definition HAL_OK : Z := 0.
(** stm32f7xx_hal_def.h:38-44 *)
Definition HAL_BUSY : Z := 2.
(** stm32f7xx_hal_def.h:38-44 *)
Definition HAL_TIMEOUT : Z := 3.

(** Where a task is inside the call (spi.c:268-303):
    - [BLow]: it has the mutex (279), chip-select not yet low
    - [BCall]: chip-select low (284), HAL_SPI_TransmitReceive not yet entered
    - [BMoving]: inside the HAL call, the bus is clocked (286)
    - [BUp]: the HAL has answered, chip-select still low
    - [BGive]: chip-select high (289), mutex still held *)
Inductive bpc :=
| BOut
| BLow (d : spi_dev) (len : Z)
| BCall (d : spi_dev) (len : Z)
| BMoving (d : spi_dev) (len : Z)
| BUp (d : spi_dev) (hal : Z)
| BGive (hal : Z).

(** [sy_holder]: holder of spiBusyMutex (77-81); [sy_moved]: what the blocking calls
    clocked, device and number of bytes; [sy_returns]: task and status.
    (spi.c:268-303.) *)
Record sync := mkSync {
  sy_spi : spi;
  sy_holder : option Z;
  sy_pc : Z -> bpc;
  sy_moved : list (spi_dev * Z);
  sy_returns : list (Z * Z)
}.

(** spi.c:180-226 *)
Definition sync_init : sync := mkSync spi_init None (fun _ => BOut) [] [].

(** A chip-select pin. spi.c:284, 289. *)
Definition set_cs (s : spi) (x : Z) (v : bool) : spi :=
  mkSpi (sp_sem s) (sp_device s) (sp_dma s) (put (sp_cs s) x v) (sp_queue s) (sp_notif s) (sp_budget s) (sp_calls s) (sp_null s).

(** A blocking transfer is being clocked on bus [k]. Hardware state during
    spi.c:286. *)
Definition moving_on (b : sync) (k : Z) : bool :=
  match sy_holder b with
  | Some t => match sy_pc b t with BMoving d _ => sd_bus d =? k | _ => false end
  | None => false
  end.

(** spi.c:268-281: entry, length check, mutex. A wait that ends with the mutex is
    the same call later; one that times out is refused. *)
Definition blocking_enter (b : sync) (t : Z) (d : spi_dev) (len : Z) : sync :=
  match sy_pc b t with
  | BOut =>
      if len >? SPI_SYNC_MAX_DATA_LENGTH then
        mkSync (sy_spi b) (sy_holder b) (sy_pc b) (sy_moved b) (sy_returns b ++ [(t, SPI_STATUS_ERROR_TOO_MUCH_DATA)])
      else match sy_holder b with
           | Some _ => mkSync (sy_spi b) (sy_holder b) (sy_pc b) (sy_moved b) (sy_returns b ++ [(t, SPI_STATUS_ERROR_SEM)])
           | None => mkSync (sy_spi b) (Some t) (put (sy_pc b) t (BLow d len)) (sy_moved b) (sy_returns b)
           end
  | _ => b
  end.

(** spi.c:283-303: the next step of task [t]. The HAL answers HAL_BUSY at once if
    the bus is in use by DMA; otherwise it clocks the data and answers [hal]. The
    answer is returned as an SPI status (297). *)
Definition blocking_step (b : sync) (t : Z) (hal : Z) : sync :=
  match sy_pc b t with
  | BOut => b
  | BLow d len =>
      mkSync (set_cs (sy_spi b) (sd_id d) false) (sy_holder b) (put (sy_pc b) t (BCall d len)) (sy_moved b) (sy_returns b)
  | BCall d len =>
      let next := match sp_dma (sy_spi b) (sd_bus d) with Some _ => BUp d HAL_BUSY | None => BMoving d len end in
      mkSync (sy_spi b) (sy_holder b) (put (sy_pc b) t next) (sy_moved b) (sy_returns b)
  | BMoving d len =>
      mkSync (sy_spi b) (sy_holder b) (put (sy_pc b) t (BUp d hal)) (sy_moved b ++ [(d, len)]) (sy_returns b)
  | BUp d h =>
      mkSync (set_cs (sy_spi b) (sd_id d) true) (sy_holder b) (put (sy_pc b) t (BGive h)) (sy_moved b) (sy_returns b)
  | BGive h =>
      mkSync (sy_spi b) None (put (sy_pc b) t BOut) (sy_moved b)
        (sy_returns b ++ [(t, if h =? HAL_OK then SPI_STATUS_OK else h)])
  end.

(** spi.c:268-303 by any task; the events of [Spi] (spi.c:104-265). *)
Inductive sync_event :=
| YEnter (t : Z) (d : spi_dev) (len : Z)
| YStep (t : Z) (hal : Z)
| YDma (e : spi_event).

(** The HAL refuses to start a DMA transfer on a bus that is being clocked by a
    blocking one. The state check of HAL_SPI_TransmitReceive_DMA, called at
    spi.c:253. *)
Definition dma_event (b : sync) (e : spi_event) : spi_event :=
  match e with STransfer d ok => STransfer d (ok && negb (moving_on b (sd_bus d))) | _ => e end.

(** No code of its own; drives spi.c:104-303. *)
Definition sync_step (b : sync) (e : sync_event) : sync :=
  match e with
  | YEnter t d len => blocking_enter b t d len
  | YStep t hal => blocking_step b t hal
  | YDma e => mkSync (spi_step (sy_spi b) (dma_event b e)) (sy_holder b) (sy_pc b) (sy_moved b) (sy_returns b)
  end.

(** A history of these events (spi.c:104-303). *)
Definition sync_run (b : sync) (es : list sync_event) : sync := fold_left sync_step es b.
