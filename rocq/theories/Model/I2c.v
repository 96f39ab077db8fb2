(** system-lib/i2c/i2c.c: one configured bus and any number of calling tasks.
    Tasks are numbered; a call is cut into steps at every point where another
    task or an interrupt can matter. *)
From Verif.Base Require Export Words.

(** i2c.h:29-40 *)
Inductive i2c_status := I2C_OK | I2C_HAL | I2C_BUSY | I2C_TIMEOUT | I2C_DATALEN.
(** i2c.c:27 *)
Definition DMA_BUF_LEN : Z := 2048.

(** Arguments of I2C_Write (i2c.c:160-164) or I2C_Read (211-215); for a read
    only the length matters, which is [length rq_data]. *)
Record i2c_req := mkI2cReq { rq_write : bool; rq_addr : Z; rq_data : list Z }.
(** The length argument, i2c.c:163, 214. *)
Definition rq_len (r : i2c_req) : Z := Z.of_nat (length (rq_data r)).

(** Where a task is: outside; holding the bus, before the length check; buffer
    filled, before starting the DMA; waiting for completion; past the wait.
    i2c.c:160-262. *)
Inductive i2c_pc := Outside | Entered (r : i2c_req) | Filled (r : i2c_req) | Waiting (r : i2c_req) | Completed (r : i2c_req).

(** The address on the wire (i2c.c:185-186, 236-237). *)
Definition wire_addr (r : i2c_req) : Z :=
  if rq_write r then u16 (Z.land (rq_addr r) (Z.lnot 1)) else u16 (Z.lor (rq_addr r) 1).

(** What a call returned: task, request, status, the caller's buffer after a read.
    i2c.c:160-262. *)
Record i2c_ret := mkI2cRet { rt_task : Z; rt_req : i2c_req; rt_status : i2c_status; rt_data : list Z }.

(** struct I2C_Instance (i2c.c:32-47), the transfer the hardware is doing, the
    program counters, and the history of transfers and returns. [ib_holder] is
    the holder field of the FreeRTOS mutex used as xferInProgressSem.
    [ib_halted]: a configASSERT has stopped the processor
    (FreeRTOSConfig.h:122). *)
Record i2c_bus := mkI2cBus {
  ib_busy : option Z;
  ib_sem : bool;
  ib_holder : option Z;
  ib_buf : list Z;
  ib_dma : option (Z * i2c_req);
  ib_pc : Z -> i2c_pc;
  ib_halted : bool;
  ib_started : list (Z * i2c_req);
  ib_finished : list (Z * i2c_req);
  ib_returns : list i2c_ret
}.

(** i2c.c:116-158. Both mutexes are created available, without holder
    (queue.c:473-491). *)
Definition i2c_init : i2c_bus :=
  mkI2cBus None true None (repeat 0 (Z.to_nat DMA_BUF_LEN)) None (fun _ => Outside) false [] [] [].

(** Task [t] goes on. No code of its own (places in i2c.c:160-262). *)
Definition ib_set_pc (b : i2c_bus) (t : Z) (p : i2c_pc) : i2c_bus :=
  mkI2cBus (ib_busy b) (ib_sem b) (ib_holder b) (ib_buf b) (ib_dma b)
    (fun u => if u =? t then p else ib_pc b u) (ib_halted b) (ib_started b) (ib_finished b) (ib_returns b).

(** Give the bus mutex and return (i2c.c:178-179, 193-194, 201-202, 206-208 and
    the same in I2C_Read). *)
Definition ib_return (b : i2c_bus) (t : Z) (r : i2c_req) (s : i2c_status) (d : list Z) : i2c_bus :=
  mkI2cBus None (ib_sem b) (ib_holder b) (ib_buf b) (ib_dma b)
    (fun u => if u =? t then Outside else ib_pc b u) (ib_halted b) (ib_started b) (ib_finished b)
    (ib_returns b ++ [mkI2cRet t r s d]).

(** [overlay d l]: memcpy of [d] over the beginning of [l]. i2c.c:181, 257. *)
Definition overlay (d l : list Z) : list Z := d ++ skipn (length d) l.

Inductive i2c_event :=
| IEnter (t : Z) (r : i2c_req)        (* call, lines 166-175 / 217-226 *)
| IFill (t : Z)                       (* lines 177-182 / 229-233 *)
| IStart (t : Z) (hal_ok : bool)      (* lines 185-195 / 236-246 *)
| IWait (t : Z) (timeout : bool)      (* lines 198-203 / 249-254 *)
| IReturn (t : Z)                     (* lines 205-208 / 256-262 *)
| IComplete (bytes : list Z)          (* transfer-complete interrupt, 69-99; bytes received *)
| IError.                             (* transfer aborted by the hardware: no callback here *)

(** One step. Events that do not apply leave the state unchanged.
    - Enter: if another task holds the bus, the take fails after 5 ms and the
      call returns BUSY (waiting and then obtaining the mutex is the same event
      later).
    - Start: HAL_I2C_Master_Transmit_DMA refuses unless the handle is READY
      (stm32f7xx_hal_i2c.c:1865), so never during a transfer.
    - Wait: returns at once if the semaphore is available; taking it records
      the task as mutex holder (queue.c:1466). With [timeout] the 5 ms are over.
    - Complete: a mutex that has a holder must not be given from an interrupt
      (queue.c:1129), otherwise the processor stops; if there is none, the
      semaphore becomes (or stays) available. *)
Definition i2c_step (b : i2c_bus) (e : i2c_event) : i2c_bus :=
  if ib_halted b then b else
  match e with
  | IEnter t r =>
      match ib_pc b t with
      | Outside =>
          match ib_busy b with
          | None => ib_set_pc (mkI2cBus (Some t) (ib_sem b) (ib_holder b) (ib_buf b) (ib_dma b) (ib_pc b)
                       (ib_halted b) (ib_started b) (ib_finished b) (ib_returns b)) t (Entered r)
          | Some _ => mkI2cBus (ib_busy b) (ib_sem b) (ib_holder b) (ib_buf b) (ib_dma b) (ib_pc b)
                       (ib_halted b) (ib_started b) (ib_finished b) (ib_returns b ++ [mkI2cRet t r I2C_BUSY (rq_data r)])
          end
      | _ => b
      end
  | IFill t =>
      match ib_pc b t with
      | Entered r =>
          if rq_len r >=? DMA_BUF_LEN then ib_return b t r I2C_DATALEN (rq_data r)
          else ib_set_pc (mkI2cBus (ib_busy b) (ib_sem b) (ib_holder b)
                 (if rq_write r then overlay (rq_data r) (ib_buf b) else ib_buf b) (ib_dma b) (ib_pc b)
                 (ib_halted b) (ib_started b) (ib_finished b) (ib_returns b)) t (Filled r)
      | _ => b
      end
  | IStart t ok =>
      match ib_pc b t with
      | Filled r =>
          match ok, ib_dma b with
          | true, None => ib_set_pc (mkI2cBus (ib_busy b) (ib_sem b) (ib_holder b) (ib_buf b) (Some (t, r)) (ib_pc b)
                            (ib_halted b) (ib_started b ++ [(t, r)]) (ib_finished b) (ib_returns b)) t (Waiting r)
          | _, _ => ib_return b t r I2C_HAL (rq_data r)
          end
      | _ => b
      end
  | IWait t timeout =>
      match ib_pc b t with
      | Waiting r =>
          if ib_sem b then
            ib_set_pc (mkI2cBus (ib_busy b) false (Some t) (ib_buf b) (ib_dma b) (ib_pc b)
              (ib_halted b) (ib_started b) (ib_finished b) (ib_returns b)) t (Completed r)
          else if timeout then ib_return b t r I2C_TIMEOUT (rq_data r) else b
      | _ => b
      end
  | IReturn t =>
      match ib_pc b t with
      | Completed r =>
          ib_return b t r I2C_OK (if rq_write r then rq_data r else firstn (length (rq_data r)) (ib_buf b))
      | _ => b
      end
  | IComplete bytes =>
      match ib_dma b with
      | None => b
      | Some (t, r) =>
          mkI2cBus (ib_busy b) (match ib_holder b with None => true | Some _ => ib_sem b end) (ib_holder b)
            (if rq_write r then ib_buf b else overlay (firstn (length (rq_data r)) bytes) (ib_buf b))
            None (ib_pc b) (match ib_holder b with None => false | Some _ => true end)
            (ib_started b) (ib_finished b ++ [(t, r)]) (ib_returns b)
      end
  | IError =>
      mkI2cBus (ib_busy b) (ib_sem b) (ib_holder b) (ib_buf b) None (ib_pc b)
        (ib_halted b) (ib_started b) (ib_finished b) (ib_returns b)
  end.

(** A history of events. No code of its own (drives i2c.c:69-262). *)
Definition i2c_run (b : i2c_bus) (es : list i2c_event) : i2c_bus := fold_left i2c_step es b.
