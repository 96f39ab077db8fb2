(** Output pins driven by several tasks: system-lib/gpio/gpio.c over the port
    registers, register access by register access.

    A task is the list of pin operations it still has to do; everything else it
    does is left out. A preemption can fall between any two register accesses. *)
From Verif.Base Require Export Words.

(** A pin: port number and pin number 0..15; its mask is GPIO_Pin. GPIO_T of gpio.h,
    used at gpio.c:13-26. *)
Record pin := mkPin { pn_port : Z; pn_num : Z }.
(** The member GPIO_Pin (gpio.c:20), one bit. *)
Definition pin_mask (p : pin) : Z := 2 ^ pn_num p.

(** A write to BSRR: the low half sets, the high half resets; setting wins. Hardware
    contract; written at stm32f7xx_hal_gpio.c:410-417. *)
Definition bsrr (odr v : Z) : Z := Z.lor (Z.ldiff odr (Z.shiftr v 16)) (Z.land v 65535).

(** stm32f7xx_hal_gpio.c:404-418: the value written *)
Definition write_value (p : pin) (v : bool) : Z := if v then pin_mask p else Z.shiftl (pin_mask p) 16.
(** 434-437: the value written after [odr] was read. (stm32f7xx_hal_gpio.c:434-437)
    *)
Definition toggle_value (p : pin) (odr : Z) : Z :=
  Z.lor (Z.shiftl (Z.land odr (pin_mask p)) 16) (Z.land (Z.lnot odr) (pin_mask p)).

(** gpio.c:18-26 *)
Inductive pin_op := WritePin (p : pin) (v : bool) | TogglePin (p : pin).
(** The argument of gpio.c:18 or 23. *)
Definition op_pin (o : pin_op) : pin := match o with WritePin p _ => p | TogglePin p => p end.

(** A task: the operations to do, and the value of ODR a running toggle has read.
    The read is at stm32f7xx_hal_gpio.c:434. *)
Record gtask := mkGt { gt_todo : list pin_op; gt_odr : option Z }.

(** The ODR registers, and the tasks. The registers written at
    stm32f7xx_hal_gpio.c:404-437. *)
Record gworld := mkGw { gw_odr : Z -> Z; gw_tasks : list gtask }.

(** One port register changes (stm32f7xx_hal_gpio.c:410-437). *)
Definition set_port (f : Z -> Z) (port v : Z) : Z -> Z := fun q => if q =? port then v else f q.

(** Task [i] goes on. No code of its own (within gpio.c:18-26). *)
Fixpoint put_task (l : list gtask) (i : nat) (t : gtask) : list gtask :=
  match l, i with
  | [], _ => []
  | _ :: r, O => t :: r
  | x :: r, S j => x :: put_task r j t
  end.

(** The next register access of task [i]. stm32f7xx_hal_gpio.c:404-437. *)
Definition g_step (w : gworld) (i : nat) : gworld :=
  match nth_error (gw_tasks w) i with
  | None => w
  | Some t =>
      match gt_todo t with
      | [] => w
      | WritePin p v :: r =>
          mkGw (set_port (gw_odr w) (pn_port p) (bsrr (gw_odr w (pn_port p)) (write_value p v)))
               (put_task (gw_tasks w) i (mkGt r None))
      | TogglePin p :: r =>
          match gt_odr t with
          | None => mkGw (gw_odr w) (put_task (gw_tasks w) i (mkGt (gt_todo t) (Some (gw_odr w (pn_port p)))))
          | Some odr =>
              mkGw (set_port (gw_odr w) (pn_port p) (bsrr (gw_odr w (pn_port p)) (toggle_value p odr)))
                   (put_task (gw_tasks w) i (mkGt r None))
          end
      end
  end.

(** A schedule. No code of its own (drives gpio.c:18-26). *)
Definition g_run (w : gworld) (sched : list nat) : gworld := fold_left g_step sched w.
(** Tasks with their calls of gpio.c:18-26 still to be made. *)
Definition g_start (odr : Z -> Z) (progs : list (list pin_op)) : gworld :=
  mkGw odr (map (fun l => mkGt l None) progs).

(** The level a pin drives. Bit of ODR, as stm32f7xx_hal_gpio.c:404-418 drives it.
    *)
Definition level (w : gworld) (p : pin) : bool := Z.testbit (gw_odr w (pn_port p)) (pn_num p).

(** Ports A..G are 0..6. *)
(** deviceMapping.c:15-20 with main.h: the power outputs, channels 1..6 *)
Definition pdm_pins : list pin := [mkPin 1 9; mkPin 4 0; mkPin 4 1; mkPin 4 2; mkPin 4 3; mkPin 4 4].
(** deviceMapping.c:35-40,62-64 with main.h *)
Definition led_pin : pin := mkPin 0 12.
(** deviceMapping.c:38-40 with main.h *)
Definition debug_pin : pin := mkPin 4 15.
(** deviceMapping.c:62-64 with main.h *)
Definition ecu_error_pin : pin := mkPin 3 4.

(** main.c:909-931: every output is driven low before it is made an output. *)
Definition odr_reset : Z -> Z := fun _ => 0.
