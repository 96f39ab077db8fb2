(** What the boot sequence should guarantee (C50, C57, C61, C62). *)
From Verif.Model Require Export Boot.

(** The dependencies each module declares (the DEPEND_ON lines at the head of
    its init method). *)
Definition declared (m : modname) : list modname :=
  match m with
  | MLog => []
  | MTimer | MUart | MCrc | MCan | MAdc => [MLog]
  | MPc => [MLog; MUart; MTimer]
  | MState => [MTimer]
  | MGps => [MLog; MState; MUart]
  | MWheel => [MLog; MState; MTimer]
  | MSdc | MPdm | MDash => [MLog; MState]
  | MInv | MBms => [MLog; MCan]
  | MSense => [MLog; MState; MAdc; MTimer]
  | MControl => [MSdc; MInv; MPdm; MDash]
  | MWdt => [MLog; MTimer]
  | MThrottle | MVsm => [MTimer]
  end.

(** The modules each module's code really calls or reads, from the moment its
    task can run (its init method included). The PC interface uses the vehicle
    state and control only after they were handed over by the two Set calls. *)
Definition uses (m : modname) : list modname :=
  match m with
  | MLog => []
  | MTimer | MUart | MCrc | MCan | MAdc => [MLog]
  | MPc => [MLog; MUart; MTimer; MCrc]
  | MState => [MLog]
  | MGps => [MLog; MState; MUart]
  | MWheel => [MLog; MState; MTimer]
  | MSdc | MPdm | MDash => [MLog; MState]
  | MInv | MBms => [MLog; MCan; MTimer; MState]
  | MSense => [MLog; MState; MAdc; MTimer]
  | MControl => [MLog; MSdc; MInv; MPdm; MDash]
  | MWdt => [MLog; MTimer]
  | MThrottle => [MLog; MTimer; MState; MControl]
  | MVsm => [MLog; MTimer; MState; MControl; MThrottle]
  end.

(** [m] is initialised in [cs] only after every module of [deps m]. *)
Definition ordered_by (deps : modname -> list modname) (cs : list call) : Prop :=
  forall pre m post, cs = pre ++ CInit m :: post -> forall d, In d (deps m) -> In (CInit d) pre.

(** The boot as a sequence of single actions, for interrupts in between. *)
Definition actions (cs : list call) : list instr := concat (map call_prog cs).

(** The machine state [b] is reached somewhere during the shipped boot,
    whatever the hardware answers: after [k] actions, or stopped there. *)
Definition during_boot (k : nat) (b : boot) : Prop :=
  exists oracle os, exec_prog boot_reset oracle (firstn k (actions shipped_boot)) = (Go b, os).

(** The hardware check that fails first, if it is among the [n] of the boot. *)
Definition some_check_fails (n : nat) (oracle : list bool) : Prop := In false (firstn n oracle).

(** Number of checks in the shipped boot. *)
Definition is_check (i : instr) : bool := match i with ICheck => true | _ => false end.
Definition boot_checks : nat := length (filter is_check (actions shipped_boot)).

(** Fewer calls than the 32-bit module counter can count. *)
Definition few (cs : list call) : Prop := Z.of_nat (length cs) < 4294967294.

(** The action at which the shutdown-circuit driver gets its pins. *)
Definition sdc_action : nat := 104.
