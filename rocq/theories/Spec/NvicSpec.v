(** What interrupt priorities must guarantee. *)
From Verif.Model Require Import Nvic.

(** No handler above the kernel's limit uses the kernel. *)
Definition respects_limit (prio : irq -> Z) : Prop :=
  forall i, kernel_calls i <> [] -> MAX_SYSCALL <= prio i.

(** A context is using the kernel's data. *)
Definition using_kernel (c : ctx) : Prop := (0 < c_depth c)%nat.

(** The handlers in progress. *)
Definition handlers (s : cpu) : list irq :=
  flat_map (fun c => match c_irq c with Some i => [i] | None => [] end) (ctxs s).
