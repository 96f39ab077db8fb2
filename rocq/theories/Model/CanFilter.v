(** system-lib/can/can.c: CAN_Config, with the acceptance filters of the bxCAN
    cells it sets up. CAN1 and CAN2 share the 28 filter banks of CAN1: CAN1 uses
    the banks below CAN2SB, CAN2 those from CAN2SB on. CAN3 has 14 banks of its
    own (reference manual, bxCAN filters; stm32f7xx_hal_can.c:858-876). *)
From Verif.Base Require Export Words.

Inductive can_dev := DEV1 | DEV2 | DEV3.   (* can.h:20-24 *)
Scheme Equality for can_dev.
(** can.h:21-23 *)
Definition dev_num (d : can_dev) : Z := match d with DEV1 => 0 | DEV2 => 1 | DEV3 => 2 end.

(** A filter bank of 32-bit scale: FA1R, FM1R, FFA1R bits and FR1, FR2. Written at
    stm32f7xx_hal_can.c:914-978. *)
Record bank := mkBank {
  bk_active : bool; bk_list : bool; bk_fifo1 : bool; bk_fr1 : Z; bk_fr2 : Z }.
(** Reset value of a bank (reference manual); before stm32f7xx_hal_can.c:914-978
    writes it. *)
Definition bank_reset : bank := mkBank false false false 0 0.

(** The filter registers of one cell: the banks, and CAN2SB (reset value 14).
    Written at stm32f7xx_hal_can.c:897-978. *)
Record filters := mkFilters { fl_banks : Z -> bank; fl_sb : Z }.
(** Reset values (reference manual); before stm32f7xx_hal_can.c:897-978 writes them.
    *)
Definition filters_reset : filters := mkFilters (fun _ => bank_reset) 14.

(** The cells: shared filters, CAN3's filters, and which controllers have left
    initialisation mode (HAL state READY or LISTENING). Started by
    stm32f7xx_hal_can.c:1033-1077. *)
Record cells := mkCells { ce_shared : filters; ce_own3 : filters; ce_started : can_dev -> bool }.
(** All three cells before CAN_Config (can.c:217-273) has run for any bus. *)
Definition cells_reset : cells := mkCells filters_reset filters_reset (fun _ => false).

(** What CAN_Config asks for, can.c:246-259: bank number, identifier, mask, FIFO,
    start bank of CAN2. *)
Record filter_cfg := mkFc { fc_bank : Z; fc_id : Z; fc_mask : Z; fc_fifo1 : bool; fc_slave : Z }.
(** can.c:246-259: bank and start bank are the bus number, identifier and mask 0,
    FIFO 0. *)
Definition filter_of (d : can_dev) : filter_cfg := mkFc (dev_num d) 0 0 false (dev_num d).

(** stm32f7xx_hal_can.c:839-995, mask mode and 32-bit scale. CAN2SB is written
    for CAN1 and CAN2 only (897-902). The call is always accepted: the states of
    the handle are READY and LISTENING only. *)
Definition put_bank (f : filters) (c : filter_cfg) (sb : Z) : filters :=
  mkFilters (fun b => if b =? fc_bank c then mkBank true false (fc_fifo1 c) (fc_id c) (fc_mask c)
                      else fl_banks f b) sb.
(** stm32f7xx_hal_can.c:839-995 *)
Definition HAL_CAN_ConfigFilter (s : cells) (d : can_dev) (c : filter_cfg) : cells :=
  match d with
  | DEV3 => mkCells (ce_shared s) (put_bank (ce_own3 s) c (fl_sb (ce_own3 s))) (ce_started s)
  | _ => mkCells (put_bank (ce_shared s) c (fc_slave c)) (ce_own3 s) (ce_started s)
  end.

(** stm32f7xx_hal_can.c:1033-1077: refused when already started. *)
Definition HAL_CAN_Start (s : cells) (d : can_dev) : cells * bool :=
  if ce_started s d then (s, false)
  else (mkCells (ce_shared s) (ce_own3 s) (fun x => if can_dev_beq x d then true else ce_started s x), true).

(** can.c:217-273; true: CAN_STATUS_OK. *)
Definition CAN_Config (s : cells) (d : can_dev) : cells * bool :=
  HAL_CAN_Start (HAL_CAN_ConfigFilter s d (filter_of d)) d.

(** initialize.c:299-301 *)
Definition shipped_config : list can_dev := [DEV1; DEV2; DEV3].

(** CAN_Config for the buses in the given order (as initialize.c:299-301 does in its
    order). *)
Definition config_all (l : list can_dev) : cells := fold_left (fun s d => fst (CAN_Config s d)) l cells_reset.

(** A frame on the bus: identifier (11 or 29 bits), extended or not, remote or not.
    The header fields of stm32f7xx_hal_can.c:1251-1341; a remote frame is never sent
    by can.c:302-344. *)
Record frame := mkFrame { fr_id : Z; fr_ext : bool; fr_rtr : bool }.

(** The frame as the 32-bit filters see it: STID, EXID, IDE, RTR, 0. Hardware
    contract (reference manual, filter bank scale); the words compared with it are
    written at stm32f7xx_hal_can.c:941-948. *)
Definition filter_word (f : frame) : Z :=
  (if fr_ext f then fr_id f * 2 ^ 3 else fr_id f * 2 ^ 21) + 4 * b2z (fr_ext f) + 2 * b2z (fr_rtr f).

(** Hardware contract of mask and list mode; can.c:246-259 uses mask mode with mask
    0. *)
Definition bank_match (b : bank) (w : Z) : bool :=
  bk_active b &&
  (if bk_list b then (w =? bk_fr1 b) || (w =? bk_fr2 b)
   else Z.land w (bk_fr2 b) =? Z.land (bk_fr1 b) (bk_fr2 b)).

(** The banks of a controller. Hardware contract; CAN2SB is written at
    stm32f7xx_hal_can.c:897-902. *)
Definition own_banks (s : cells) (d : can_dev) : list bank :=
  let upto f n k := map (fun i => fl_banks f (Z.of_nat i)) (seq n (k - n)) in
  match d with
  | DEV1 => upto (ce_shared s) 0%nat (Z.to_nat (fl_sb (ce_shared s)))
  | DEV2 => upto (ce_shared s) (Z.to_nat (fl_sb (ce_shared s))) 28%nat
  | DEV3 => upto (ce_own3 s) 0%nat 14%nat
  end.

(** The frame is stored in receive FIFO 0, the one whose interrupt is enabled
    (can.c:267). With several matching banks of the same kind the lowest number
    decides. *)
Definition to_fifo0 (s : cells) (d : can_dev) (f : frame) : bool :=
  ce_started s d &&
  match find (fun b => bank_match b (filter_word f)) (own_banks s d) with
  | Some b => negb (bk_fifo1 b)
  | None => false
  end.
