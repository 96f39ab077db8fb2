(** The CRC unit (STM32 CRC peripheral) as set up in cube-proj/Core/Src/main.c:500-516
    (default polynomial 0x04C11DB7, default initial value 0xFFFFFFFF, byte input,
    no inversion of input or output) and system-lib/crc/crc.c. *)
From Verif.Base Require Export Words.

(** main.c:500-516: default polynomial. *)
Definition CRC_POLY : Z := 0x04C11DB7.
(** main.c:500-516: default initial value. *)
Definition CRC_INIT : Z := 0xFFFFFFFF.

(** The eight bits of a byte, most significant first. Byte input, no inversion:
    main.c:500-516. *)
Definition byte_bits (b : Z) : list bool := map (Z.testbit b) [7; 6; 5; 4; 3; 2; 1; 0].

(** One input bit: contract of the hardware register (RM0410, CRC unit). Set up by
    main.c:500-516. *)
Definition crc_step (r : Z) (b : bool) : Z :=
  Z.lxor ((2 * r) mod 2 ^ 32) (if xorb (Z.testbit r 31) b then CRC_POLY else 0).

(** HAL_CRC_Calculate: reset to the initial value, feed all bytes.
    stm32f7xx_hal_crc.c:339. *)
Definition HAL_CRC_Calculate (l : list Z) : Z := fold_left crc_step (flat_map byte_bits l) CRC_INIT.

(** crc.c:27-44. [lock]: outcome of taking the mutex. Returns success and *crcOut. *)
Definition CRC_Calculate (lock : bool) (l : list Z) : bool * Z :=
  if lock then (true, HAL_CRC_Calculate l) else (false, 0).

(** Published check value of CRC-32/MPEG-2 for "123456789". *)
Example crc_check_value :
  HAL_CRC_Calculate [0x31;0x32;0x33;0x34;0x35;0x36;0x37;0x38;0x39] = 0x0376E6E7.
Proof. vm_compute. reflexivity. Qed.
