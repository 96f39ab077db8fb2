(** Machine words as [Z], with explicit wrap-around, and byte-level helpers.
    Models the fixed-width integer types of <stdint.h> on the 32-bit
    little-endian Cortex-M7 target (toolchain.cmake:49). *)
From Coq Require Export ZArith List Bool Lia.
Export ListNotations.
Open Scope Z_scope.

(** Unsigned wrap-around: conversion to uint8_t / uint16_t / uint32_t. *)
Definition u8 (z : Z) : Z := z mod 2 ^ 8.
Definition u16 (z : Z) : Z := z mod 2 ^ 16.
Definition u32 (z : Z) : Z := z mod 2 ^ 32.

(** Conversion of a value to int16_t (two's complement, as GCC defines it). *)
Definition s16 (z : Z) : Z :=
  let w := z mod 2 ^ 16 in if w <? 2 ^ 15 then w else w - 2 ^ 16.

Definition is_byte (z : Z) : Prop := 0 <= z < 256.
Definition is_u16 (z : Z) : Prop := 0 <= z < 65536.
Definition is_u32 (z : Z) : Prop := 0 <= z < 4294967296.

(** [byte k z] is bits 8k .. 8k+7 of the two's complement representation. *)
Definition byte (k : Z) (z : Z) : Z := (z / 2 ^ (8 * k)) mod 256.

(** Little/big-endian composition. *)
Definition le16 (lo hi : Z) : Z := lo + 256 * hi.
Definition be16 (hi lo : Z) : Z := 256 * hi + lo.
Definition le32 (b0 b1 b2 b3 : Z) : Z :=
  b0 + 256 * b1 + 65536 * b2 + 16777216 * b3.
Definition be32 (b3 b2 b1 b0 : Z) : Z := le32 b0 b1 b2 b3.

(** List access that does not invent values. *)
Definition get {A} (l : list A) (i : Z) : option A :=
  if (i <? 0)%Z then None else nth_error l (Z.to_nat i).

(** Replacement of one element; out-of-range leaves the list unchanged, callers
    that model C arrays test the bound first and report undefined behaviour. *)
Fixpoint upd {A} (l : list A) (i : nat) (x : A) : list A :=
  match l, i with
  | [], _ => []
  | _ :: t, O => x :: t
  | h :: t, S j => h :: upd t j x
  end.

Definition b2z (b : bool) : Z := if b then 1 else 0.

Global Arguments Z.add : simpl never.
Global Arguments Z.sub : simpl never.
Global Arguments Z.mul : simpl never.
Global Arguments Z.opp : simpl never.
Global Arguments Z.pow : simpl never.
Global Arguments Z.div : simpl never.
Global Arguments Z.modulo : simpl never.
Global Arguments Z.of_nat : simpl never.
Global Arguments Z.to_nat : simpl never.
Global Arguments Z.testbit : simpl never.
Global Arguments Z.lor : simpl never.
Global Arguments Z.land : simpl never.
Global Arguments Z.lxor : simpl never.
Global Arguments Z.shiftl : simpl never.
Global Arguments Z.shiftr : simpl never.
