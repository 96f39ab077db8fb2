(** IEEE-754 binary32 ("float" on the target) on top of the standard library's
    executable specification of floating point, round to nearest even. *)
From Coq Require Export ZArith Bool.
From Coq Require Import Floats.SpecFloat.
Open Scope Z_scope.

Definition f32 : Set := spec_float.

Definition fadd : f32 -> f32 -> f32 := SFadd 24 128.
Definition fsub : f32 -> f32 -> f32 := SFsub 24 128.
Definition fmul : f32 -> f32 -> f32 := SFmul 24 128.
Definition fdiv : f32 -> f32 -> f32 := SFdiv 24 128.
Definition fabs : f32 -> f32 := SFabs.

(** C comparisons: false when an operand is NaN. *)
Definition flt (a b : f32) : bool := SFltb a b.
Definition fle (a b : f32) : bool := SFleb a b.
Definition fgt (a b : f32) : bool := SFltb b a.
Definition fge (a b : f32) : bool := SFleb b a.

(** (float)z for an integer z. *)
Definition f_of_Z (z : Z) : f32 := binary_normalize 24 128 z 0 false.

Definition f_zero : f32 := S754_zero false.
Definition f_one : f32 := f_of_Z 1.

(** The literal p/q: correctly rounded when p and q are exact in binary32. *)
Definition f_lit (p q : Z) : f32 := fdiv (f_of_Z p) (f_of_Z q).

(** Well-formed binary32 datum. Every bit pattern of a C float is one. *)
Definition f_ok (x : f32) : bool := valid_binary 24 128 x.

Definition f_isnan (x : f32) : bool :=
  match x with S754_nan => true | _ => false end.
Definition f_isfin (x : f32) : bool :=
  match x with S754_finite _ _ _ | S754_zero _ => true | _ => false end.

(** Truncation toward zero of a finite datum. *)
Definition f_trunc (x : f32) : option Z :=
  match x with
  | S754_zero _ => Some 0
  | S754_finite s m e =>
      let a := if 0 <=? e then Zpos m * 2 ^ e else Zpos m / 2 ^ (- e) in
      Some (if s then - a else a)
  | _ => None
  end.

(** (int16_t)x: undefined (None) unless the truncated value fits. *)
Definition f_to_s16 (x : f32) : option Z :=
  match f_trunc x with
  | Some z => if (-32768 <=? z) && (z <=? 32767) then Some z else None
  | None => None
  end.

(** The 32-bit pattern, as transmitted by memcpy of a float. *)
Definition f_bits (x : f32) : Z :=
  match x with
  | S754_zero s => if s then 2 ^ 31 else 0
  | S754_infinity s => (if s then 2 ^ 31 else 0) + 255 * 2 ^ 23
  | S754_nan => 255 * 2 ^ 23 + 2 ^ 22
  | S754_finite s m e =>
      (if s then 2 ^ 31 else 0) +
      (if Zpos m <? 2 ^ 23 then Zpos m                  (* subnormal *)
       else (e + 150) * 2 ^ 23 + (Zpos m - 2 ^ 23))
  end.
