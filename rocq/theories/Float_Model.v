(** Rust floating point numbers.

    [f32] and [f64] are IEEE 754 binary32 and binary64 with round to nearest even, as
    formalised by Flocq.  There is a single NaN (payloads and the sign of NaN are not
    modelled).  Denormal numbers are computed exactly: the flush-to-zero mode the
    render thread sets (thread.rs 419-428) is not modelled. *)
From Coq Require Import ZArith Bool Lia.
From Flocq Require Import Core BinarySingleNaN.
Local Open Scope Z_scope.

Definition f64 : Set := binary_float 53 1024.
Definition f32 : Set := binary_float 24 128.

#[global] Instance f64_prec : Prec_gt_0 53 := eq_refl.
#[global] Instance f64_emax : Prec_lt_emax 53 1024 := eq_refl.
#[global] Instance f32_prec : Prec_gt_0 24 := eq_refl.
#[global] Instance f32_emax : Prec_lt_emax 24 128 := eq_refl.

(** ** Literals: [m * 2^e], correctly rounded *)
Definition f64_lit (m e : Z) : f64 := binary_normalize 53 1024 f64_prec f64_emax mode_NE m e false.
Definition f32_lit (m e : Z) : f32 := binary_normalize 24 128 f32_prec f32_emax mode_NE m e false.
Definition f64_zero : f64 := B754_zero false.
Definition f32_zero : f32 := B754_zero false.
Definition f64_one : f64 := f64_lit 1 0.
Definition f32_one : f32 := f32_lit 1 0.

(** ** f64 *)
Definition f64_add (x y : f64) : f64 := Bplus mode_NE x y.
Definition f64_sub (x y : f64) : f64 := Bminus mode_NE x y.
Definition f64_mul (x y : f64) : f64 := Bmult mode_NE x y.
Definition f64_div (x y : f64) : f64 := Bdiv mode_NE x y.
Definition f64_fma (x y z : f64) : f64 := Bfma mode_NE x y z.   (* x.mul_add(y, z) *)
Definition f64_neg (x : f64) : f64 := Bopp x.
Definition f64_abs (x : f64) : f64 := Babs x.
Definition f64_sqrt (x : f64) : f64 := Bsqrt mode_NE x.
Definition f64_lt (x y : f64) : bool := Bltb x y.
Definition f64_le (x y : f64) : bool := Bleb x y.
Definition f64_eq (x y : f64) : bool := Beqb x y.
Definition f64_is_nan (x : f64) : bool := is_nan x.
Definition f64_is_finite (x : f64) : bool := is_finite x.
(** f64::max / f64::min: a NaN argument is ignored *)
Definition f64_max (x y : f64) : f64 := if f64_is_nan x then y else if f64_is_nan y then x else if f64_lt x y then y else x.
Definition f64_min (x y : f64) : f64 := if f64_is_nan x then y else if f64_is_nan y then x else if f64_lt y x then y else x.
Definition f64_floor (x : f64) : f64 := Bnearbyint mode_DN x.
Definition f64_ceil (x : f64) : f64 := Bnearbyint mode_UP x.
Definition f64_trunc (x : f64) : f64 := Bnearbyint mode_ZR x.
(** f64::round: half away from zero *)
Definition f64_round (x : f64) : f64 := Bnearbyint mode_NA x.

(** [x as usize]: truncation, saturating, 0 for NaN.  The result is an integer
    below 2^64. *)
Definition f64_to_usize (x : f64) : Z :=
  match x with
  | B754_nan => 0
  | B754_infinity s => if s then 0 else 2 ^ 64 - 1
  | _ => Z.min (2 ^ 64 - 1) (Z.max 0 (Btrunc x))
  end.
(** [n as f64] *)
Definition f64_of_Z (n : Z) : f64 := binary_normalize 53 1024 f64_prec f64_emax mode_NE n 0 false.

(** ** f32 *)
Definition f32_add (x y : f32) : f32 := Bplus mode_NE x y.
Definition f32_sub (x y : f32) : f32 := Bminus mode_NE x y.
Definition f32_mul (x y : f32) : f32 := Bmult mode_NE x y.
Definition f32_div (x y : f32) : f32 := Bdiv mode_NE x y.
Definition f32_fma (x y z : f32) : f32 := Bfma mode_NE x y z.
Definition f32_neg (x : f32) : f32 := Bopp x.
Definition f32_abs (x : f32) : f32 := Babs x.
Definition f32_sqrt (x : f32) : f32 := Bsqrt mode_NE x.
Definition f32_lt (x y : f32) : bool := Bltb x y.
Definition f32_le (x y : f32) : bool := Bleb x y.
Definition f32_eq (x y : f32) : bool := Beqb x y.
Definition f32_is_nan (x : f32) : bool := is_nan x.
Definition f32_is_finite (x : f32) : bool := is_finite x.
Definition f32_max (x y : f32) : f32 := if f32_is_nan x then y else if f32_is_nan y then x else if f32_lt x y then y else x.
Definition f32_min (x y : f32) : f32 := if f32_is_nan x then y else if f32_is_nan y then x else if f32_lt y x then y else x.
Definition f32_floor (x : f32) : f32 := Bnearbyint mode_DN x.
Definition f32_ceil (x : f32) : f32 := Bnearbyint mode_UP x.
Definition f32_to_usize (x : f32) : Z :=
  match x with
  | B754_nan => 0
  | B754_infinity s => if s then 0 else 2 ^ 64 - 1
  | _ => Z.min (2 ^ 64 - 1) (Z.max 0 (Btrunc x))
  end.
Definition f32_of_Z (n : Z) : f32 := binary_normalize 24 128 f32_prec f32_emax mode_NE n 0 false.
(** f32::is_subnormal: finite, non-zero, below 2^-126 *)
Definition f32_is_subnormal (x : f32) : bool :=
  match x with B754_finite _ m _ _ => Z.ltb (Zpos m) (2 ^ 23) | _ => false end.

(** f32::clamp; [None] = panic (min > max or NaN bounds) *)
Definition f32_clamp (x lo hi : f32) : option f32 :=
  if f32_le lo hi then Some (if f32_lt x lo then lo else if f32_lt hi x then hi else x) else None.

(** ** Conversions *)
Definition f32_of_f64 (x : f64) : f32 :=
  match x with
  | B754_zero s => B754_zero s
  | B754_infinity s => B754_infinity s
  | B754_nan => B754_nan
  | B754_finite s m e _ => binary_normalize 24 128 f32_prec f32_emax mode_NE (cond_Zopp s (Zpos m)) e s
  end.
Definition f64_of_f32 (x : f32) : f64 :=
  match x with
  | B754_zero s => B754_zero s
  | B754_infinity s => B754_infinity s
  | B754_nan => B754_nan
  | B754_finite s m e _ => binary_normalize 53 1024 f64_prec f64_emax mode_NE (cond_Zopp s (Zpos m)) e s
  end.
