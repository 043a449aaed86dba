(** Real arithmetic for the audio nodes: the formulas of the code without rounding, overflow
    and NaN.  The functions of libm are the mathematical functions. *)
From Coq Require Import Reals ZArith.
From Flocq Require Import Core.
From Verif Require Import Arith_Model.
Local Open Scope R_scope.

Definition R_le (x y : R) : bool := if Rle_dec x y then true else false.
Definition R_lt (x y : R) : bool := if Rlt_dec x y then true else false.
Definition R_eq (x y : R) : bool := if Req_EM_T x y then true else false.
(** is_normal: there is no smallest number *)
Definition R_nonzero (x : R) : bool := if Req_EM_T x 0 then false else true.
(** rounding half away from zero *)
Definition R_round (x : R) : R := if Rle_dec 0 x then IZR (Zfloor (x + / 2)) else - IZR (Zfloor (- x + / 2)).
(** truncation, 0 for negative numbers (no upper limit) *)
Definition R_to_Z (x : R) : Z := Z.max 0 (Ztrunc x).
Definition R_exp2 (x : R) : R := Rpower 2 x.
Definition R_log10 (x : R) : R := ln x / ln 10.
Definition R_hypot (x y : R) : R := sqrt (x * x + y * y).
(** the angle of the point [(x, y)] *)
Definition R_atan2 (y x : R) : R :=
  if Rlt_dec 0 x then atan (y / x)
  else if Rlt_dec x 0 then if Rle_dec 0 y then atan (y / x) + PI else atan (y / x) - PI
  else if Rlt_dec 0 y then PI / 2 else if Rlt_dec y 0 then - (PI / 2) else 0.
Definition R_rem1 (x : R) : R := x - IZR (Ztrunc x).

Definition exact : arith R R := {|
  t_of_Z := IZR; t_to_Z := R_to_Z; t_to_i32 := Ztrunc; t_frac := fun n d => IZR n / IZR d; t_MAX := IZR (2 ^ 53 - 1) * bpow radix2 971; t_PI := PI;
  t_add := Rplus; t_sub := Rminus; t_mul := Rmult; t_div := Rdiv; t_fma := fun x y z => x * y + z; t_rem1 := R_rem1; t_rem := fun x y => x - y * IZR (Ztrunc (x / y));
  t_neg := Ropp; t_abs := Rabs; t_sqrt := sqrt;
  t_floor := fun x => IZR (Zfloor x); t_ceil := fun x => IZR (Zceil x); t_trunc := fun x => IZR (Ztrunc x); t_round := R_round;
  t_max := Rmax; t_min := Rmin; t_lt := R_lt; t_le := R_le; t_eq := R_eq; t_finite := fun _ => true; t_nan := fun _ => false; t_normal := R_nonzero;
  t_exp2 := R_exp2; t_exp := exp; t_sin := sin; t_cos := cos; t_pow := Rpower; t_log10 := R_log10; t_hypot := R_hypot; t_atan2 := R_atan2;
  v_of_Z := IZR; v_to_Z := R_to_Z; v_frac := fun n d => IZR n / IZR d; v_MAX := IZR (2 ^ 24 - 1) * bpow radix2 104; v_PI := PI;
  v_add := Rplus; v_sub := Rminus; v_mul := Rmult; v_div := Rdiv; v_fma := fun x y z => x * y + z;
  v_neg := Ropp; v_abs := Rabs; v_sqrt := sqrt;
  v_floor := fun x => IZR (Zfloor x); v_ceil := fun x => IZR (Zceil x); v_trunc := fun x => IZR (Ztrunc x); v_round := R_round;
  v_max := Rmax; v_min := Rmin; v_lt := R_lt; v_le := R_le; v_eq := R_eq; v_finite := fun _ => true; v_nan := fun _ => false; v_normal := R_nonzero;
  v_exp2 := R_exp2; v_exp := exp; v_sin := sin; v_cos := cos; v_acos := acos; v_pow := Rpower; v_log10 := R_log10; v_hypot := R_hypot;
  t_of_v := fun x => x; v_of_t := fun x => x
|}.
