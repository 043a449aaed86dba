(** Real arithmetic for the AudioParam model: the formulas without rounding.
    [exp] and [powf] (libm) are the mathematical functions. *)
From Coq Require Import Reals ZArith.
From Flocq Require Import Core.
From Verif Require Import Param_Model.
Local Open Scope R_scope.

Definition R_le (x y : R) : bool := if Rle_dec x y then true else false.
Definition R_lt (x y : R) : bool := if Rlt_dec x y then true else false.
Definition R_eq (x y : R) : bool := if Req_EM_T x y then true else false.
(** rounding half away from zero *)
Definition R_round (x : R) : R := if Rle_dec 0 x then IZR (Zfloor (x + / 2)) else - IZR (Zfloor (- x + / 2)).
Definition R_to_nat (x : R) (n : nat) : nat := Z.to_nat (Z.min (Zfloor x) (Z.of_nat n)).
(** the base is positive wherever the code uses it (param.rs 1189-1199) *)
Definition R_powf (x y : R) : R := Rpower x y.

Definition real_ops : @param_ops R R := {|
  t_zero := 0; t_add := Rplus; t_sub := Rminus; t_mul := Rmult; t_div := Rdiv; t_fma := fun x y z => x * y + z;
  t_neg := Ropp; t_exp := exp; t_floor := fun x => IZR (Zfloor x); t_round := R_round;
  t_max := Rmax; t_lt := R_lt; t_le := R_le; t_eq := R_eq; t_finite := fun _ => true;
  t_of_nat := INR; t_to_nat := R_to_nat;
  v_zero := 0; v_add := Rplus; v_sub := Rminus; v_mul := Rmult; v_div := Rdiv; v_fma := fun x y z => x * y + z;
  v_powf := R_powf; v_abs := Rabs; v_max := Rmax; v_min := Rmin; v_lt := R_lt; v_eq := R_eq;
  v_finite := fun _ => true; v_nan := fun _ => false; v_subnormal := fun _ => false;
  v_clamp := fun x lo hi => if Rle_dec lo hi then Some (Rmin (Rmax x lo) hi) else None;
  v_of_t := fun x => x;
  v_snap := 1 / 10000000000
|}.
