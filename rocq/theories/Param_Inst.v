(** Instances of the AudioParam model: IEEE numbers, and exact rationals. *)
From Coq Require Import List Arith Bool ZArith QArith Qround Qabs Qminmax.
From Flocq Require Import BinarySingleNaN.
From Verif Require Import Float_Model Param_Model.
Import ListNotations.

(** ** IEEE numbers, as in the source.  [f64::exp] and [f32::powf] are left open:
    their results are not specified by IEEE 754. *)
Section Ieee.
Variable f64_exp : f64 -> f64.
Variable f32_powf : f32 -> f32 -> f32.
Definition ieee_ops : @param_ops f64 f32 := {|
  t_zero := f64_zero; t_add := f64_add; t_sub := f64_sub; t_mul := f64_mul; t_div := f64_div; t_fma := f64_fma;
  t_neg := f64_neg; t_exp := f64_exp; t_floor := f64_floor; t_round := f64_round; t_max := f64_max;
  t_lt := f64_lt; t_le := f64_le; t_eq := f64_eq; t_finite := f64_is_finite;
  t_of_nat := fun n => f64_of_Z (Z.of_nat n);
  t_to_nat := fun x n => Z.to_nat (Z.min (f64_to_usize x) (Z.of_nat n));
  v_zero := f32_zero; v_add := f32_add; v_sub := f32_sub; v_mul := f32_mul; v_div := f32_div; v_fma := f32_fma;
  v_powf := f32_powf; v_abs := f32_abs; v_max := f32_max; v_min := f32_min; v_lt := f32_lt; v_eq := f32_eq;
  v_finite := f32_is_finite; v_nan := f32_is_nan; v_subnormal := f32_is_subnormal; v_clamp := f32_clamp;
  v_of_t := f32_of_f64;
  v_snap := f32_lit 14411519 (-57)      (* param.rs 22: 1e-10 *)
|}.
End Ieee.

(** ** Exact arithmetic: no rounding, no overflow, no NaN *)
Local Open Scope Q_scope.
(** rounding half away from zero *)
Definition Q_round (x : Q) : Q :=
  if Qle_bool 0 x then inject_Z (Qfloor (x + (1#2))) else - inject_Z (Qfloor (- x + (1#2))).
Definition Q_lt (x y : Q) : bool := negb (Qle_bool y x).
Definition Q_to_nat (x : Q) (n : nat) : nat := Z.to_nat (Z.min (Qfloor x) (Z.of_nat n)).

Section Exact.
Variable Q_exp : Q -> Q.
Variable Q_powf : Q -> Q -> Q.
Definition exact_ops : @param_ops Q Q := {|
  t_zero := 0; t_add := Qplus; t_sub := Qminus; t_mul := Qmult; t_div := Qdiv; t_fma := fun x y z => x * y + z;
  t_neg := Qopp; t_exp := Q_exp; t_floor := fun x => inject_Z (Qfloor x); t_round := Q_round;
  t_max := fun x y => if Qle_bool x y then y else x;
  t_lt := Q_lt; t_le := Qle_bool; t_eq := Qeq_bool; t_finite := fun _ => true;
  t_of_nat := fun n => inject_Z (Z.of_nat n);
  t_to_nat := Q_to_nat;
  v_zero := 0; v_add := Qplus; v_sub := Qminus; v_mul := Qmult; v_div := Qdiv; v_fma := fun x y z => x * y + z;
  v_powf := Q_powf; v_abs := Qabs; v_max := fun x y => if Qle_bool x y then y else x;
  v_min := fun x y => if Qle_bool y x then y else x; v_lt := Q_lt; v_eq := Qeq_bool;
  v_finite := fun _ => true; v_nan := fun _ => false; v_subnormal := fun _ => false;
  v_clamp := fun x lo hi => if Qle_bool lo hi then Some (if Q_lt x lo then lo else if Q_lt hi x then hi else x) else None;
  v_of_t := fun x => x;
  v_snap := 1 # 10000000000
|}.
End Exact.
