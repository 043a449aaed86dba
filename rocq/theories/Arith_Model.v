(** The arithmetic of the audio nodes.

    The models of the nodes are written for an abstract arithmetic with a type [T] for f64
    and a type [V] for f32, and the operations the code uses.  There are two instances:
    [ieee], the arithmetic of the code (see Float_Model.v), and [exact] (Arith_Real.v),
    the same formulas without rounding. *)
From Coq Require Import ZArith Bool.
From Flocq Require Import BinarySingleNaN.
From Verif Require Import Float_Model.

Record arith (T V : Type) := mk_arith {
  (* f64 *)
  t_of_Z : Z -> T;                (* usize, u64 or an integer literal as f64 *)
  t_to_Z : T -> Z;                (* as usize *)
  t_to_i32 : T -> Z;              (* as i32 *)
  t_frac : Z -> Z -> T;           (* the literal n/d *)
  t_MAX : T;                      (* f64::MAX *)
  t_PI : T;                       (* f64::consts::PI *)
  t_add : T -> T -> T; t_sub : T -> T -> T; t_mul : T -> T -> T; t_div : T -> T -> T;
  t_fma : T -> T -> T -> T;       (* t_fma x y z: x.mul_add(y, z) *)
  t_rem1 : T -> T;                (* x % 1 *)
  t_rem : T -> T -> T;            (* x % y *)
  t_neg : T -> T; t_abs : T -> T; t_sqrt : T -> T;
  t_floor : T -> T; t_ceil : T -> T; t_trunc : T -> T; t_round : T -> T;
  t_max : T -> T -> T; t_min : T -> T -> T;
  t_lt : T -> T -> bool; t_le : T -> T -> bool; t_eq : T -> T -> bool;
  t_finite : T -> bool; t_nan : T -> bool; t_normal : T -> bool;   (* is_finite, is_nan, is_normal *)
  t_exp2 : T -> T; t_exp : T -> T; t_sin : T -> T; t_cos : T -> T; t_pow : T -> T -> T; t_log10 : T -> T;
  t_hypot : T -> T -> T; t_atan2 : T -> T -> T;   (* x.hypot(y); y.atan2(x) *)
  (* f32 *)
  v_of_Z : Z -> V; v_to_Z : V -> Z; v_frac : Z -> Z -> V; v_MAX : V; v_PI : V;
  v_add : V -> V -> V; v_sub : V -> V -> V; v_mul : V -> V -> V; v_div : V -> V -> V;
  v_fma : V -> V -> V -> V;
  v_neg : V -> V; v_abs : V -> V; v_sqrt : V -> V;
  v_floor : V -> V; v_ceil : V -> V; v_trunc : V -> V; v_round : V -> V;
  v_max : V -> V -> V; v_min : V -> V -> V;
  v_lt : V -> V -> bool; v_le : V -> V -> bool; v_eq : V -> V -> bool;
  v_finite : V -> bool; v_nan : V -> bool; v_normal : V -> bool;
  v_exp2 : V -> V; v_exp : V -> V; v_sin : V -> V; v_cos : V -> V; v_acos : V -> V; v_pow : V -> V -> V; v_log10 : V -> V; v_hypot : V -> V -> V;
  (* conversions *)
  t_of_v : V -> T; v_of_t : T -> V
}.
Arguments t_of_Z {T V}. Arguments t_to_Z {T V}. Arguments t_frac {T V}. Arguments t_MAX {T V}.
Arguments t_add {T V}. Arguments t_sub {T V}. Arguments t_mul {T V}. Arguments t_div {T V}. Arguments t_fma {T V}. Arguments t_rem1 {T V}. Arguments t_rem {T V}.
Arguments t_neg {T V}. Arguments t_abs {T V}. Arguments t_sqrt {T V}. Arguments t_floor {T V}. Arguments t_ceil {T V}. Arguments t_trunc {T V}. Arguments t_round {T V}.
Arguments t_max {T V}. Arguments t_min {T V}. Arguments t_lt {T V}. Arguments t_le {T V}. Arguments t_eq {T V}. Arguments t_finite {T V}. Arguments t_nan {T V}.
Arguments t_exp2 {T V}. Arguments t_exp {T V}. Arguments t_sin {T V}. Arguments t_cos {T V}. Arguments t_pow {T V}. Arguments t_log10 {T V}. Arguments t_hypot {T V}. Arguments t_atan2 {T V}. Arguments v_hypot {T V}.
Arguments v_of_Z {T V}. Arguments v_to_Z {T V}. Arguments v_frac {T V}. Arguments v_MAX {T V}.
Arguments v_add {T V}. Arguments v_sub {T V}. Arguments v_mul {T V}. Arguments v_div {T V}. Arguments v_fma {T V}.
Arguments v_neg {T V}. Arguments v_abs {T V}. Arguments v_sqrt {T V}. Arguments v_floor {T V}. Arguments v_ceil {T V}. Arguments v_trunc {T V}. Arguments v_round {T V}.
Arguments v_max {T V}. Arguments v_min {T V}. Arguments v_lt {T V}. Arguments v_le {T V}. Arguments v_eq {T V}. Arguments v_finite {T V}. Arguments v_nan {T V}.
Arguments v_exp2 {T V}. Arguments v_exp {T V}. Arguments v_sin {T V}. Arguments v_cos {T V}. Arguments v_acos {T V}. Arguments v_pow {T V}. Arguments v_log10 {T V}.
Arguments t_to_i32 {T V}. Arguments t_PI {T V}. Arguments v_PI {T V}. Arguments t_normal {T V}. Arguments v_normal {T V}.
Arguments t_of_v {T V}. Arguments v_of_t {T V}.

(** integer constants *)
Definition t_zero {T V} (A : arith T V) : T := t_of_Z A 0.
Definition t_one {T V} (A : arith T V) : T := t_of_Z A 1.
Definition v_zero {T V} (A : arith T V) : V := v_of_Z A 0.
Definition v_one {T V} (A : arith T V) : V := v_of_Z A 1.

(** The functions IEEE 754 does not specify (libm); nothing is assumed about their results. *)
Record libm := mk_libm {
  m64_exp2 : f64 -> f64; m64_exp : f64 -> f64; m64_sin : f64 -> f64; m64_cos : f64 -> f64; m64_pow : f64 -> f64 -> f64; m64_log10 : f64 -> f64; m64_hypot : f64 -> f64 -> f64; m64_atan2 : f64 -> f64 -> f64;
  m32_exp2 : f32 -> f32; m32_exp : f32 -> f32; m32_sin : f32 -> f32; m32_cos : f32 -> f32; m32_acos : f32 -> f32; m32_pow : f32 -> f32 -> f32; m32_log10 : f32 -> f32; m32_hypot : f32 -> f32 -> f32
}.

(** [x % 1.]: the fractional part, which is a floating point number, so the subtraction is
    exact.  (The sign of a zero result is not modelled.) *)
Definition f64_rem1 (x : f64) : f64 := f64_sub x (f64_trunc x).
(** [x % y] (fmod): the remainder of the integer division that rounds towards 0, which is a floating point number *)
Definition f64_rem (x y : f64) : f64 :=
  match x, y with
  | B754_nan, _ | _, B754_nan | B754_infinity _, _ | _, B754_zero _ => B754_nan
  | B754_zero _, _ | _, B754_infinity _ => x
  | B754_finite sx mx ex _, B754_finite _ my ey _ =>
      let e := Z.min ex ey in
      let m := Z.rem (Zpos mx * 2 ^ (ex - e)) (Zpos my * 2 ^ (ey - e)) in
      binary_normalize 53 1024 f64_prec f64_emax mode_NE (if sx then - m else m) e sx
  end.
(** literals: [n] and [d] are small, so this is the floating point number closest to [n/d] *)
Definition f64_frac (n d : Z) : f64 := f64_div (f64_of_Z n) (f64_of_Z d).
Definition f32_frac (n d : Z) : f32 := f32_div (f32_of_Z n) (f32_of_Z d).
Definition f64_MAX : f64 := f64_lit (2 ^ 53 - 1) 971.
Definition f32_MAX : f32 := f32_lit (2 ^ 24 - 1) 104.
Definition f64_PI : f64 := f64_lit 7074237752028440 (-51).
Definition f32_PI : f32 := f32_lit 13176795 (-22).
(** [x as i32]: truncation, saturating, 0 for NaN *)
Definition f64_to_i32 (x : f64) : Z :=
  match x with
  | B754_nan => 0
  | B754_infinity s => if s then - 2 ^ 31 else 2 ^ 31 - 1
  | _ => Z.max (- 2 ^ 31) (Z.min (2 ^ 31 - 1) (Btrunc x))
  end.
(** is_normal: finite and not below the smallest normal number *)
Definition f64_is_normal (x : f64) : bool := match x with B754_finite _ _ _ _ => f64_le (f64_lit 1 (-1022)) (f64_abs x) | _ => false end.
Definition f32_is_normal (x : f32) : bool := match x with B754_finite _ _ _ _ => f32_le (f32_lit 1 (-126)) (f32_abs x) | _ => false end.
Definition f32_trunc (x : f32) : f32 := Bnearbyint mode_ZR x.
Definition f32_round (x : f32) : f32 := Bnearbyint mode_NA x.

Definition ieee (M : libm) : arith f64 f32 := {|
  t_of_Z := f64_of_Z; t_to_Z := f64_to_usize; t_to_i32 := f64_to_i32; t_frac := f64_frac; t_MAX := f64_MAX; t_PI := f64_PI;
  t_add := f64_add; t_sub := f64_sub; t_mul := f64_mul; t_div := f64_div; t_fma := f64_fma; t_rem1 := f64_rem1; t_rem := f64_rem;
  t_neg := f64_neg; t_abs := f64_abs; t_sqrt := f64_sqrt; t_floor := f64_floor; t_ceil := f64_ceil; t_trunc := f64_trunc; t_round := f64_round;
  t_max := f64_max; t_min := f64_min; t_lt := f64_lt; t_le := f64_le; t_eq := f64_eq; t_finite := f64_is_finite; t_nan := f64_is_nan; t_normal := f64_is_normal;
  t_exp2 := m64_exp2 M; t_exp := m64_exp M; t_sin := m64_sin M; t_cos := m64_cos M; t_pow := m64_pow M; t_log10 := m64_log10 M; t_hypot := m64_hypot M; t_atan2 := m64_atan2 M;
  v_of_Z := f32_of_Z; v_to_Z := f32_to_usize; v_frac := f32_frac; v_MAX := f32_MAX; v_PI := f32_PI;
  v_add := f32_add; v_sub := f32_sub; v_mul := f32_mul; v_div := f32_div; v_fma := f32_fma;
  v_neg := f32_neg; v_abs := f32_abs; v_sqrt := f32_sqrt; v_floor := f32_floor; v_ceil := f32_ceil; v_trunc := f32_trunc; v_round := f32_round;
  v_max := f32_max; v_min := f32_min; v_lt := f32_lt; v_le := f32_le; v_eq := f32_eq; v_finite := f32_is_finite; v_nan := f32_is_nan; v_normal := f32_is_normal;
  v_exp2 := m32_exp2 M; v_exp := m32_exp M; v_sin := m32_sin M; v_cos := m32_cos M; v_acos := m32_acos M; v_pow := m32_pow M; v_log10 := m32_log10 M; v_hypot := m32_hypot M;
  t_of_v := f64_of_f32; v_of_t := f32_of_f64
|}.
