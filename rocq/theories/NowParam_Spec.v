(** What a parameter hands to its node for a sum of value and modulation input, in words of real numbers (C101). *)
From Coq Require Import Reals.
From Flocq Require Import Core BinarySingleNaN.
From Verif Require Import Float_Model.
Local Open Scope R_scope.

(** [x] is what is made of [sum] by a parameter with limits [lo] and [hi] and default value [def]: the sum kept between the limits, and the default value
    when the sum is not a number. *)
Definition kept (lo hi def sum x : f32) : Prop :=
  match sum with
  | B754_nan => x = def
  | B754_infinity true => B2R x = B2R lo
  | B754_infinity false => B2R x = B2R hi
  | _ => B2R x = Rmin (Rmax (B2R sum) (B2R lo)) (B2R hi)
  end.
