(** Wave shaping: linear interpolation of a curve over [-1, 1]. *)
From Coq Require Import List Reals ZArith.
From Flocq Require Import Core.
Import ListNotations.
Local Open Scope R_scope.

(** the curve at a position between its points, constant outside *)
Definition curve_at (curve : list R) (p : R) : R :=
  let p := Rmax 0 (Rmin p (INR (length curve - 1))) in
  let k := Zfloor p in
  let point i := nth (Z.to_nat i) curve 0 in
  (1 - (p - IZR k)) * point k + (p - IZR k) * point (k + 1)%Z.
Definition shaped (curve : list R) (x : R) : R := curve_at curve ((x + 1) / 2 * INR (length curve - 1)).
