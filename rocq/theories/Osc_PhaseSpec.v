(** The phase of an oscillator whose frequency is automated: one list of frequency values per quantum, with 1 or 128 values. *)
From Coq Require Import List Arith ZArith Reals.
From Flocq Require Import Core BinarySingleNaN.
From Verif Require Import Float_Model Source_Spec.
Import ListNotations.
Local Open Scope R_scope.

Definition frequency (freq : list (list f32)) (n : nat) : f32 := value_at (B754_zero false) (nth (n / 128) freq []) (n mod 128).
(** the number of turns before frame [n]: the sum of frequency / sample rate over the frames before *)
Fixpoint turns (sr : R) (freq : list (list f32)) (n : nat) : R :=
  match n with O => 0 | S m => turns sr freq m + B2R (frequency freq m) / sr end.
(** the triangle: up from 0 to 1, down to -1, up to 0 *)
Definition triangle (p : R) : R := if Rlt_dec p (/ 4) then 4 * p else if Rle_dec p (3 / 4) then 2 - 4 * p else 4 * p - 4.
