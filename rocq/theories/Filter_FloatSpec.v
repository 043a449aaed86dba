(** Biquad filters in floating point: specification. *)
From Coq Require Import List Bool ZArith Reals.
From Flocq Require Import Core BinarySingleNaN.
From Verif Require Import Float_Model Arith_Model Filter_Model Filter_Spec.
Import ListNotations.
Local Open Scope R_scope.

(** neither NaN nor infinite nor denormal *)
Definition tidy (y : f64) : Prop := is_finite y = true /\ (B2R y = 0 \/ bpow radix2 (-1022) <= Rabs (B2R y)).

(** the five products of a frame; [X]: input, [Y]: output *)
Definition products (k : coefs (T := f64)) (X Y : list R) (t : Z) : list R :=
  [B2R (k_b0 k) * at_time X t; B2R (k_b1 k) * at_time X (t - 1); B2R (k_b2 k) * at_time X (t - 2); B2R (k_a1 k) * at_time Y (t - 1); B2R (k_a2 k) * at_time Y (t - 2)].
Definition coefs_finite (k : coefs (T := f64)) : Prop := Forall (fun c : f64 => is_finite c = true) [k_b0 k; k_b1 k; k_b2 k; k_a1 k; k_a2 k].
(** the error of the output at time [t] *)
Definition residual (k : coefs (T := f64)) (X Y : list R) (t : Z) : R :=
  at_time Y t - (weighted [B2R (k_b0 k); B2R (k_b1 k); B2R (k_b2 k)] X t - weighted [B2R (k_a1 k); B2R (k_a2 k)] Y (t - 1)).

(** ** IIR filters *)
(** [cs]: the coefficients (feedforward, feedback), the feedback ones normalised so that the first is 1 *)
Definition values (l : list f64) : list R := map (fun v : f64 => B2R v) l.
(** every product of a coefficient and a sample is at most [2^e] *)
Definition products_small (cs : list (f64 * f64)) (X Y : list R) (e : Z) : Prop :=
  Forall (fun b => Forall (fun x => Rabs (b * x) <= bpow radix2 e) X) (values (map fst cs)) /\ Forall (fun a => Forall (fun y => Rabs (a * y) <= bpow radix2 e) Y) (values (map snd (tl cs))).
(** the error of the output at time [t] *)
Definition iir_residual (cs : list (f64 * f64)) (X Y : list R) (t : Z) : R :=
  at_time Y t - (weighted (values (map fst cs)) X t - weighted (values (map snd (tl cs))) Y (t - 1)).
