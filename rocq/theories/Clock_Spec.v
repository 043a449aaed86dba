(** What a clock should show. *)
From Coq Require Import ZArith Reals.
From Flocq Require Import Core BinarySingleNaN.
From Verif Require Import Float_Model.
Local Open Scope R_scope.

(** the exact length of [k] blocks of 128 frames, in seconds *)
Definition seconds (sr : f32) (k : nat) : R := INR k * 128 / B2R sr.
(** a rate a context may have *)
Definition usable_rate (sr : f32) : Prop := is_finite sr = true /\ 3000 <= B2R sr <= 768000.
(** the frames of [k] blocks can be counted exactly in a double: more than four thousand years at 48 kHz *)
Definition in_range (k : nat) : Prop := (Z.of_nat k * 128 <= 2 ^ 53)%Z.
