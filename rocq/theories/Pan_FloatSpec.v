(** Panning in floating point: specification of the bounds. *)
From Coq Require Import List Arith Bool ZArith Reals.
From Flocq Require Import Core BinarySingleNaN.
From Verif Require Import Float_Model Arith_Model Quantum_Model Pan_Model.
Import ListNotations.
Local Open Scope R_scope.

(** sine and cosine of the mathematical library are right up to [eps] between 0 and 2 *)
Definition accurate (M : libm) (eps : R) : Prop :=
  0 <= eps <= / 1024 /\
  forall x : f32, is_finite x = true -> 0 <= B2R x <= 2 ->
    (is_finite (m32_sin M x) = true /\ Rabs (B2R (m32_sin M x) - sin (B2R x)) <= eps) /\
    (is_finite (m32_cos M x) = true /\ Rabs (B2R (m32_cos M x) - cos (B2R x)) <= eps).
(** channels of [size] numbers up to the amplitude [2^k] *)
Definition bounded (k : Z) (size : nat) (q : list (chan f32)) : Prop :=
  q <> [] /\ Forall (fun c => length (c_val c) = size /\ Forall (fun x => is_finite x = true /\ Rabs (B2R x) <= bpow radix2 k) (c_val c)) q.
(** the real numbers a quantum stands for *)
Definition values (q : list (chan f32)) : list (chan R) := map (fun c => mk_chan (c_name c) (map B2R (c_val c))) q.
(** the number [z] is [r] up to [e] *)
Definition is_near (e : R) (z : f32) (r : R) : Prop := is_finite z = true /\ Rabs (B2R z - r) <= e.
(** azimuth, distance gain and cone gain are numbers in their ranges *)
Definition in_place (q : spatial (V := f32)) : Prop :=
  (is_finite (sp_azimuth q) = true /\ -180 <= B2R (sp_azimuth q) <= 180) /\
  (is_finite (sp_dist q) = true /\ 0 <= B2R (sp_dist q) <= 1) /\ (is_finite (sp_cone q) = true /\ 0 <= B2R (sp_cone q) <= 1).
