(** Panning: specification (https://www.w3.org/TR/webaudio/#Spatialization), on real numbers. *)
From Coq Require Import List Arith Bool ZArith Reals.
From Verif Require Import Arith_Model Arith_Real Quantum_Model Route_Spec Pan_Model.
Import ListNotations.
Local Open Scope R_scope.

(** ** Equal power panning *)

(** a frame of one or two samples, panned to [pan], from -1 (left) to 1 (right) *)
Definition panned (pan : R) (frame : list R) : R * R :=
  match frame with
  | [x] => let a := (pan + 1) / 2 * (PI / 2) in (x * cos a, x * sin a)
  | [l; r] =>
      if Rle_dec pan 0 then let a := (pan + 1) * (PI / 2) in (l + r * cos a, r * sin a)
      else let a := pan * (PI / 2) in (l * cos a, r + l * sin a)
  | _ => (0, 0)
  end.
Definition scaled (k : R) (p : R * R) : R * R := (k * fst p, k * snd p).
(** a direction in the horizontal plane, in degrees, as a position between left and right: the back is like the front *)
Definition pan_of (azimuth : R) : R :=
  if Rlt_dec azimuth (-90) then (-180 - azimuth) / 90 else if Rlt_dec 90 azimuth then (180 - azimuth) / 90 else azimuth / 90.
(** frame [t] of a quantum *)
Definition frame_of (q : list (chan R)) (t : nat) : list R := map (fun c => nth t (c_val c) 0) q.
(** a quantum of some channels of [size] samples *)
Definition sized (size : nat) (q : list (chan R)) : Prop := q <> [] /\ Forall (fun c => length (c_val c) = size) q.
(** the value of a parameter at frame [t] *)
Definition value_at (l : list R) (t : nat) : R := nth (t mod length l) l 0.

(** ** Space *)
Definition point : Type := R * R * R.
Definition minus (a b : point) : point := let '(x, y, z) := a in let '(u, v, w) := b in (x - u, y - v, z - w).
Definition plus (a b : point) : point := let '(x, y, z) := a in let '(u, v, w) := b in (x + u, y + v, z + w).
Definition times (k : R) (a : point) : point := let '(x, y, z) := a in (k * x, k * y, k * z).
Definition dot (a b : point) : R := let '(x, y, z) := a in let '(u, v, w) := b in x * u + y * v + z * w.
Definition cross (a b : point) : point := let '(x, y, z) := a in let '(u, v, w) := b in (y * w - z * v, z * u - x * w, x * v - y * u).
Definition norm (a : point) : R := sqrt (dot a a).
Definition unit_vector (a : point) : point := times (/ norm a) a.
(** degrees to radians *)
Definition radians (a : R) : R := a * PI / 180.
(** the angle between two vectors, in degrees *)
Definition between (a b : point) : R := 180 / PI * acos (dot (unit_vector a) (unit_vector b)).

(** ** Gains *)

(** settings for which the formulas have a meaning *)
Definition meaningful (p : settings (T := R)) : Prop :=
  match p_model p with
  | Linear => p_ref p <> p_max p
  | Inverse => 0 < p_ref p \/ 0 < p_rolloff p
  | Exponential => 0 < p_ref p
  end.
(** what the setters accept *)
Definition accepted (p : settings (T := R)) : Prop := 0 <= p_ref p /\ 0 < p_max p /\ 0 <= p_rolloff p /\ 0 <= p_outer_gain p <= 1.
(** the gain at distance [d] *)
Definition attenuation (p : settings (T := R)) (d : R) : R :=
  let f := p_rolloff p in
  match p_model p with
  | Linear => let lo := Rmin (p_ref p) (p_max p) in let hi := Rmax (p_ref p) (p_max p) in
              1 - Rmin f 1 * (Rmax lo (Rmin d hi) - lo) / (hi - lo)
  | Inverse => if Rlt_dec 0 d then p_ref p / (p_ref p + f * (Rmax d (p_ref p) - p_ref p)) else 1
  | Exponential => Rpower (Rmax d (p_ref p) / p_ref p) (- f)
  end.
(** the gain of a cone for the angle [a] between its axis and the listener, in degrees *)
Definition cone (p : settings (T := R)) (a : R) : R :=
  let inner := Rabs (p_inner p) / 2 in
  let outer := Rabs (p_outer p) / 2 in
  if Rlt_dec a inner then 1 else if Rle_dec outer a then p_outer_gain p
  else let x := (a - inner) / (outer - inner) in (1 - x) + p_outer_gain p * x.

(** the values of the parameters at frame [t] *)
Definition point_at (l : lists (V := R)) (t : nat) : point := let '(x, y, z) := l in (value_at x t, value_at y t, value_at z t).
(** all parameters have one value for the quantum *)
Definition constant (l : positions (V := R)) : Prop :=
  single (l_source l) = true /\ single (l_orientation l) = true /\ single (l_listener l) = true /\ single (l_forward l) = true /\ single (l_up l) = true.
Definition given (l : positions (V := R)) : Prop :=
  let ok (v : lists (V := R)) := let '(x, y, z) := v in x <> [] /\ y <> [] /\ z <> [] in
  ok (l_source l) /\ ok (l_orientation l) /\ ok (l_listener l) /\ ok (l_forward l) /\ ok (l_up l).
