(** Model of the WaveShaperNode without oversampling.

    Source: /repo/src/node/waveshaper.rs 383-408, 476-507, 548-573 (the oversampled modes, 409-470,
    are in Over_Model.v). *)
From Coq Require Import List Arith Bool ZArith.
From Verif Require Export Common_Model Quantum_Model.
From Verif Require Import Arith_Model Route_Spec.
Import ListNotations.

Section Shape.
Context {T V : Type}.
Variable A : arith T V.
Variable size : nat.
Notation quantum := (list (chan V)).

(** 549-573 *)
Definition apply_curve (curve : list V) (input : V) : res V :=
  match curve with
  | [] => Ok (v_zero A)
  | _ =>
      let n := v_of_Z A (Z.of_nat (length curve)) in
      let last := v_sub A n (v_one A) in
      let v := v_mul A (v_div A last (v_of_Z A 2)) (v_add A input (v_one A)) in
      if v_le A v (v_zero A) then index curve 0
      else if v_le A last v then index curve (Z.to_nat (v_to_Z A last))
      else
        let k := v_floor A v in
        let f := v_sub A v k in
        do a <- index curve (Z.to_nat (v_to_Z A k));
        do b <- index curve (Z.to_nat (v_to_Z A (v_add A k (v_one A))));
        Ok (v_add A (v_mul A (v_sub A (v_one A) f) a) (v_mul A f b))
  end.

(** 360-381: the curve and whether silence can be propagated *)
Record shaper := mk_shaper { sh_curve : option (list V); sh_silence : bool }.
Definition shaper_new : shaper := mk_shaper None true.

(** 476-507: a curve is received.  For an empty curve [curve.len() / 2 - 1] is an overflow or an index out of bounds. *)
Definition set_curve (curve : list V) : res shaper :=
  let n := length curve in
  let small x := v_lt A (v_abs A x) (v_frac A 1 1000000000) in
  if n mod 2 =? 1 then do c <- index curve (n / 2); Ok (mk_shaper (Some curve) (small c))
  else
    do _ <- check (1 <=? n / 2);
    do a <- index curve (n / 2 - 1);
    do b <- index curve (n / 2);
    Ok (mk_shaper (Some curve) (small (v_div A (v_add A a b) (v_of_Z A 2)))).

(** the channels get new buffers, named from [s] on *)
Fixpoint shape_channels (curve : list V) (s : nat) (q : quantum) : res quantum :=
  match q with
  | [] => Ok []
  | c :: q' => do v <- map_res (apply_curve curve) (c_val c); do r <- shape_channels curve (S s) q'; Ok (mk_chan s v :: r)
  end.
(** 384-408 *)
Definition shape_quantum (st : shaper) (s : nat) (input output : quantum) : res quantum :=
  if is_silent input && sh_silence st then from_option (make_silent (sops_of A) size output)
  else
    match sh_curve st with
    | None => Ok input
    | Some curve => shape_channels curve s input
    end.
End Shape.
