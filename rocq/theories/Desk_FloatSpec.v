(** What a mixing desk plays in floating point arithmetic, sample by sample, from the values of the AudioParams. *)
From Coq Require Import List Arith Bool ZArith Reals.
From Flocq Require Import BinarySingleNaN.
From Verif Require Import Common_Model Float_Model Arith_Model Source_Model Source_Spec Source_ClockProofs Desk_Model.
From Verif Require Param_Model.
Import ListNotations.

Section FloatSpec.
Variable M : libm.
Variable PO : @Param_Model.param_ops f64 f32.
Variable sr : f32.
Notation A := (ieee M).

(** The values of an AudioParam in the first [K] quanta: [x] is assigned, the calls are made, then the quanta follow, without modulation.
    What the values are is the subject of C17 to C21. *)
Definition param_values_of (K : nat) (x : f32) (calls : list (@Param_Model.call f64 f32)) (values : list (list f32)) : Prop :=
  exists p, Param_Model.prun PO 128 (fresh_param A)
    (map Param_Model.Schedule (Param_Model.C_set_value x :: calls)
     ++ map (fun k => Param_Model.Quantum (block_time A sr (Z.of_nat (k * 128))) (dt A sr) (repeat f32_zero 128) true) (seq 0 K)) = Ok (p, values).

(** a voice with the values of its offset and of its gain *)
Definition strip : Type := voice f64 f32 * (list (list f32) * list (list f32)).
Definition strip_ok (K : nat) (s : strip) : Prop :=
  let '(v, (offsets, gains)) := s in
  valid_time (v_start v) /\ match v_stop v with Some t => valid_time t | None => True end /\
  param_values_of K (v_offset v) (v_offset_calls v) offsets /\ Forall values_ok offsets /\
  param_values_of K (v_gain v) (v_gain_calls v) gains /\ Forall values_ok gains.

(** the source: the offset between start and stop, the times of frames are those of C23 *)
Definition source_frames (v : voice f64 f32) (k : nat) (offset : list f32) : list f32 :=
  map (fun i => if in_time_ieee M sr (Some (v_start v)) (v_stop v) (128 * Z.of_nat k + Z.of_nat i) then value_at f32_zero offset i else f32_zero) (seq 0 128).
(** A gain that is constant in the quantum and less than 10^-6 away from 0 or 1 counts as 0 or 1. *)
Definition after_gain (gain x : list f32) : option (list f32) :=
  let products := map (fun i => f32_mul (nth i x f32_zero) (value_at f32_zero gain i)) (seq 0 128) in
  match gain with
  | [g] => if f32_le (f32_abs g) (v_frac A 1 1000000) then None
           else if f32_le (f32_abs (f32_sub (v_one A) g)) (v_frac A 1 1000000) then Some x
           else Some products
  | _ => Some products
  end.
(** quantum [k] of a voice; [None]: silence, which is not added to the mix *)
Definition strip_quantum (k : nat) (s : strip) : option (list f32) :=
  let '(v, (offsets, gains)) := s in
  if f64_le (next_block_time A sr (128 * Z.of_nat k)) (v_start v) then None
  else after_gain (nth k gains []) (source_frames v k (nth k offsets [])).
End FloatSpec.
