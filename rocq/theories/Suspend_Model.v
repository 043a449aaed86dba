(** Model of the time of an offline suspension, in floating point.

    Source: /repo/src/context/offline.rs 240-251, 294-315, 364-386.  (Thread_Model.v has the same function in exact arithmetic.) *)
From Coq Require Import ZArith Bool List.
From Flocq Require Import Core BinarySingleNaN.
From Verif Require Import Float_Model Thread_Model.
Import ListNotations.
Local Open Scope Z_scope.

(** offline.rs 240-251; [length] is the length in frames; [None] = one of the assertions fails *)
Definition suspend_quantum (length : Z) (sr : f32) (time : f64) : option Z :=
  if f64_le f64_zero time then
    if f64_lt time (f64_div (f64_of_Z length) (f64_of_f32 sr)) then
      Some (f64_to_usize (f64_ceil (f64_div (f64_mul time (f64_of_f32 sr)) (f64_of_Z 128))))
    else None
  else None.

(** offline.rs 305-315, 369-386: a call of [suspend] or [suspend_sync]; [None] = it panics *)
Definition suspend {A} (length : Z) (sr : f32) (time : f64) (a : A) (l : list (nat * A)) : option (list (nat * A)) :=
  match suspend_quantum length sr time with
  | None => None
  | Some q => insert_suspension (Z.to_nat q) a l
  end.
