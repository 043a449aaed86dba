(** Conditions under which a looping buffer source is safe in floating point arithmetic.

    [lo]: the loop starts (seconds) are at most [lo]; [hi]: the loop ends are at least [hi], and so are the
    durations of the buffers; [Lmin]: the least number of frames of a buffer; [k]: the playback rates,
    including detune, are at most 2^k. *)
From Coq Require Import List ZArith Bool Reals.
From Flocq Require Import Core BinarySingleNaN.
From Verif Require Import Float_Model Arith_Model Absn_Model Absn_Spec Absn_SafetyProofs Buffer_ResampleProofs.
Import ListNotations.
Local Open Scope R_scope.

Section Loop.
Variable M : libm.
Variable k : Z.
Variables (lo : R) (hi : f64) (Lmin : nat).

(** a buffer of a valid sample rate *)
Definition loop_buffer (b : @buffer f32) : Prop := rate_ok (b_rate b) /\ exists L, shape b L /\ (Lmin <= L)%nat /\ (Z.of_nat L <= 2 ^ 30)%Z /\ B2R hi <= INR L / B2R (f64_of_f32 (b_rate b)).
(** a loop start: NaN, negative infinity or a number that is at most [lo] *)
Definition start_ok (x : f64) : Prop := match x with B754_infinity s => s = true | B754_nan => True | _ => B2R x <= lo end.
(** a loop end: not a number, at most 0 (the end of the buffer), or at least [hi] *)
Definition end_ok (x : f64) : Prop := is_finite x = true -> B2R x <= 0 \/ B2R hi <= B2R x.
(** the playback rate and detune of a quantum *)
Definition speed_ok (r d : f32) : Prop :=
  is_finite r = true /\ 0 <= B2R r /\
  (let rate := f64_mul (f64_of_f32 r) (m64_exp2 M (f64_div (f64_of_f32 d) (f64_of_Z 1200))) in is_finite rate = true /\ Rabs (B2R rate) <= bpow radix2 k).

(** actions of a program; [start] may be called once ([given]: it has been called) *)
Fixpoint looped (given : bool) (l : list (@absn_action f64 f32)) : Prop :=
  match l with
  | [] => True
  | A_start t _ _ :: l' => given = false /\ is_finite t = true /\ looped true l'
  | A_lstart t :: l' => start_ok t /\ looped given l'
  | A_lend t :: l' => end_ok t /\ looped given l'
  | A_buffer b :: l' => loop_buffer b /\ looped given l'
  | A_quantum r d :: l' => speed_ok r d /\ looped given l'
  | _ :: l' => looped given l'
  end.
End Loop.
