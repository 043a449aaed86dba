(** Oversampled wave shaping: specification. *)
From Coq Require Import List Arith Bool.
From Verif Require Import Arith_Model Route_Spec Quantum_Model Over_Model.
Import ListNotations.

Section Spec.
Context {V RS : Type}.
Variable size : nat.
Variable new : nat -> nat -> RS.
Variable step : RS -> list V -> RS * list V.

(** a resampler that takes blocks of [i] quanta and returns blocks of [o] quanta *)
Definition resampler_ok (ok : nat -> nat -> RS -> Prop) : Prop :=
  forall i o, ok i o (new i o) /\
  forall r b, ok i o r -> length b = i * size -> ok i o (fst (step r b)) /\ length (snd (step r b)) = o * size.

(** the blocks that a resampler makes of a stream of blocks *)
Fixpoint stream (r : RS) (blocks : list (list V)) : list (list V) :=
  match blocks with
  | [] => []
  | b :: blocks' => snd (step r b) :: stream (fst (step r b)) blocks'
  end.
(** the signal is upsampled [k] times, shaped by [f], downsampled *)
Definition oversampled (f : V -> V) (k : nat) (blocks : list (list V)) : list (list V) :=
  stream (new k 1) (map (map f) (stream (new 1 k) blocks)).
(** channel [c] of a quantum *)
Definition block (c : nat) (q : list (chan V)) : list V := c_val (nth c q (mk_chan 0 [])).

(** What the node plays when the curve [f] is set: for each degree of oversampling there is the list of the quanta that
    were shaped with it, since the number of channels last changed.  [skip] says that silent quanta are not shaped. *)
Record heard := mk_heard { h_mode : oversample; h_x2 : list (list (chan V)); h_x4 : list (list (chan V)) }.
Definition continue (h : list (list (chan V))) (input : list (chan V)) : list (list (chan V)) :=
  match h with
  | q :: _ => if length q =? length input then h ++ [input] else [input]
  | [] => [input]
  end.
Definition shaped_last (f : V -> V) (k : nat) (h : list (list (chan V))) : nat -> list V :=
  fun c => last (oversampled f k (map (block c) h)) [].
(** channel by channel, what is played; [None]: silence *)
Definition ideal_quantum (skip : bool) (f : V -> V) (h : heard) (input : list (chan V)) : heard * option (nat -> list V) :=
  if is_silent input && skip then (h, None)
  else match h_mode h with
  | NoOver => (h, Some (fun c => map f (block c input)))
  | X2 => let l := continue (h_x2 h) input in (mk_heard X2 l (h_x4 h), Some (shaped_last f 2 l))
  | X4 => let l := continue (h_x4 h) input in (mk_heard X4 (h_x2 h) l, Some (shaped_last f 4 l))
  end.
Fixpoint ideal_run (skip : bool) (f : V -> V) (h : heard) (ops : list over_op) : list (list (chan V) * option (nat -> list V)) :=
  match ops with
  | [] => []
  | OQuantum _ input _ :: ops' => let '(h, o) := ideal_quantum skip f h input in (input, o) :: ideal_run skip f h ops'
  | OMode m :: ops' => ideal_run skip f (mk_heard m (h_x2 h) (h_x4 h)) ops'
  | OCurve _ :: ops' => ideal_run skip f h ops'
  end.
(** the output of a quantum: the channels of the input, shaped, or one silent channel *)
Definition plays (zero : V) (i : list (chan V) * option (nat -> list V)) (out : list (chan V)) : Prop :=
  match snd i with
  | Some g => map c_val out = map g (seq 0 (length (fst i)))
  | None => map c_val out = [repeat zero size]
  end.

(** quanta have channels of the right length; the curve is not set again (the control side does not allow it) *)
Definition good_op (o : over_op (V := V)) : Prop :=
  match o with
  | OQuantum _ input output => input <> [] /\ Forall (fun c => length (c_val c) = size) input /\ output <> []
  | OCurve _ => False
  | OMode _ => True
  end.
End Spec.
Arguments mk_heard {V}. Arguments h_mode {V}. Arguments h_x2 {V}. Arguments h_x4 {V}.
