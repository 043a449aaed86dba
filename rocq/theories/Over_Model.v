(** Model of the WaveShaperNode with oversampling, on top of Shape_Model.v.

    Source: /repo/src/node/waveshaper.rs 232-508 and 519-545.  The resampler (FftFixedInOut of the crate rubato) is a
    parameter: [new i o] is one channel of a resampler that takes blocks of [i] quanta and returns blocks of [o] quanta,
    [step] processes a block.  A resampler processes its channels independently of each other. *)
From Coq Require Import List Arith Bool ZArith.
From Verif Require Export Common_Model Quantum_Model Shape_Model.
From Verif Require Import Arith_Model Route_Spec.
Import ListNotations.

(** 20-32 *)
Inductive oversample := NoOver | X2 | X4.

Section Over.
Context {T V : Type}.
Variable A : arith T V.
Variable size : nat.
Notation quantum := (list (chan V)).
Context {RS : Type}.
Variable new : nat -> nat -> RS.
Variable step : RS -> list V -> RS * list V.

(** 297-350: one state per channel.  The number of channels must be right (342, debug assertion; rubato returns an error
    that is unwrapped at 351). *)
Fixpoint resample (rs : list RS) (blocks : list (list V)) : res (list RS * list (list V)) :=
  match rs, blocks with
  | [], [] => Ok ([], [])
  | r :: rs, b :: blocks => let '(r, o) := step r b in do (rs, os) <- resample rs blocks; Ok (r :: rs, o :: os)
  | _, _ => Panic
  end.
(** 411-421 and 443-453: new resamplers for [n] channels *)
Definition ups (k n : nat) : list RS := repeat (new 1 k) n.
Definition downs (k n : nat) : list RS := repeat (new k 1) n.

(** the resamplers of one mode and the number of channels they were made for *)
Record pair_of := mk_pair { r_channels : nat; r_up : list RS; r_down : list RS }.
(** 360-381 *)
Record oshaper := mk_oshaper { o_mode : oversample; o_shaper : shaper (V := V); o_x2 : pair_of; o_x4 : pair_of }.
(** 519-545 *)
Definition oshaper_new (m : oversample) : oshaper :=
  mk_oshaper m shaper_new (mk_pair 1 (ups 2 1) (downs 2 1)) (mk_pair 1 (ups 4 1) (downs 4 1)).

(** [copy_from_slice] (438, 470): the lengths must agree; the channels get new buffers *)
Fixpoint copy_all (s : nat) (q : quantum) (blocks : list (list V)) : res quantum :=
  match q, blocks with
  | c :: q', b :: blocks' => do _ <- check (length b =? length (c_val c)); do r <- copy_all (S s) q' blocks'; Ok (mk_chan s b :: r)
  | _, _ => Ok q
  end.
(** 407-439 for [k = 2], 440-471 for [k = 4] *)
Definition shape_over (k : nat) (p : pair_of) (curve : list V) (s : nat) (input : quantum) : res (pair_of * quantum) :=
  let n := length input in
  let p := if n =? r_channels p then p else mk_pair n (ups k n) (downs k n) in
  do (up, blocks) <- resample (r_up p) (map c_val input);
  do blocks <- map_res (map_res (apply_curve A curve)) blocks;
  do (down, blocks) <- resample (r_down p) blocks;
  do out <- copy_all s input blocks;
  Ok (mk_pair (r_channels p) up down, out).
(** 384-476 *)
Definition over_quantum (st : oshaper) (s : nat) (input output : quantum) : res (oshaper * quantum) :=
  if is_silent input && sh_silence (o_shaper st) then do o <- from_option (make_silent (sops_of A) size output); Ok (st, o)
  else
    match sh_curve (o_shaper st) with
    | None => Ok (st, input)
    | Some curve =>
        match o_mode st with
        | NoOver => do o <- shape_channels A curve s input; Ok (st, o)
        | X2 => do (p, o) <- shape_over 2 (o_x2 st) curve s input; Ok (mk_oshaper (o_mode st) (o_shaper st) p (o_x4 st), o)
        | X4 => do (p, o) <- shape_over 4 (o_x4 st) curve s input; Ok (mk_oshaper (o_mode st) (o_shaper st) (o_x2 st) p, o)
        end
    end.

(** what happens to the node: a quantum, the message with the curve (486-508), the message with the mode (479-482) *)
Inductive over_op := OQuantum (s : nat) (input output : quantum) | OCurve (curve : list V) | OMode (m : oversample).
Definition over_step (st : oshaper) (o : over_op) : res (oshaper * option quantum) :=
  match o with
  | OQuantum s input output => do (st, q) <- over_quantum st s input output; Ok (st, Some q)
  | OCurve curve => do sh <- set_curve A curve; Ok (mk_oshaper (o_mode st) sh (o_x2 st) (o_x4 st), None)
  | OMode m => Ok (mk_oshaper m (o_shaper st) (o_x2 st) (o_x4 st), None)
  end.
Fixpoint over_run (st : oshaper) (ops : list over_op) : res (oshaper * list quantum) :=
  match ops with
  | [] => Ok (st, [])
  | o :: ops' =>
      do (st, q) <- over_step st o;
      do (st, qs) <- over_run st ops';
      Ok (st, match q with Some q => q :: qs | None => qs end)
  end.
End Over.
Arguments mk_pair {RS}. Arguments r_channels {RS}. Arguments r_up {RS}. Arguments r_down {RS}.
Arguments mk_oshaper {V RS}. Arguments o_mode {V RS}. Arguments o_shaper {V RS}. Arguments o_x2 {V RS}. Arguments o_x4 {V RS}.
Arguments OQuantum {V}. Arguments OCurve {V}. Arguments OMode {V}.
