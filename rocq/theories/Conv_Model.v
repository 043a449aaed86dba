(** Model of the ConvolverNode.

    Source: /repo/src/node/convolver.rs 16-53 (normalization), 91-115, 187-197, 219-220 (channel rules), 259-317
    (setting the impulse response), 336-509 (rendering).  The convolution engine is the crate fft_convolver: it is
    left open here ([E], [fresh], [run]); Conv_Spec.v states what it is assumed to do. *)
From Coq Require Import List Arith Bool ZArith.
From Verif Require Export Common_Model Quantum_Model.
From Verif Require Import Arith_Model Route_Spec.
Import ListNotations.

Section Conv.
Context {T V E : Type}.
Variable A : arith T V.
Variable size : nat.   (* RENDER_QUANTUM_SIZE *)
Variable fresh : list V -> E.                 (* FFTConvolver::init *)
Variable run : E -> list V -> E * list V.     (* FFTConvolver::process *)
Notation quantum := (list (chan V)).

(** 29-30: the sums ([f32::sum] begins with -0, which makes no difference: an empty sum is divided by 0) *)
Definition total (l : list V) : V := fold_left (v_add A) l (v_zero A).
(** 16-53 for the channels [chs] of [len] frames; [rate] is the sample rate *)
Definition normalize_buffer (rate : V) (len : nat) (chs : list (list V)) : V :=
  let power := total (map (fun c => total (map (fun s => v_mul A s s) c)) chs) in
  let power := v_sqrt A (v_div A power (v_of_Z A (Z.of_nat (length chs * len)))) in
  let min_power := v_frac A 1 8000 in
  let power := if negb (v_finite A power) || v_nan A power || v_lt A power min_power then min_power else power in
  let scale := v_div A (v_one A) power in
  let scale := v_mul A scale (v_frac A 1 800) in
  let scale := v_mul A scale (v_div A (v_of_Z A 44100) rate) in
  if length chs =? 4 then v_mul A scale (v_frac A 1 2) else scale.

(** 330-341 *)
Record message := mk_message { g_engines : list E; g_length : nat; g_channels : nat }.
Record conv := mk_conv { c_engines : option (list E); c_length : nat; c_channels : nat; c_tail : nat }.
(** 223-228 *)
Definition conv_new : conv := mk_conv None 0 0 0.

(** 259-317: the message sent for the buffer with channels [chs] of [len] frames and the sample rate [rate] *)
Definition set_buffer (normalize : bool) (context_rate rate : V) (len : nat) (chs : list (list V)) : res message :=
  do _ <- check (v_eq A rate context_rate);
  do _ <- check (existsb (Nat.eqb (length chs)) [1; 2; 4]);
  let scale := if normalize then normalize_buffer rate len chs else v_one A in
  do es <- map_res (fun i => do c <- index chs (Nat.min i (length chs - 1)); Ok (fresh (map (fun s => v_mul A s scale) c))) (seq 0 (Nat.max (length chs) 2));
  Ok (mk_message es len (length chs)).
(** 492-505 *)
Definition on_message (st : conv) (m : message) : conv := mk_conv (Some (g_engines m)) (g_length m) (g_channels m) (c_tail st).

(** [convolvers[k].process(i, o)] *)
Definition drive (es : list E) (k : nat) (i : list V) : res (list E * list V) :=
  do e <- index es k;
  let r := run e i in
  do es' <- store es k (fst r);
  Ok (es', snd r).
(** a list of these: engine and input *)
Fixpoint drive_all (es : list E) (l : list (nat * list V)) : res (list E * list (list V)) :=
  match l with
  | [] => Ok (es, [])
  | (k, i) :: l' => do r <- drive es k i; do r' <- drive_all (fst r) l'; Ok (fst r', snd r :: snd r')
  end.
(** the output channels get new buffers, named from [s] on *)
Fixpoint named (s : nat) (l : list (list V)) : quantum := match l with [] => [] | v :: l' => mk_chan s v :: named (S s) l' end.
(** 436-452: mix back to stereo *)
Definition mix_back (o : list (list V)) : res (list (list V)) :=
  match o with
  | [o0; o1; o2; o3] => Ok [zip_mut (v_add A) o0 o2; zip_mut (v_add A) o1 o3]
  | _ => Panic
  end.
(** 344-490.  The engines write all samples of their output. *)
Definition conv_process (st : conv) (s : nat) (input output : quantum) : res (conv * quantum * bool) :=
  if is_silent input && (c_length st <=? c_tail st) then
    do o <- from_option (make_silent (sops_of A) size output); Ok (st, o, false)
  else
    let tail := if is_silent input then c_tail st + size else 0 in
    match c_engines st with
    | None => Ok (mk_conv None (c_length st) (c_channels st) tail, input, negb (is_silent input))
    | Some es =>
        do r <- match map c_val input, c_channels st with
                | [i], 1 => drive_all es [(0, i)]
                | [i], 2 => drive_all es [(0, i); (1, i)]
                | [l; r], 1 | [l; r], 2 => drive_all es [(0, l); (1, r)]
                | [l; r], 4 => do d <- drive_all es [(0, l); (1, l); (2, r); (3, r)]; do o <- mix_back (snd d); Ok (fst d, o)
                | [i], 4 => do d <- drive_all es [(0, i); (1, i); (2, i); (3, i)]; do o <- mix_back (snd d); Ok (fst d, o)
                | _, _ => Panic   (* unreachable!() *)
                end;
        Ok (mk_conv (Some (fst r)) (c_length st) (c_channels st) tail, named s (snd r), true)
    end.

(** the quanta of a stretch of time in which the impulse response is not replaced *)
Fixpoint conv_run (st : conv) (qs : list (nat * quantum * quantum)) : res (list (quantum * bool)) :=
  match qs with
  | [] => Ok []
  | (s, input, output) :: qs' =>
      do r <- conv_process st s input output;
      do r' <- conv_run (fst (fst r)) qs';
      Ok ((snd (fst r), snd r) :: r')
  end.
End Conv.
Arguments conv : clear implicits. Arguments message : clear implicits.
