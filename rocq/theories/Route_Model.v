(** Model of the channel splitter, the channel merger and the gain node, on render quanta (Quantum_Model.v).

    Source: /repo/src/node/channel_splitter.rs 178-208, channel_merger.rs 140-170, gain.rs 138-199. *)
From Coq Require Import List Arith Bool ZArith.
From Verif Require Export Common_Model Quantum_Model.
From Verif Require Import Arith_Model.
Import ListNotations.

Section Route.
Context {V : Type}.
Variable O : sops V.
Variable size : nat.
Notation quantum := (list (chan V)).

(** channel_splitter.rs 197-206: one output *)
Definition split_output (input : quantum) (i : nat) (output : quantum) : res quantum :=
  do output <- from_option (set_number_of_channels output 1);
  if i <? length input then do c <- index input i; store output 0 c
  else from_option (make_silent O size output).
Fixpoint split_outputs (input : quantum) (i : nat) (outputs : list quantum) : res (list quantum) :=
  match outputs with
  | [] => Ok []
  | o :: outputs' => do o' <- split_output input i o; do os <- split_outputs input (S i) outputs'; Ok (o' :: os)
  end.
(** 185-208; the result is the outputs *)
Definition splitter (number_of_outputs : nat) (inputs outputs : list quantum) : res (list quantum) :=
  do input <- index inputs 0;
  do _ <- check (number_of_outputs =? length outputs);
  split_outputs input 0 outputs.

(** channel_merger.rs 159-161 *)
Fixpoint merge_channels (inputs : list quantum) (i : nat) (output : quantum) : res quantum :=
  match inputs with
  | [] => Ok output
  | input :: inputs' => do c <- index input 0; do output <- store output i c; merge_channels inputs' (S i) output
  end.
(** 144-168; the result is the output *)
Definition merger (inputs : list quantum) (output : quantum) : res quantum :=
  if existsb (fun input => negb (is_silent input)) inputs then
    do output <- from_option (set_number_of_channels output (length inputs));
    merge_channels inputs 0 output
  else from_option (make_silent O size output).
End Route.

Section Gain.
Context {T V : Type}.
Variable A : arith T V.
Variable O : sops V.
Variable size : nat.
Notation quantum := (list (chan V)).

(** gain.rs 184-195: a channel times the gain values, which are repeated as needed *)
Fixpoint scale (gain : list V) (i : nat) (samples : list V) : res (list V) :=
  match samples with
  | [] => Ok []
  | x :: samples' => do g <- index gain (i mod length gain); do r <- scale gain (S i) samples'; Ok (v_mul A x g :: r)
  end.
(** the channels get new buffers, named from [s] on *)
Fixpoint scale_channels (gain : list V) (s : nat) (q : quantum) : res quantum :=
  match q with
  | [] => Ok []
  | c :: q' => do v <- scale gain 0 (c_val c); do r <- scale_channels gain (S s) q'; Ok (mk_chan s v :: r)
  end.
(** gain.rs 143-199; 1e-6 is the threshold of lines 163-166 *)
Definition gain_quantum (s : nat) (input output : quantum) (gain : list V) : res quantum :=
  if is_silent input then from_option (make_silent O size output)
  else
    match gain with
    | [g] =>
        let threshold := v_frac A 1 1000000 in
        if v_le A (v_abs A g) threshold then from_option (make_silent O size output)
        else if v_le A (v_abs A (v_sub A (v_one A) g)) threshold then Ok input
        else scale_channels gain s input
    | _ => scale_channels gain s input
    end.
End Gain.
