(** Channel splitter, channel merger and gain node: theorems.

    C35 Splitter and merger route channels faithfully.
    C44 The gain node multiplies. *)
From Coq Require Import List Arith Bool ZArith Lia Reals Lra.
From Flocq Require Import Core BinarySingleNaN.
From Verif Require Import Float_Model Arith_Model Arith_Real Source_Props Route_Model Route_Spec Route_Proofs.
Import ListNotations.

(** ** C35 *)

(** Output [i] of the splitter is one channel: channel [i] of the input, or silence.  [outputs] are the quanta of the
    outputs before, of any content. *)
Theorem C35_split : forall V (O : sops V) size n (input : list (chan V)) outputs, length outputs = n -> Forall (fun o => o <> []) outputs ->
  exists os, splitter O size n [input] outputs = Ok os /\ length os = n /\
    forall i o, nth_error os i = Some o -> length o = 1 /\ forall t, sample (s_zero O) o 0 t = sample (s_zero O) input i t.
Proof. exact @split_spec. Qed.
Print Assumptions C35_split.

(** Channel [i] of the merger's output is its input [i].  The output has as many channels as there are inputs, or is mono
    when all inputs are the silence buffer. *)
Theorem C35_merge : forall V (O : sops V) size (inputs : list (list (chan V))) output, output <> [] -> 0 < length inputs <= 32 -> Forall (fun o => o <> []) inputs -> Forall (silent_zero O size) inputs ->
  exists out, merger O size inputs output = Ok out /\ length out = (if existsb (fun input => negb (is_silent input)) inputs then length inputs else 1) /\
    forall i t, sample (s_zero O) out i t = sample (s_zero O) (nth i inputs []) 0 t.
Proof. exact @merge_spec. Qed.
Print Assumptions C35_merge.

(** Merging the outputs of a splitter restores the signal. *)
Theorem C35_round_trip : forall V (O : sops V) size n (input : list (chan V)) outputs output, length outputs = n -> Forall (fun o => o <> []) outputs -> 0 < n <= 32 -> output <> [] -> silent_zero O size input ->
  exists os out, splitter O size n [input] outputs = Ok os /\ merger O size os output = Ok out /\
    forall c t, c < n -> sample (s_zero O) out c t = sample (s_zero O) input c t.
Proof. exact @round_trip. Qed.
Print Assumptions C35_round_trip.

Definition nat_ops : sops nat := mk_sops nat 0 Nat.add Nat.mul (fun a b c => a * b + c) 0 0 0.
Example C35_case : splitter nat_ops 2 3 [[mk_chan 5 [1; 2]; mk_chan 6 [3; 4]]] (repeat [mk_chan 9 [7; 7]; mk_chan 9 [7; 7]] 3) = Ok [[mk_chan 5 [1; 2]]; [mk_chan 6 [3; 4]]; [mk_chan 0 [0; 0]]] /\
  merger nat_ops 2 [[mk_chan 5 [1; 2]]; [mk_chan 6 [3; 4]]; [mk_chan 0 [0; 0]]] [mk_chan 9 [7; 7]] = Ok [mk_chan 5 [1; 2]; mk_chan 6 [3; 4]; mk_chan 0 [0; 0]] /\ silent_zero nat_ops 2 [mk_chan 5 [1; 2]; mk_chan 6 [3; 4]].
Proof. repeat split; repeat constructor; discriminate. Qed.

(** ** C44 *)
Local Open Scope R_scope.

(** Exact arithmetic: the output is the product within a millionth of the input. [gain] has one value for the quantum or
    one per frame. *)
Theorem C44_exact : forall size s (input output : list (chan R)) gain, gain <> [] -> output <> [] -> Forall (fun c => length (c_val c) = size) input -> silent_zero (sops_of exact) size input ->
  exists out, gain_quantum exact (sops_of exact) size s input output gain = Ok out /\
    forall c t, (c < length input)%nat -> (t < size)%nat -> Rabs (sample 0 out c t - sample 0 input c t * nth (t mod length gain) gain 0) <= / 1000000 * Rabs (sample 0 input c t).
Proof. exact gain_exact. Qed.
Print Assumptions C44_exact.

(** Floating point: the output is the rounded product, or within a millionth of the input of the exact product. *)
Theorem C44_ieee : forall M size s (input output : list (chan f32)) gain, gain <> [] -> output <> [] -> Forall (fun c => length (c_val c) = size) input -> silent_zero (sops_of (ieee M)) size input -> Forall (fun g => is_finite g = true) gain ->
  exists out, gain_quantum (ieee M) (sops_of (ieee M)) size s input output gain = Ok out /\
    forall c t, (c < length input)%nat -> (t < size)%nat -> let zero := f32_of_Z 0 in let x := sample zero input c t in let y := sample zero out c t in let g := nth (t mod length gain) gain zero in
      y = f32_mul x g \/ Rabs (B2R y - B2R x * B2R g) <= / 1000000 * Rabs (B2R x).
Proof. exact gain_ieee. Qed.
Print Assumptions C44_ieee.

(** Away from zero and one, and for values per frame, it is the rounded product. *)
Theorem C44_product : forall M size s (input output : list (chan f32)) gain, gain <> [] -> output <> [] -> Forall (fun c => length (c_val c) = size) input -> silent_zero (sops_of (ieee M)) size input -> is_silent input = false ->
  (length gain <> 1%nat \/ exists g, gain = [g] /\ is_finite g = true /\ / 1000000 < Rabs (B2R g) /\ / 1000000 < Rabs (1 - B2R g)) ->
  exists out, gain_quantum (ieee M) (sops_of (ieee M)) size s input output gain = Ok out /\ length out = length input /\
    forall c t, (c < length input)%nat -> (t < size)%nat -> let zero := f32_of_Z 0 in sample zero out c t = f32_mul (sample zero input c t) (nth (t mod length gain) gain zero).
Proof. exact gain_product. Qed.
Print Assumptions C44_product.

Example C44_case : let input := [mk_chan 3 [1; -2]; mk_chan 0 [0; 0]] in Forall (fun c => length (c_val c) = 2%nat) input /\ silent_zero (sops_of exact) 2 input /\ is_silent input = false.
Proof. cbv zeta. repeat split; repeat constructor; discriminate. Qed.
