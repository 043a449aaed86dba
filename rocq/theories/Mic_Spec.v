(** What a microphone is supposed to deliver. *)
From Coq Require Import List Arith Bool ZArith.
From Verif Require Import Float_Model Quantum_Model Buffer_Model Mic_Model.
Import ListNotations.

(** interleaved samples as a buffer: frame [k] of channel [c] is sample [k * n + c] *)
Definition block (n : nat) (rate : f32) (data : list f32) : content :=
  mk_content (map (fun c => map (fun k => nth (k * n + c) data f32_zero) (seq 0 (length data / n))) (seq 0 n)) rate.
(** what the device hands over until it is closed *)
Fixpoint heard (n : nat) (rate : f32) (ops : list mic_op) : list content :=
  match ops with
  | [] | Close :: _ => []
  | Capture data :: ops' => block n rate data :: heard n rate ops'
  | Next :: ops' => heard n rate ops'
  end.
(** the device hands over whole frames *)
Definition whole_frames (n : nat) (o : mic_op) : Prop := match o with Capture data => length data mod n = 0 | _ => True end.

(** from the history of a run: the blocks that were captured, those that were kept, those that were delivered *)
Definition captured (log : list mic_event) : list content := flat_map (fun e => match e with Queued b | Dropped b => [b] | _ => [] end) log.
Definition queued (log : list mic_event) : list content := flat_map (fun e => match e with Queued b => [b] | _ => [] end) log.
Definition got (log : list mic_event) : list content := flat_map (fun e => match e with Got b => [b] | _ => [] end) log.
(** blocks waiting after [log] *)
Definition waiting (log : list mic_event) : nat := length (queued log) - length (got log).
(** calls of the reader and answers *)
Definition asked (ops : list mic_op) : nat := length (filter (fun o => match o with Next => true | _ => false end) ops).
Definition answered (log : list mic_event) : nat := length (filter (fun e => match e with Got _ | Silence _ | Ended => true | _ => false end) log).

(** what may happen after [log] *)
Definition right (n : nat) (rate : f32) (log : list mic_event) (e : mic_event) : Prop :=
  match e with
  | Queued _ => waiting log < 3
  | Dropped _ => waiting log = 3
  | Got b => nth_error (queued log) (length (got log)) = Some b
  | Silence s => waiting log = 0 /\ s = mk_content (repeat (repeat f32_zero 128) n) rate
  | Ended => waiting log = 0
  end.

(** a reader that keeps pace with the device, [w] blocks waiting: it never asks
    when no block waits, and never lets a fourth one come *)
Fixpoint paced (w : nat) (ops : list mic_op) : Prop :=
  match ops with
  | [] => True
  | Capture _ :: ops' => w < 3 /\ paced (S w) ops'
  | Next :: ops' => 0 < w /\ paced (w - 1) ops'
  | Close :: _ => False
  end.
