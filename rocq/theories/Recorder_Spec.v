(** Specification of the media recorder. *)
From Coq Require Import List Arith.
From Verif Require Import Recorder_Model.
Import ListNotations.

Section Spec.
Context {V B E : Type}.
Variable header : nat -> nat -> list B.
Variable bytes : V -> list B.

(** the buffers before the end or the first error of the stream, and that error *)
Fixpoint buffers (items : list (item V E)) : list (buffer V) := match items with inl b :: l => b :: buffers l | _ => [] end.
Fixpoint first_error (items : list (item V E)) : option E := match items with inl _ :: l => first_error l | inr e :: _ => Some e | [] => None end.

(** the file that holds the buffers: a header, then the samples of all buffers, frame by frame *)
Definition file (bs : list (buffer V)) : list B :=
  match bs with [] => [] | b :: _ => header (length (b_chans b)) (b_rate b) ++ flat_map bytes (flat_map interleave bs) end.

(** the bytes handed to the user, and the events that are not data *)
Definition delivered (log : list (event B E)) : list B := flat_map (fun e => match e with Data d => d | _ => [] end) log.
Definition is_stop (e : event B E) : bool := match e with Stopped => true | _ => false end.
Definition stops (log : list (event B E)) : nat := length (filter is_stop log).

Definition starts (l : list raction) : nat := length (filter (fun a => match a with Start => true | _ => false end) l).
Definition stop_callbacks (l : list raction) : nat := length (filter (fun a => match a with SetStop true => true | _ => false end) l).
Definition failures (log : list (event B E)) : nat := length (filter (fun e => match e with Failed _ => true | _ => false end) log).
Definition error_callbacks (l : list raction) : nat := length (filter (fun a => match a with SetError true => true | _ => false end) l).
Definition no_data (log : list (event B E)) : Prop := Forall (fun e => match e with Data _ => False | _ => True end) log.

(** channel [c] of the recorded sound *)
Definition channel (c : nat) (bs : list (buffer V)) : list V := flat_map (fun b => nth c (b_chans b) []) bs.
Definition shape (ch : nat) (b : buffer V) : Prop := length (b_chans b) = ch /\ Forall (fun c => length c = b_length b) (b_chans b).
End Spec.
