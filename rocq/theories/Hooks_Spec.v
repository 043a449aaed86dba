(** The course of a processor's life. *)
From Coq Require Import List Arith Bool.
From Verif Require Import Graph_TraceModel Hooks_Model.
Import ListNotations.

Section HooksSpec.
Context {P CFG : Type}.

(** From state [p], these things happen one after another, each in the state the one before has left; [Some q]: it lives on, in
    state [q]; [None]: the last thing that happened was that it was dropped.  After a panic it is dropped and nothing else. *)
Inductive course : P -> list (@hook P) -> option P -> Prop :=
| lives p : course p [] (Some p)
| told p p' l r : course p' l r -> course p (Told p p' :: l) r
| called p p' l r : course p' l r -> course p (Called p p' :: l) r
| failed p frame : course p [Failed p; Dropped p frame] None
| dropped p frame : course p [Dropped p frame] None.

(** what happened to the processor of node [id] *)
Definition of_node (id : nat) (l : list (nat * @hook P)) : list (@hook P) :=
  flat_map (fun x => if Nat.eqb (fst x) id then [snd x] else []) l.

(** [id] is not registered (again) *)
Definition not_registered (id : nat) (ops : list (gop P CFG)) : Prop :=
  Forall (fun m => match m with OpAdd i _ _ _ _ => i <> id | _ => True end) ops.

(** A scheduled source: whether its ended event was sent, and whether it has begun or was stopped at some frame *)
Section Source.
Variables (over : P -> bool) (begun : P -> nat -> bool).
(** the ended event is sent in this moment *)
Definition sends_ended (h : @hook P) : bool :=
  match h with
  | Called p p' => negb (over p) && over p'
  | Dropped p frame => negb (over p) && begun p frame
  | _ => false
  end.
Definition ended_events (l : list (@hook P)) : nat := length (filter sends_ended l).
End Source.
End HooksSpec.
