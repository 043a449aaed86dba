(** What is heard of an audio graph. *)
From Coq Require Import List Arith Bool.
From Verif Require Import Graph_Model Graph_Spec Graph_TraceModel Flow_Spec Thread_Model.
Import ListNotations.

Section WholeSpec.
Context {P Q CFG V : Type}.
Variable chans : Q -> list (list V).
Variable zero : V.
Variable RQ : nat.

(** control messages *)
Definition messages_only (ops : list (gop P CFG)) : Prop := Forall (fun m => match m with OpRender _ => False | _ => True end) ops.

(** the frame counters of [k] successive quanta *)
Definition clock (k : nat) : list nat := map (fun j => j * RQ) (seq 0 k).

(** sample [j] of channel [i]: of the quantum [j / RQ] at the output of the destination (node 0); channels it lacks are silent *)
Definition heard (state : nat -> @moment P Q) (i j : nat) : V :=
  match outputs_of (state (S (j / RQ))) 0 with
  | [] => zero
  | o :: _ => match nth_error (chans o) i with Some ch => nth (j mod RQ) ch zero | None => zero end
  end.
End WholeSpec.
