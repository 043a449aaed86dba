(** A rendering in stages: the application changes the graph, some quanta are rendered, it changes the graph again, ... *)
From Coq Require Import List Arith Bool.
From Verif Require Import Graph_Model Graph_TraceModel Thread_Model.
Import ListNotations.

Section Stages.
Context {P Q CFG : Type}.

(** control messages, and the number of quanta rendered after them *)
Definition stage : Type := list (gop P CFG) * nat.

(** quanta of some stages *)
Definition duration (l : list stage) : nat := fold_right (fun s n => snd s + n) 0 l.

(** frame counters of [k] quanta from quantum [q] on *)
Definition frames_of (RQ q k : nat) : list nat := map (fun j => (q + j) * RQ) (seq 0 k).

(** What happens to the graph, in order, from quantum [q] on *)
Fixpoint performed (RQ q : nat) (l : list stage) : list (gop P CFG) :=
  match l with
  | [] => []
  | (ms, k) :: l' => ms ++ map OpRender (frames_of RQ q k) ++ performed RQ (q + k) l'
  end.

(** The suspensions the application asks for: one at the first quantum of each stage, in which it changes the graph *)
Fixpoint suspended_at (q : nat) (l : list stage) : list (nat * list (@cmsg (graph P Q CFG) (gop P CFG))) :=
  match l with
  | [] => []
  | (ms, k) :: l' => (q, map GraphMsg ms) :: suspended_at (q + k) l'
  end.

(** no message of [ms] is for node [i] itself: it is neither made nor told anything (it may be connected, disconnected, configured) *)
Definition untold (i : nat) (ms : list (gop P CFG)) : Prop :=
  Forall (fun m => match m with OpAdd j _ _ _ _ | OpMessage j _ => j <> i | _ => True end) ms.
End Stages.
