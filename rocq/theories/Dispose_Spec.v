(** Data handed to nodes: specification. *)
From Coq Require Import List Arith Bool.
From Verif Require Import Dispose_Model.
Import ListNotations.

(** the pieces of data a client has handed over, by constructors and setters *)
Definition handed_over (l : list action) : list nat :=
  flat_map (fun a => match a with Make _ (Some r) | Post _ (Some r) => [r] | _ => [] end) l.
(** where data can be: held by a node, in a message on its way, on its way to the garbage collector *)
Definition in_nodes (s : state) : list nat := flat_map (fun n => match n with Some (_, Some r) => [r] | _ => [] end) (nodes s).
Definition in_messages (s : state) : list nat := flat_map (fun m => match snd m with Some r => [r] | None => [] end) (channel s).
Definition in_garbage (s : state) : list nat := flat_map (fun i => match i with Content (Some r) => [r] | _ => [] end) (garbage s).
(** and what has been dropped, with the thread that did it *)
Definition gone (s : state) : list nat := map snd (dropped s).

(** actions with which the render thread has to get rid of something: the end of the thread, the removal of a node *)
Definition keeps_nodes (a : action) : Prop := match a with Remove _ | Finish => False | _ => True end.
(** no panner among the nodes *)
Definition no_panner (a : action) : Prop := match a with Make Panner _ => False | _ => True end.
