(** The event handlers of the nodes: specification. *)
From Coq Require Import List Arith Bool.
From Verif Require Import Handler_Model.
From Verif Require Event_Model.
Import ListNotations.

(** the node that installed a handler *)
Definition made_by (h : Event_Model.handler) : nat := match h with Event_Model.Once n | Event_Model.Multiple n => n end.
(** the node that sent an event *)
Definition sent_by (e : Event_Model.event) : nat := Event_Model.e_id e.
(** an id is named by an event type *)
Definition names (id : nat) (k : Event_Model.key) : Prop := exists kd, k = key_of kd id.

(** Every call so far was of a handler that the node which sent the event had installed. *)
Definition own_events_only (w : world) : Prop := forall h e, In (h, e) (Event_Model.calls (w_loop w)) -> made_by h = sent_by e.

(** Nothing is left of the nodes that had this id: they are gone on both sides, no handler of theirs is installed or
    runs, and no event of theirs waits. *)
Record no_trace (id : nat) (w : world) : Prop := {
  nt_nodes : forall d, In d (w_nodes w) -> n_id d = id -> n_held d = false /\ n_stage d = Gone;
  nt_handlers : forall k h, In (k, h) (Event_Model.handlers (w_loop w)) -> ~ names id k;
  nt_queue : forall e, In e (Event_Model.queue (w_loop w)) -> ~ names id (Event_Model.e_key e);
  nt_running : forall e h, Event_Model.running (w_loop w) = Some (e, h) -> ~ names id (Event_Model.e_key e) }.
(** whenever a node is made, nothing is left of the nodes that had its id before *)
Fixpoint tidy (capacity : nat) (w : world) (l : list action) : Prop :=
  match l with
  | [] => True
  | a :: l' => (a = New -> no_trace (next_id w) w) /\ forall w', act capacity w a = Some w' -> tidy capacity w' l'
  end.
