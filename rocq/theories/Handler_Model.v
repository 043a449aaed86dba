(** The event handlers of the nodes of a context, across the life of the nodes.

    Source: /repo/src/context/concrete_base.rs 24-48 (ids of nodes), 326-352 (handlers; a node is dropped),
    /repo/src/render/graph.rs 540-562 (a node is removed from the graph), and the functions that install a handler,
    cited below.  The event loop is that of Event_Model.v.

    A node is known here by the order of its creation: node 0 is the first node made.  A handler and an event carry the
    node they come from: this is what the statements compare, the program has no such information. *)
From Coq Require Import List Arith Bool.
From Verif Require Event_Model.
Import ListNotations.

(** /repo/src/events.rs 23-34: the types of event that belong to a node *)
Inductive kind := Ended | Processor_error | Message | Audio_processing.
Definition code (k : kind) : nat := match k with Ended => 0 | Processor_error => 1 | Message => 2 | Audio_processing => 3 end.
(** events.rs 21-34: an event type with the id of its node, the key of the table of handlers *)
Definition key_of (k : kind) (id : nat) : Event_Model.key := 4 * id + code k.

(** render side: the node plays, its id has been given back but [before_drop] has not run yet, or it is gone
    (graph.rs 551-560) *)
Inductive stage := Playing | Freed | Gone.
(** [n_held]: the control side still has a handle *)
Record node := mk_node { n_id : nat; n_held : bool; n_stage : stage }.

(** concrete_base.rs 24-30: [w_next] is [id_inc], [w_free] the queue behind [id_consumer]; [w_nodes] has all nodes
    made so far *)
Record world := mk_world { w_loop : Event_Model.loop; w_next : nat; w_free : list nat; w_nodes : list node }.
Definition new_world : world := mk_world Event_Model.new_loop 0 [] [].

Definition set_node (w : world) (n : nat) (d : node) : list node := firstn n (w_nodes w) ++ d :: skipn (S n) (w_nodes w).
Definition with_loop (w : world) (l : Event_Model.loop) : world := mk_world l (w_next w) (w_free w) (w_nodes w).

(** the handler a node installs: one-shot or not *)
Definition handler_of (once : bool) (n : nat) : Event_Model.handler := if once then Event_Model.Once n else Event_Model.Multiple n.
Definition event_of (k : kind) (id n : nat) : Event_Model.event := Event_Model.mk_event (key_of k id) false n.

(** the steps of the control thread, the render thread and the event thread, interleaved *)
Inductive action :=
  | New                                     (* concrete_base.rs 40-47, 104: a node is made *)
  | On (n : nat) (k : kind) (once : bool)   (* set_onended (scheduled_source.rs 43-50), set_onprocessorerror (audio_node.rs 449-459),
                                               set_onmessage (message_port.rs 33-46), set_onaudioprocess (script_processor.rs 146-167) *)
  | Off (n : nat) (k : kind)                (* clear_onended and so on *)
  | Release (n : nat)                       (* concrete_base.rs 330-349: the handle is dropped; handlers are not touched *)
  | Emit (n : nat) (k : kind)               (* the processor, or the graph for it, sends an event without waiting (processor.rs 49-74) *)
  | Free (n : nat)                          (* graph.rs 551-557: the node leaves the graph, its id is given back *)
  | Drop (n : nat)                          (* graph.rs 558-559: before_drop has run, the processor is dropped *)
  | Take | Return.                          (* the event thread takes an event and calls the handler; the handler returns *)

(** concrete_base.rs 40-47 *)
Definition next_id (w : world) : nat := match w_free w with i :: _ => i | [] => w_next w end.

Section World.
Variable capacity : nat.
Definition loop_step (w : world) (l : Event_Model.label) : option world :=
  match Event_Model.step capacity true (w_loop w) l with Some s => Some (with_loop w s) | None => None end.

(** [None]: the step cannot be made in this state.  Simplification: when a node is freed is not modelled (see
    Graph_Model.v for that): any node that plays may be. *)
Definition act (w : world) (a : action) : option world :=
  match a with
  | New =>
      let d := mk_node (next_id w) true Playing in
      match w_free w with
      | i :: r => Some (mk_world (w_loop w) (w_next w) r (w_nodes w ++ [d]))
      | [] => Some (mk_world (w_loop w) (w_next w + 1) [] (w_nodes w ++ [d]))
      end
  | On n k once =>
      match nth_error (w_nodes w) n with
      | Some d => if n_held d then loop_step w (Event_Model.Set_handler (key_of k (n_id d)) (handler_of once n)) else None
      | None => None
      end
  | Off n k =>
      match nth_error (w_nodes w) n with
      | Some d => if n_held d then loop_step w (Event_Model.Clear_handler (key_of k (n_id d))) else None
      | None => None
      end
  | Release n =>
      match nth_error (w_nodes w) n with
      | Some d => if n_held d then Some (mk_world (w_loop w) (w_next w) (w_free w) (set_node w n (mk_node (n_id d) false (n_stage d)))) else None
      | None => None
      end
  | Emit n k =>
      match nth_error (w_nodes w) n with
      | Some d => match n_stage d with Gone => None | _ => loop_step w (Event_Model.Try_send (event_of k (n_id d) n)) end
      | None => None
      end
  | Free n =>
      match nth_error (w_nodes w) n with
      | Some d => match n_stage d with
                  | Playing => Some (mk_world (w_loop w) (w_next w) (w_free w ++ [n_id d]) (set_node w n (mk_node (n_id d) (n_held d) Freed)))
                  | _ => None
                  end
      | None => None
      end
  | Drop n =>
      match nth_error (w_nodes w) n with
      | Some d => match n_stage d with
                  | Freed => Some (mk_world (w_loop w) (w_next w) (w_free w) (set_node w n (mk_node (n_id d) (n_held d) Gone)))
                  | _ => None
                  end
      | None => None
      end
  | Take => loop_step w Event_Model.Take
  | Return => loop_step w Event_Model.Return
  end.
Fixpoint acts (w : world) (l : list action) : option world :=
  match l with [] => Some w | a :: l' => match act w a with Some w' => acts w' l' | None => None end end.
End World.
