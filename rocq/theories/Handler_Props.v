(** C92: the event handlers of a node are called for the events of that node. *)
From Coq Require Import List Arith Bool Lia.
From Verif Require Import Handler_Model Handler_Spec Handler_Proofs.
From Verif Require Event_Model.
Import ListNotations.

(** For every interleaving of the three threads in which nothing is left of a node when its id is given to another
    one: the handlers called for an event were installed by the node that sent it.  Missing: the program does not see
    to it that nothing is left, as the refuted theorems show. *)
Theorem C92_own_events_partial (capacity : nat) (l : list action) (w : world) :
  tidy capacity new_world l -> acts capacity new_world l = Some w -> own_events_only w.
Proof. exact (tidy_own capacity l w). Qed.
Print Assumptions C92_own_events_partial.

(** the same for all histories in which no node leaves the graph *)
Theorem C92_own_events_of_kept_nodes_partial (capacity : nat) (l : list action) (w : world) :
  (forall n, ~ In (Free n) l) -> acts capacity new_world l = Some w -> own_events_only w.
Proof. exact (no_free_own capacity l w). Qed.
Print Assumptions C92_own_events_of_kept_nodes_partial.

(** two nodes, each with handlers; both are called, for their own events *)
Example C92_kept_case :
  exists w, acts 256 new_world [New; New; On 0 Message false; On 1 Message false; On 1 Ended true; Emit 1 Message; Emit 0 Message; Emit 1 Ended;
      Take; Return; Take; Return; Take; Return; Emit 0 Message; Take] = Some w /\
    Event_Model.calls (w_loop w) =
      [(Event_Model.Multiple 1, event_of Message 1 1); (Event_Model.Multiple 0, event_of Message 0 0); (Event_Model.Once 1, event_of Ended 1 1);
       (Event_Model.Multiple 0, event_of Message 0 0)].
Proof. eexists. split; [vm_compute; reflexivity|vm_compute; reflexivity]. Qed.

(** an id is given out again, with nothing left of the node that had it: its one-shot handler has run *)
Example C92_tidy_case :
  let l := [New; On 0 Ended true; Release 0; Emit 0 Ended; Free 0; Drop 0; Take; Return; New; On 1 Ended true; Emit 1 Ended; Take] in
  tidy 256 new_world l /\ exists w, acts 256 new_world l = Some w /\ map n_id (w_nodes w) = [0; 0] /\
    Event_Model.calls (w_loop w) = [(Event_Model.Once 0, event_of Ended 0 0); (Event_Model.Once 1, event_of Ended 0 1)].
Proof.
  cbv zeta. split; [|eexists; split; [vm_compute; reflexivity|split; vm_compute; reflexivity]].
  repeat (split; [intros E; first [discriminate E|split; vm_compute; intros; repeat match goal with H : _ \/ _ |- _ => destruct H | H : False |- _ => destruct H end; subst; try discriminate; cbn; auto]|
    intros w' E; vm_compute in E; injection E as <-]). exact I.
Qed.

(** A node that is dropped leaves its handlers behind, and its id is given to a new node: the handler that a client
    installed on the first node for its messages is called with the messages of the second one, although both
    threads have long finished with the first node and no event of it was waiting.  (The handlers are kept under the id
    of the node, concrete_base.rs 326-328, and dropping the node, 330-349, clears its connections "as the node id may be
    recycled later" but not its handlers.) *)
Theorem C92_left_over_handler_refuted :
  ~ forall (capacity : nat) (l : list action) (w : world), acts capacity new_world l = Some w -> own_events_only w.
Proof.
  intros H.
  assert (E : exists w, acts 256 new_world [New; On 0 Message false; Release 0; Free 0; Drop 0; New; Emit 1 Message; Take] = Some w /\
    In (Event_Model.Multiple 0, event_of Message 0 1) (Event_Model.calls (w_loop w))) by (eexists; split; [vm_compute; reflexivity|vm_compute; left; reflexivity]).
  destruct E as (w & R & I). specialize (H 256 _ w R _ _ I). discriminate H.
Qed.
Print Assumptions C92_left_over_handler_refuted.

(** Clearing the handlers of a dropped node would not be enough.  Here the first node is a source that is played and
    forgotten: it has no handler at all.  Its ended event is still waiting, or is even sent after its id has been given
    back (graph.rs 556-558 gives the id back first and calls before_drop after that), when a new source gets its id
    and installs a handler.  The event of the first source calls the handler of the second one, which has not been
    started; and as that handler is one-shot, the end of the second source is not reported any more. *)
Theorem C92_late_event_refuted :
  ~ forall (capacity : nat) (l : list action) (w : world), acts capacity new_world l = Some w ->
      (forall n k once, In (On n k once) l -> n = 1) -> own_events_only w.
Proof.
  intros H.
  assert (E : exists w, acts 256 new_world [New; Release 0; Free 0; New; On 1 Ended true; Emit 0 Ended; Drop 0; Take; Return; Emit 1 Ended; Take] = Some w /\
    Event_Model.calls (w_loop w) = [(Event_Model.Once 1, event_of Ended 0 0)]) by (eexists; split; [vm_compute; reflexivity|vm_compute; reflexivity]).
  destruct E as (w & R & C). assert (X : own_events_only w).
  { refine (H 256 _ w R _). intros n k once I. cbn [In] in I. repeat (destruct I as [I|I]; [try discriminate I|]); [injection I as <- <- <-; reflexivity|destruct I]. }
  specialize (X (Event_Model.Once 1) (event_of Ended 0 0)). rewrite C in X. specialize (X (or_introl eq_refl)). discriminate X.
Qed.
Print Assumptions C92_late_event_refuted.
