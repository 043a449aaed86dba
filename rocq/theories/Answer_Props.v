(** C95: the answer of an audio-processing callback goes to the script processor that asked. *)
From Coq Require Import List Arith Bool.
From Verif Require Import Answer_Model Answer_Spec Answer_Proofs.
Import ListNotations.

(** Whatever the client, the render thread and the event thread do, and in whatever order: as long as the client keeps its
    script processors, every output buffer goes to the node that asked for it, and the render thread does not panic.
    Partial: see the two refutations for script processors that are dropped. *)
Theorem C95_own_answers_partial l s : acts start l = Some s -> keeps_scripts l s -> answers_right s.
Proof. exact (right l s). Qed.
Print Assumptions C95_own_answers_partial.

(** two script processors, answers on their way while another node is dropped and removed, and a third takes over its id *)
Example C95_own_answers_case : exists s,
  let l := [New Other; New Script; On 1; Receive; Receive; Ask 1 0; Ask 1 1; Release 0; Receive; Free 0; Take; New Script; Receive; On 2; Ask 2 0; Return; Take; Return; Take; Receive; Return; Receive; Receive] in
  acts start l = Some s /\ keeps_scripts l s /\ ids s = [0; 1; 0] /\ delivered s = [(1, mk_request 1 0); (1, mk_request 1 1); (2, mk_request 2 0)].
Proof.
  eexists. cbn zeta. split; [vm_compute; reflexivity|]. split; [|split; reflexivity].
  intros n I. cbn [In] in I. repeat (destruct I as [I|I]; [try discriminate I; injection I as <-; discriminate|]). destruct I.
Qed.

(** A script processor that the client drops while its callback has yet to run is removed from the graph all the same: the
    handler keeps only the id of the node, not a handle (script_processor.rs 146-167; the comment at 259 expects otherwise).
    The answer then finds no node under the id, and the render thread panics (node_collection.rs 90-93). *)
Theorem C95_node_gone_refuted : ~ (forall l s, acts start l = Some s -> panicked s = false).
Proof.
  intros H. specialize (H [New Script; On 0; Receive; Ask 0 0; Release 0; Receive; Free 0; Take; Return; Receive] _ ltac:(vm_compute; reflexivity)). discriminate H.
Qed.
Print Assumptions C95_node_gone_refuted.

(** If the id of the dropped script processor has been given to another node by then, that node gets the output buffer: an
    AudioBufferSourceNode would take it as the buffer to play (audio_buffer_source.rs 853-866). *)
Theorem C95_other_node_refuted : ~ (forall l s, acts start l = Some s -> forall n r, In (n, r) (delivered s) -> n = asked_by r).
Proof.
  intros H. specialize (H [New Script; On 0; Receive; Ask 0 0; Release 0; Receive; Free 0; New Other; Receive; Take; Return; Receive] _ ltac:(vm_compute; reflexivity) 1 (mk_request 0 0)).
  discriminate (H (or_introl eq_refl)).
Qed.
Print Assumptions C95_other_node_refuted.
