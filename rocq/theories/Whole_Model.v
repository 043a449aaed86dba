(** The render thread with the audio graph of Graph_Model.v.

    Source: /repo/src/render/thread.rs 136-252 (which message calls which operation of the graph),
    489-503 and 280-290 (rendering a quantum), /repo/src/render/graph.rs 228-231, 489-592. *)
From Coq Require Import List Arith Bool.
From Verif Require Import Graph_Model Graph_TraceModel Thread_Model.
Import ListNotations.

Section Whole.
Context {P Q CFG V : Type}.
Variable E : env P Q CFG.
Variable chans : Q -> list (list V).    (* the sample arrays of a quantum, quantum.rs 494-498 *)

(** The operations of the render thread on the graph; thread.rs 139-248 dispatches each message to one operation of the
    graph ([OpRender] is not a message) *)
Definition audio_graph : @graph_ops (graph P Q CFG) (gop P CFG) V :=
  mk_graph_ops
    (fun g f => match render E f g with Some (g', _, o) => Some (g', chans o) | None => None end)
    (fun g m => option_map fst (gstep E m g))
    is_active.

(** thread.rs 84-108: a new render thread has no graph; offline.rs 86-90 and online.rs 260-267: the first message brings an
    empty one *)
Definition new_thread : @thread (graph P Q CFG) V := mk_thread None false Suspended 0 true None [] [] [].
Definition startup (msgs : list (gop P CFG)) : list (@cmsg (graph P Q CFG) (gop P CFG)) := StartupMsg graph_new :: map GraphMsg msgs.
End Whole.
