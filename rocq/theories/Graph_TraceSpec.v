(** Which histories the control side can produce, and the notions used to state
    the properties of histories. *)
From Coq Require Import List Arith Bool.
From Verif Require Import Graph_Model Graph_Spec Graph_TraceModel.
Import ListNotations.

Section TraceSpec.
Context {P Q CFG : Type}.
Notation graph := (graph P Q CFG).
Notation gop := (gop P CFG).

(** What the control side guarantees about each message when it is applied:
    identifiers are those of registered nodes, ports exist (both are checked by
    [connect], /repo/src/node/audio_node.rs), a new node has an identifier that
    is not in use, a delay writer is marked before it is connected
    (/repo/src/node/delay.rs), the destination is never dropped and its
    processor does not panic. *)
Definition legal (E : env P Q CFG) (g : graph) (op : gop) : Prop :=
  let ns := g_nodes g in
  match op with
  | OpAdd id _ _ _ _ => ~ live ns id
  | OpConnect src out dst port =>
      (exists n, get ns src = Some n /\ out < length (n_outputs n)) /\
      (exists d, get ns dst = Some d /\ forall p, port = Some p -> p < length (n_inputs d))
  | OpDisconnect src _ _ _ => live ns src
  | OpDrop id => live ns id
  | OpBreaker id => exists n, get ns id = Some n /\ n_edges n = []
  | OpCfg id _ => live ns id
  | OpMessage id onmsg => exists n, get ns id = Some n /\ onmsg (n_proc n) <> None
  | OpRender frame =>
      exists d, get ns 0 = Some d /\ n_outputs d <> [] /\ n_dropped d = false /\
                forall ins v, process E (n_proc d) ins (n_outputs d) v frame <> None
  end.

(** a predicate on (graph, operation) that holds at each step of a history *)
Fixpoint along (E : env P Q CFG) (C : graph -> gop -> Prop) (g : graph) (ops : list gop) : Prop :=
  match ops with
  | [] => True
  | op :: ops' => C g op /\ forall g' l, gstep E op g = Some (g', l) -> along E C g' ops'
  end.

(** every message of the history is one the control side can send *)
Definition legal_run (E : env P Q CFG) (g : graph) (ops : list gop) : Prop := along E (legal E) g ops.

(** At every quantum, and at the end: if there were connections or disconnections since the quantum before, no node was
    registered after the last of them.  [changed]: there was one; [late]: and a node was registered after it. *)
Fixpoint in_time (changed late : bool) (ops : list gop) : Prop :=
  match ops with
  | [] => late = false
  | OpRender _ :: ops' => late = false /\ in_time false false ops'
  | OpConnect _ _ _ _ :: ops' | OpDisconnect _ _ _ _ :: ops' => in_time true false ops'
  | OpAdd _ _ _ _ _ :: ops' => in_time changed (late || changed) ops'
  | _ :: ops' => in_time changed late ops'
  end.
Definition registrations_in_time (ops : list gop) : Prop := in_time false false ops.

(** whenever a quantum is rendered there is no delay-free cycle *)
Definition no_cycle_when_rendering (g : graph) (op : gop) : Prop :=
  match op with
  | OpRender _ => forall i, ~ on_delay_free_cycle (g_nodes g) i
  | _ => True
  end.

Definition adds (id : nat) (ops : list gop) : nat :=
  length (filter (fun op => match op with OpAdd i _ _ _ _ => Nat.eqb i id | _ => false end) ops).

(** how often the identifier was given back for reuse *)
Definition reclaims (id : nat) (quanta : list (list (step_log P Q))) : nat :=
  length (filter (Nat.eqb id) (flat_map reclaimed quanta)).

(** since the node [id] was last registered, its control handle was not dropped *)
Definition handle_alive (id : nat) (ops : list gop) : Prop :=
  exists ops1 p ins outs cfg ops2,
    ops = ops1 ++ OpAdd id p ins outs cfg :: ops2 /\ ~ In (OpDrop id) ops2.

End TraceSpec.
