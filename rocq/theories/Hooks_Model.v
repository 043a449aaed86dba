(** What happens to the processors of an audio graph: messages, calls, and the destructor hook.

    Source: /repo/src/render/graph.rs 322-324 (messages), 500-574 (calls, panics, [before_drop] of a removed node), 593-598
    ([before_drop] of the whole graph); /repo/src/render/thread.rs 280-298, 330-348, 399-411 (end of an offline rendering). *)
From Coq Require Import List Arith Bool.
From Verif Require Import Graph_Model Graph_TraceModel.
Import ListNotations.

Section Hooks.
Context {P Q CFG : Type}.
Variable E : env P Q CFG.
Notation node := (node P Q CFG).
Notation graph := (graph P Q CFG).

(** What a processor experiences; [p] is its state before, [p'] after *)
Inductive hook :=
| Told (p p' : P)                  (* onmessage *)
| Called (p p' : P)                (* process, which returned *)
| Failed (p : P)                   (* process, which panicked; what it had changed is not modelled *)
| Dropped (p : P) (frame : nat).   (* before_drop, with the frame counter of its scope *)

(** graph.rs 504-521, 553-559: one node in a quantum *)
Definition node_hooks (frame : nat) (lg : step_log P Q) : list (nat * hook) :=
  match l_result lg with
  | Some (p', _, _) => (l_id lg, Called (l_proc lg) p') :: if l_freed lg then [(l_id lg, Dropped p' frame)] else []
  | None => (l_id lg, Failed (l_proc lg)) :: if l_freed lg then [(l_id lg, Dropped (l_proc lg) frame)] else []
  end.

(** a message or a quantum *)
Definition hstep (op : gop P CFG) (g : graph) : option (graph * list (nat * hook)) :=
  match op with
  | OpMessage id m =>
      match get (g_nodes g) id, route_message g id m with
      | Some n, Some g' => Some (g', match m (n_proc n) with Some p' => [(id, Told (n_proc n) p')] | None => [] end)
      | _, _ => None
      end
  | OpRender frame =>
      match render E frame g with
      | Some (g', lgs, _) => Some (g', flat_map (node_hooks frame) lgs)
      | None => None
      end
  | _ => option_map (fun r => (fst r, [])) (gstep E op g)
  end.
Fixpoint hrun (ops : list (gop P CFG)) (g : graph) : option (graph * list (nat * hook)) :=
  match ops with
  | [] => Some (g, [])
  | op :: ops' =>
      match hstep op g with
      | None => None
      | Some (g1, l1) => match hrun ops' g1 with
                         | None => None
                         | Some (g2, l2) => Some (g2, l1 ++ l2)
                         end
      end
  end.

(** graph.rs 593-598 and thread.rs 399-411: after the last quantum of an offline rendering, for all nodes that are left *)
Definition unload (g : graph) (frame : nat) : list (nat * hook) :=
  flat_map (fun id => match get (g_nodes g) id with Some n => [(id, Dropped (n_proc n) frame)] | None => [] end) (keys (g_nodes g)).

(** graph.rs 500-592 and thread.rs 260-302: an offline rendering, to the end *)
Definition whole_life (ops : list (gop P CFG)) (frame : nat) : option (list (nat * hook)) :=
  match hrun ops graph_new with
  | Some (g, l) => Some (l ++ unload g frame)
  | None => None
  end.
End Hooks.
