(** Diagnostics of a realtime context: the report of the audio graph, and how it reaches the callback.

    Source: /repo/src/render/graph.rs 166-225, /repo/src/context/diagnostics.rs, /repo/src/context/online.rs 477-510,
    /repo/src/render/thread.rs 205-215.  Left out: the fields that are copied from the backend and the render thread
    (name, sink, latency, rate, buffer size, frames), the processor's type name and the text of the channel
    configuration. *)
From Coq Require Import List Arith Bool.
From Verif Require Import Graph_Model Graph_TraceModel Event_Model.
Import ListNotations.

(** ** The report *)

(** diagnostics.rs 65-92 (96-104: an edge is output, destination, input) *)
Record node_report := mk_node_report {
  r_id : nat; r_inputs : nat; r_outputs : nat;
  r_input_channels : list nat; r_output_channels : list nat;
  r_edges : list (nat * nat * option nat);
  r_dropped : bool; r_connected : bool; r_breaker : bool; r_effects : bool }.
(** diagnostics.rs 45-62 *)
Record graph_report := mk_graph_report {
  r_active : bool; r_node_count : nat; r_edge_count : nat;
  r_ordered : list nat; r_in_cycle : list nat; r_breakers : list nat;
  r_nodes : list node_report }.

Section Report.
Context {P Q CFG : Type}.
Variable E : env P Q CFG.
Variable channels : Q -> nat.   (* AudioRenderQuantum::number_of_channels *)

(** graph.rs 174-182 and 190-211 *)
Definition report_node (id : nat) (n : node P Q CFG) : node_report :=
  mk_node_report id (length (n_inputs n)) (length (n_outputs n)) (map channels (n_inputs n)) (map channels (n_outputs n))
    (map (fun e => (e_self e, e_dest e, e_port e)) (n_edges n))
    (n_dropped n) (n_connected n) (n_breaker n) (side_effects E (n_proc n)).

(** graph.rs 168-214: the loop over [nodes.keys()]; [get_unchecked] of a key is never vacant *)
Fixpoint report_loop (g : nodes P Q CFG) (ids : list nat) (edge_count : nat) (breakers : list nat) (acc : list node_report)
  : nat * list nat * list node_report :=
  match ids with
  | [] => (edge_count, breakers, acc)
  | id :: ids' =>
      match get g id with
      | None => report_loop g ids' edge_count breakers acc
      | Some n => report_loop g ids' (edge_count + length (n_edges n)) (if n_breaker n then breakers ++ [id] else breakers)
                    (acc ++ [report_node id n])
      end
  end.

(** graph.rs 124-141: the graph with the list [in_cycle] that the last ordering left *)
Definition dgraph : Type := graph P Q CFG * list nat.
(** graph.rs 167-225 *)
Definition diagnostics (d : dgraph) : graph_report :=
  let '(edge_count, breakers, nodes) := report_loop (g_nodes (fst d)) (keys (g_nodes (fst d))) 0 [] [] in
  mk_graph_report (is_active (fst d)) (length nodes) edge_count (g_ordered (fst d)) (snd d) breakers nodes.

(** a step of the graph; [order_nodes] (graph.rs 418-487) replaces [in_cycle] *)
Definition dstep (op : gop P CFG) (d : dgraph) : option (dgraph * list (list (step_log P Q))) :=
  match gstep E op (fst d) with
  | None => None
  | Some (g', l) =>
      let cyc := match op, g_ordered (fst d) with
                 | OpRender _, [] => match order_nodes (g_nodes (fst d)) with ORet _ _ c => c | _ => snd d end
                 | _, _ => snd d
                 end in
      Some ((g', cyc), l)
  end.
Fixpoint drun (ops : list (gop P CFG)) (d : dgraph) : option (dgraph * list (list (step_log P Q))) :=
  match ops with
  | [] => Some (d, [])
  | op :: ops' =>
      match dstep op d with
      | None => None
      | Some (d1, l1) => match drun ops' d1 with
                         | None => None
                         | Some (d2, l2) => Some (d2, l1 ++ l2)
                         end
      end
  end.
End Report.
Arguments dgraph : clear implicits.

(** ** Requests *)

(** events.rs 29-30: the type of the event of diagnostics *)
Definition K : key := 0.
(** [w_pending]: the RunDiagnostics messages on their way to the render thread, [w_crashed]: the render thread has
    panicked, [w_loop]: the event loop (Event_Model.v), [w_asked]: ghost, the requests made *)
Record world := mk_world { w_pending : list nat; w_crashed : bool; w_loop : loop; w_asked : list (handler * event) }.
Definition new_world : world := mk_world [] false new_loop [].
(** the report that answers request [r] *)
Definition answer (r : nat) : event := mk_event K false r.

Inductive move :=
  | Ask (h r : nat)     (* online.rs 486-510: run_diagnostics with callback [h]; a call is taken as one step *)
  | Answer              (* thread.rs 205-215 *)
  | Other (l : label).  (* all other use of the event loop *)

Section World.
Variable capacity : nat.
(** [None]: the step cannot be made in this state *)
Definition wstep (w : world) (m : move) : option world :=
  match m with
  | Ask h r =>
      match step capacity true (w_loop w) (Set_handler K (Once h)) with
      | None => None
      | Some l => Some (mk_world (w_pending w ++ [r]) (w_crashed w) l (w_asked w ++ [(Once h, answer r)]))
      end
  | Answer =>
      if w_crashed w then None else
      match w_pending w with
      | [] => None
      | r :: rest =>
          (* try_send, and expect *)
          if length (queue (w_loop w)) <? capacity
          then match step capacity true (w_loop w) (Try_send (answer r)) with
               | None => None
               | Some l => Some (mk_world rest false l (w_asked w))
               end
          else Some (mk_world rest true (w_loop w) (w_asked w))
      end
  | Other l =>
      match l with
      | Set_handler k _ | Clear_handler k => if k =? K then None else option_map (fun x => mk_world (w_pending w) (w_crashed w) x (w_asked w)) (step capacity true (w_loop w) l)
      | Send e | Try_send e => if e_key e =? K then None else option_map (fun x => mk_world (w_pending w) (w_crashed w) x (w_asked w)) (step capacity true (w_loop w) l)
      | _ => option_map (fun x => mk_world (w_pending w) (w_crashed w) x (w_asked w)) (step capacity true (w_loop w) l)
      end
  end.
Fixpoint wrun (w : world) (ms : list move) : option world :=
  match ms with
  | [] => Some w
  | m :: ms' => match wstep w m with None => None | Some w' => wrun w' ms' end
  end.
End World.
