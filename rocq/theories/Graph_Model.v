(** Model of the audio graph of the render thread.

    Source: /repo/src/render/graph.rs, /repo/src/render/node_collection.rs.

    The processors, the sample buffers and the channel configurations are
    parameters: what a processor computes is irrelevant for ordering, routing
    and life-cycle of the nodes.  They are modelled in other files. *)
From Coq Require Import List Arith Bool.
Import ListNotations.

(** graph.rs 20-27, [OutgoingEdge].  [other_index = usize::MAX] (the hidden
    port used for AudioParams) is [None]. *)
Record edge := mk_edge {
  e_self : nat;            (* self_index: index of our output port *)
  e_dest : nat;            (* other_id *)
  e_port : option nat      (* other_index, None = usize::MAX *)
}.

Definition port_eqb (a b : option nat) : bool :=
  match a, b with
  | Some x, Some y => Nat.eqb x y
  | None, None => true
  | _, _ => false
  end.

(** Environment of the graph: the behaviour of processors and of sample
    buffers.  [P] is the type of processors, [Q] of render quanta, [CFG] of
    channel configurations. *)
Record env (P Q CFG : Type) := mk_env {
  (** the single channel of silence, quantum.rs 511-516 *)
  silence : Q;
  (** quantum.rs 532-569, [AudioRenderQuantum::add] *)
  qadd : Q -> Q -> CFG -> Q;
  (** processor.rs 133-139, [AudioProcessor::process]: processor, inputs,
      previous outputs, the outputs of the other nodes (this is how AudioParam
      values are read, processor.rs 227-229; a missing or mutably borrowed node
      is [None] and reading it panics) and the frame counter; [None] is a panic,
      otherwise new state, outputs and tail-time flag *)
  process : P -> list Q -> list Q -> (nat -> option (list Q)) -> nat -> option (P * list Q * bool);
  (** processor.rs 173-175 *)
  side_effects : P -> bool
}.
Arguments silence {P Q CFG}.
Arguments qadd {P Q CFG}.
Arguments process {P Q CFG}.
Arguments side_effects {P Q CFG}.

(** graph.rs 45-64, [Node].  [reclaim_id] is not stored: it is the node's own
    identifier (concrete_base.rs 251) and is always present for a live node. *)
Record node (P Q CFG : Type) := mk_node {
  n_proc : P;
  n_inputs : list Q;
  n_outputs : list Q;
  n_cfg : CFG;
  n_edges : list edge;
  n_dropped : bool;       (* control_handle_dropped *)
  n_connected : bool;     (* has_inputs_connected *)
  n_breaker : bool        (* cycle_breaker *)
}.
Arguments mk_node {P Q CFG}.
Arguments n_proc {P Q CFG}.
Arguments n_inputs {P Q CFG}.
Arguments n_outputs {P Q CFG}.
Arguments n_cfg {P Q CFG}.
Arguments n_edges {P Q CFG}.
Arguments n_dropped {P Q CFG}.
Arguments n_connected {P Q CFG}.
Arguments n_breaker {P Q CFG}.

Section Graph.
Context {P Q CFG : Type}.
Notation node := (node P Q CFG).

(** node_collection.rs 6-9: a vector of optional nodes indexed by id. *)
Definition nodes := list (option node).

(** node_collection.rs 74-88, [get_mut], [get_unchecked], [get_unchecked_mut]:
    [None] stands for an empty slot or an index past the end (the unchecked
    variants panic in both cases). *)
Definition get (g : nodes) (i : nat) : option node :=
  match nth_error g i with Some (Some n) => Some n | _ => None end.

(** assignment to an existing slot *)
Fixpoint set_slot (g : nodes) (i : nat) (v : option node) : nodes :=
  match g, i with
  | [], _ => []
  | _ :: g', 0 => v :: g'
  | x :: g', S i' => x :: set_slot g' i' v
  end.

(** node_collection.rs 27-38, [ensure_capacity], [insert] *)
Definition insert (g : nodes) (i : nat) (n : node) : nodes :=
  set_slot (g ++ repeat None (S i - length g)) i (Some n).

(** node_collection.rs 41-45, [remove]; the caller checks the slot is occupied *)
Definition remove (g : nodes) (i : nat) : nodes := set_slot g i None.

(** modify a node in place (borrow_mut / get_mut) *)
Definition update (g : nodes) (i : nat) (f : node -> node) : nodes :=
  match get g i with Some n => set_slot g i (Some (f n)) | None => g end.

(** node_collection.rs 48-53, [keys]: live ids in increasing order *)
Fixpoint keys_from (k : nat) (g : nodes) : list nat :=
  match g with
  | [] => []
  | Some _ :: g' => k :: keys_from (S k) g'
  | None :: g' => keys_from (S k) g'
  end.
Definition keys (g : nodes) : list nat := keys_from 0 g.

(** ** Ordering *)

(** graph.rs 133-140: the helper vectors. *)
Record vstate := mk_vstate {
  marked : list nat;       (* most recent first: only membership is used *)
  stack : list nat;        (* marked_temp, oldest first *)
  done : list nat;         (* ordered, oldest first *)
  in_cycle : list nat;
  breakers : list nat
}.

Inductive vres :=
| VFuel                                       (* out of fuel (model artefact) *)
| VPanic                                      (* the Rust code panics *)
| VRet (applied : bool) (s : vstate).

Definition mem (x : nat) (l : list nat) : bool := existsb (Nat.eqb x) l.

(** graph.rs 341: [marked_temp.iter().position(..)] returning the suffix
    [marked_temp[pos..]] *)
Fixpoint suffix_from (x : nat) (l : list nat) : option (list nat) :=
  match l with
  | [] => None
  | y :: l' => if Nat.eqb x y then Some (y :: l') else suffix_from x l'
  end.

(** graph.rs 343-346: find the first cycle breaker; outer [None] = panic *)
Fixpoint find_breaker (g : nodes) (l : list nat) : option (option nat) :=
  match l with
  | [] => Some None
  | y :: l' => match get g y with
               | None => None
               | Some n => if n_breaker n then Some (Some y) else find_breaker g l'
               end
  end.

Fixpoint visit (fuel : nat) (g : nodes) (n : nat) (s : vstate) {struct fuel} : vres :=
  match fuel with
  | 0 => VFuel
  | S fuel' =>
    (* graph.rs 341-362 *)
    match suffix_from n (stack s) with
    | Some cyc =>
        match find_breaker g cyc with
        | None => VPanic
        | Some (Some b) =>
            VRet true (mk_vstate (marked s) (stack s) (done s) (in_cycle s) (breakers s ++ [b]))
        | Some None =>
            VRet false (mk_vstate (marked s) (stack s) (done s) (in_cycle s ++ cyc) (breakers s))
        end
    | None =>
        (* graph.rs 365-367 *)
        if mem n (marked s) then VRet false s
        else
          (* graph.rs 370-393 *)
          let s1 := mk_vstate (n :: marked s) (stack s ++ [n]) (done s) (in_cycle s) (breakers s) in
          match get g n with
          | None => VPanic
          | Some nd =>
              let r := (fix go (es : list edge) (s : vstate) : vres :=
                          match es with
                          | [] => VRet false s
                          | e :: es' => match visit fuel' g (e_dest e) s with
                                        | VRet false s' => go es' s'
                                        | r => r
                                        end
                          end) (n_edges nd) s1 in
              match r with
              | VRet false s2 =>
                  (* graph.rs 396-401 *)
                  VRet false (mk_vstate (marked s2)
                                        (filter (fun m => negb (Nat.eqb m n)) (stack s2))
                                        (done s2 ++ [n]) (in_cycle s2) (breakers s2))
              | r => r
              end
          end
    end
  end.

(** graph.rs 442-456: visit all keys *)
Fixpoint visit_all (fuel : nat) (g : nodes) (ks : list nat) (s : vstate) : vres :=
  match ks with
  | [] => VRet false s
  | k :: ks' => match visit fuel g k s with
                | VRet false s' => visit_all fuel g ks' s'
                | r => r
                end
  end.

Definition vstate0 := mk_vstate [] [] [] [] [].

(** graph.rs 460-465 *)
Definition clear_edges (n : node) : node :=
  mk_node (n_proc n) (n_inputs n) (n_outputs n) (n_cfg n) [] (n_dropped n) (n_connected n) (n_breaker n).

Definition clear_breakers (g : nodes) (bs : list nat) : nodes :=
  fold_left (fun g b => update g b clear_edges) bs g.

Inductive ores :=
| OFuel
| OPanic
| ORet (g : nodes) (ordered : list nat) (cyc : list nat).

(** number of occupied slots *)
Definition live_count (g : nodes) : nat := length (keys g).

(** graph.rs 429-479, the [loop].  [vfuel] bounds the depth of the recursion of
    [visit], [fuel] the number of iterations; both are shown sufficient. *)
Fixpoint order_loop (fuel vfuel : nat) (g : nodes) : ores :=
  match fuel with
  | 0 => OFuel
  | S fuel' =>
      match visit_all vfuel g (keys g) vstate0 with
      | VFuel => OFuel
      | VPanic => OPanic
      | VRet true s => order_loop fuel' vfuel (clear_breakers g (breakers s))
      | VRet false s =>
          ORet g (rev (filter (fun o => negb (mem o (in_cycle s))) (done s))) (in_cycle s)
      end
  end.

(** graph.rs 418-487, [order_nodes] *)
Definition order_nodes (g : nodes) : ores :=
  order_loop (S (live_count g)) (S (S (live_count g))) g.

(** ** Graph mutations (control messages) *)

(** graph.rs 124-141: nodes and current ordering *)
Record graph := mk_graph { g_nodes : nodes; g_ordered : list nat }.

(** graph.rs 153-164 and node_collection.rs 12-18 *)
Definition graph_new : graph := mk_graph (repeat None 64) [].

(** graph.rs 228-231 and node_collection.rs 22-25 *)
Definition is_active (g : graph) : bool :=
  match get (g_nodes g) 0 with Some _ => true | None => false end.

(** graph.rs 233-267, [add_node] *)
Definition add_node (E : env P Q CFG) (g : graph) (id : nat) (p : P) (ins outs : nat) (cfg : CFG) : graph :=
  mk_graph
    (insert (g_nodes g) id
       (mk_node p (repeat (silence E) ins) (repeat (silence E) outs) cfg [] false false false))
    (g_ordered g ++ [id]).

(** graph.rs 269-280, [add_edge]; [None] = panic (unknown source) *)
Definition add_edge (g : graph) (src out dst : nat) (port : option nat) : option graph :=
  match get (g_nodes g) src with
  | None => None
  | Some _ =>
      Some (mk_graph
        (update (g_nodes g) src (fun n =>
           mk_node (n_proc n) (n_inputs n) (n_outputs n) (n_cfg n)
                   (n_edges n ++ [mk_edge out dst port]) (n_dropped n) (n_connected n) (n_breaker n)))
        [])
  end.

(** graph.rs 286-288 *)
Definition keep_edge (out dst : nat) (port : option nat) (e : edge) : bool :=
  negb (Nat.eqb (e_dest e) dst) || negb (Nat.eqb (e_self e) out) || negb (port_eqb (e_port e) port).

(** graph.rs 282-291, [remove_edge] *)
Definition remove_edge (g : graph) (src out dst : nat) (port : option nat) : option graph :=
  match get (g_nodes g) src with
  | None => None
  | Some _ =>
      Some (mk_graph
        (update (g_nodes g) src (fun n =>
           mk_node (n_proc n) (n_inputs n) (n_outputs n) (n_cfg n)
                   (filter (keep_edge out dst port) (n_edges n)) (n_dropped n) (n_connected n) (n_breaker n)))
        [])
  end.

(** graph.rs 293-300, [mark_control_handle_dropped]: a missing node is ignored,
    an index past the end of the vector panics *)
Definition mark_dropped (g : graph) (id : nat) : option graph :=
  if Nat.ltb id (length (g_nodes g)) then
    Some (mk_graph
      (update (g_nodes g) id (fun n =>
         mk_node (n_proc n) (n_inputs n) (n_outputs n) (n_cfg n) (n_edges n) true (n_connected n) (n_breaker n)))
      (g_ordered g))
  else None.

(** graph.rs 302-304, [mark_cycle_breaker] *)
Definition mark_breaker (g : graph) (id : nat) : option graph :=
  match get (g_nodes g) id with
  | None => None
  | Some _ =>
      Some (mk_graph
        (update (g_nodes g) id (fun n =>
           mk_node (n_proc n) (n_inputs n) (n_outputs n) (n_cfg n) (n_edges n) (n_dropped n) (n_connected n) true))
        (g_ordered g))
  end.

(** graph.rs 306-320, the three channel configuration setters, as one update of
    the configuration *)
Definition set_cfg (g : graph) (id : nat) (f : CFG -> CFG) : option graph :=
  match get (g_nodes g) id with
  | None => None
  | Some _ =>
      Some (mk_graph
        (update (g_nodes g) id (fun n =>
           mk_node (n_proc n) (n_inputs n) (n_outputs n) (f (n_cfg n)) (n_edges n) (n_dropped n) (n_connected n) (n_breaker n)))
        (g_ordered g))
  end.

(** graph.rs 322-324, [route_message]; [onmsg] is the processor's [onmessage]
    ([None] = it panics; there is no catch_unwind here) *)
Definition route_message (g : graph) (id : nat) (onmsg : P -> option P) : option graph :=
  match get (g_nodes g) id with
  | None => None
  | Some n =>
      match onmsg (n_proc n) with
      | None => None
      | Some p =>
          Some (mk_graph
            (update (g_nodes g) id (fun n =>
               mk_node p (n_inputs n) (n_outputs n) (n_cfg n) (n_edges n) (n_dropped n) (n_connected n) (n_breaker n)))
            (g_ordered g))
      end
  end.

(** ** Rendering a quantum *)

(** graph.rs 87-115, [can_free] *)
Definition can_free (E : env P Q CFG) (n : node) (tail : bool) : bool :=
  if negb (n_dropped n) then false
  else if (if negb (n_connected n)
           then (if negb tail then true
                 else match n_edges n with [] => true | _ => false end)
           else false) then true
  else if negb (side_effects E (n_proc n)) && (match n_edges n with [] => true | _ => false end) then true
  else false.

(** replace element [i]; [None] if out of bounds (index panic) *)
Fixpoint list_upd {A} (l : list A) (i : nat) (f : A -> A) : option (list A) :=
  match l, i with
  | [], _ => None
  | x :: l', 0 => Some (f x :: l')
  | x :: l', S i' => match list_upd l' i' f with Some r => Some (x :: r) | None => None end
  end.

(** graph.rs 528-535: push one output signal along one edge.  [self] is the
    currently (mutably) borrowed node: an edge to it would be a double borrow
    panic. *)
Definition push_edge (E : env P Q CFG) (self : nat) (outs : list Q) (g : nodes) (e : edge) : option nodes :=
  match e_port e with
  | None => Some g          (* graph.rs 527: hidden port *)
  | Some port =>
      if Nat.eqb (e_dest e) self then None else
      match get g (e_dest e), nth_error outs (e_self e) with
      | Some d, Some signal =>
          match list_upd (n_inputs d) port (fun q => qadd E q signal (n_cfg d)) with
          | Some ins => Some (set_slot g (e_dest e)
                          (Some (mk_node (n_proc d) ins (n_outputs d) (n_cfg d) (n_edges d)
                                         (n_dropped d) true (n_breaker d))))
          | None => None
          end
      | _, _ => None
      end
  end.

Fixpoint push_edges (E : env P Q CFG) (self : nat) (outs : list Q) (g : nodes) (es : list edge) : option nodes :=
  match es with
  | [] => Some g
  | e :: es' => match push_edge E self outs g e with
                | Some g' => push_edges E self outs g' es'
                | None => None
                end
  end.

(** graph.rs 566-573: remove all edges to a removed node *)
Definition strip_edges (id : nat) (g : nodes) : nodes :=
  map (option_map (fun n : node =>
    mk_node (n_proc n) (n_inputs n) (n_outputs n) (n_cfg n)
            (filter (fun e => negb (Nat.eqb (e_dest e) id)) (n_edges n))
            (n_dropped n) (n_connected n) (n_breaker n))) g.

(** What happened to one node in a quantum; a ghost record for the theorems. *)
Record step_log := mk_log {
  l_id : nat;
  l_inputs : list Q;              (* inputs handed to the processor *)
  l_view : nat -> option (list Q);(* outputs readable as AudioParams *)
  l_proc : P;                     (* processor state before *)
  l_outs0 : list Q;               (* output buffers before *)
  l_result : option (P * list Q * bool);
  l_edges : list edge;            (* edges along which the outputs were pushed *)
  l_freed : bool
}.

(** processor.rs 227-229: what [AudioParamValues::get] can read while [self] is
    being processed *)
Definition view (g : nodes) (self : nat) (i : nat) : option (list Q) :=
  if Nat.eqb i self then None else
  match get g i with Some n => Some (n_outputs n) | None => None end.

(** graph.rs 500-575, body of the loop for one node; [None] = panic of the
    render thread *)
Definition render_node (E : env P Q CFG) (frame : nat) (g : nodes) (id : nat)
  : option (nodes * step_log) :=
  match get g id with
  | None => None
  | Some n =>
      let res := process E (n_proc n) (n_inputs n) (n_outputs n) (view g id) frame in
      (* graph.rs 507-521 *)
      let '(n1, success, tail) :=
        match res with
        | Some (p', outs', tail) =>
            (mk_node p' (n_inputs n) outs' (n_cfg n) (n_edges n) (n_dropped n) (n_connected n) (n_breaker n),
             true, tail)
        | None => (clear_edges n, false, false)
        end in
      let g1 := set_slot g id (Some n1) in
      (* graph.rs 524-535 *)
      match push_edges E id (n_outputs n1) g1 (n_edges n1) with
      | None => None
      | Some g2 =>
          (* graph.rs 537 *)
          let free := negb success || can_free E n1 tail in
          let log := mk_log id (n_inputs n) (view g id) (n_proc n) (n_outputs n) res (n_edges n1) free in
          if free then
            (* graph.rs 553-574 *)
            Some (strip_edges id (remove g2 id), log)
          else
            (* graph.rs 540-548 *)
            Some (set_slot g2 id
                    (Some (mk_node (n_proc n1) (repeat (silence E) (length (n_inputs n1))) (n_outputs n1)
                                   (n_cfg n1) (n_edges n1) (n_dropped n1) false (n_breaker n1))), log)
      end
  end.

Fixpoint render_nodes (E : env P Q CFG) (frame : nat) (g : nodes) (ids : list nat)
  : option (nodes * list step_log) :=
  match ids with
  | [] => Some (g, [])
  | id :: ids' =>
      match render_node E frame g id with
      | None => None
      | Some (g', lg) =>
          match render_nodes E frame g' ids' with
          | None => None
          | Some (g'', lgs) => Some (g'', lg :: lgs)
          end
      end
  end.

(** graph.rs 578-587 *)
Definition prune (g : nodes) (ordered : list nat) : list nat :=
  filter (fun i => match get g i with Some _ => true | None => false end) ordered.

(** Result of a quantum: new graph, ghost log, output of the destination node.
    The reclaimed ids (graph.rs 556-557) are the freed entries of the log. *)
Definition render (E : env P Q CFG) (frame : nat) (g : graph)
  : option (graph * list step_log * Q) :=
  let ordered_graph :=
    match g_ordered g with
    | [] => match order_nodes (g_nodes g) with
            | ORet g' o _ => Some (g', o)
            | _ => None
            end
    | _ => Some (g_nodes g, g_ordered g)
    end in
  match ordered_graph with
  | None => None
  | Some (gn, ord) =>
      match render_nodes E frame gn ord with
      | None => None
      | Some (gn', lgs) =>
          (* graph.rs 590 *)
          match get gn' 0 with
          | Some d => match n_outputs d with
                      | out :: _ => Some (mk_graph gn' (prune gn' ord), lgs, out)
                      | [] => None
                      end
          | None => None
          end
      end
  end.

(** ids pushed on the reclaim channel during a quantum, graph.rs 556-557 *)
Definition reclaimed (lgs : list step_log) : list nat :=
  map l_id (filter l_freed lgs).

End Graph.

Arguments nodes : clear implicits.
Arguments graph : clear implicits.
Arguments step_log : clear implicits.
