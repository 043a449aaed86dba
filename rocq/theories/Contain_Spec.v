(** What a node can have an influence on. *)
From Coq Require Import List Arith Bool.
From Verif Require Import Graph_Model.
Import ListNotations.

Section Contain.
Context {P Q CFG : Type}.
Variable E : env P Q CFG.
Variable D : nat -> bool.

(** everything connected to an output of a node of [D], an AudioParam included, is in [D] *)
Definition downstream_closed (ns : nodes P Q CFG) : Prop :=
  forall i n e, D i = true -> get ns i = Some n -> In e (n_edges n) -> D (e_dest e) = true.

Definition leads_outside (e : edge) : bool := negb (D (e_dest e)).

(** equal, apart from the connections into [D] *)
Definition same_node (n1 n2 : node P Q CFG) : Prop :=
  n_proc n1 = n_proc n2 /\ n_inputs n1 = n_inputs n2 /\ n_outputs n1 = n_outputs n2 /\ n_cfg n1 = n_cfg n2 /\
  filter leads_outside (n_edges n1) = filter leads_outside (n_edges n2) /\
  n_dropped n1 = n_dropped n2 /\ n_connected n1 = n_connected n2.
(** outside of [D], the two graphs have the same nodes *)
Definition same_nodes (ns1 ns2 : nodes P Q CFG) : Prop :=
  forall i, D i = false -> match get ns1 i, get ns2 i with Some n1, Some n2 => same_node n1 n2 | None, None => True | _, _ => False end.
(** and the same order *)
Definition same_outside (g1 g2 : graph P Q CFG) : Prop :=
  same_nodes (g_nodes g1) (g_nodes g2) /\
  filter (fun i => negb (D i)) (g_ordered g1) = filter (fun i => negb (D i)) (g_ordered g2).

(** the application holds the nodes outside of [D] *)
Definition held (ns : nodes P Q CFG) : Prop := forall i n, D i = false -> get ns i = Some n -> n_dropped n = false.

(** processors of the kind [K] do not read AudioParams that are in [D] *)
Definition do_not_read (K : P -> Prop) : Prop :=
  (forall p ins outs v1 v2 f, K p -> (forall j, D j = false -> v1 j = v2 j) -> process E p ins outs v1 f = process E p ins outs v2 f) /\
  (forall p ins outs v f p' outs' tail, K p -> process E p ins outs v f = Some (p', outs', tail) -> K p').
Definition processors_outside (K : P -> Prop) (ns : nodes P Q CFG) : Prop := forall i n, D i = false -> get ns i = Some n -> K (n_proc n).

(** what the nodes outside of [D] did in a quantum: node, inputs, processor before, processor after with its outputs (or its panic), in order *)
Definition doings (lgs : list (step_log P Q)) : list (nat * list Q * P * option (P * list Q * bool)) :=
  map (fun lg => (l_id lg, l_inputs lg, l_proc lg, l_result lg)) (filter (fun lg => negb (D (l_id lg))) lgs).
End Contain.

(** a node's processor is exchanged *)
Definition with_processor {P Q CFG} (g : graph P Q CFG) (x : nat) (p : P) : graph P Q CFG :=
  mk_graph (update (g_nodes g) x (fun n => mk_node p (n_inputs n) (n_outputs n) (n_cfg n) (n_edges n) (n_dropped n) (n_connected n) (n_breaker n))) (g_ordered g).
