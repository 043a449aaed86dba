(** Graph notions used to state the properties of the audio graph, independent
    of the traversal algorithm. *)
From Coq Require Import List Arith Bool.
From Verif Require Import Graph_Model.
Import ListNotations.

(** [chain R a l b]: a walk from [a] to [b] with intermediate stops [l]. *)
Fixpoint chain {A} (R : A -> A -> Prop) (a : A) (l : list A) (b : A) : Prop :=
  match l with
  | [] => R a b
  | x :: l' => R a x /\ chain R x l' b
  end.

(** [c] lists the nodes of a closed walk. *)
Definition is_cycle {A} (R : A -> A -> Prop) (c : list A) : Prop :=
  match c with [] => False | a :: l => chain R a l a end.

(** [a] occurs before [b] in [l]. *)
Definition before {A} (l : list A) (a b : A) : Prop :=
  exists l1 l2 l3, l = l1 ++ a :: l2 ++ b :: l3.

Section Spec.
Context {P Q CFG : Type}.
Notation nodes := (nodes P Q CFG).

(** the node exists in the render thread *)
Definition live (g : nodes) (i : nat) : Prop := exists n, get g i = Some n.

(** there is a connection (audio or AudioParam) from [a] to [b] *)
Definition connected (g : nodes) (a b : nat) : Prop :=
  exists n e, get g a = Some n /\ In e (n_edges n) /\ e_dest e = b.

(** [i] can break cycles (the writing half of a DelayNode) *)
Definition breaker (g : nodes) (i : nat) : Prop :=
  exists n, get g i = Some n /\ n_breaker n = true.

(** all connections lead to existing nodes *)
Definition closed (g : nodes) : Prop :=
  forall a b, connected g a b -> live g b.

(** node [i] lies on a cycle without any delay *)
Definition on_delay_free_cycle (g : nodes) (i : nat) : Prop :=
  exists c, is_cycle (connected g) c /\ In i c /\ forall x, In x c -> ~ breaker g x.

(** [i] lies on a delay-free cycle all of whose nodes are missing from [rendered] *)
Definition on_muted_cycle (g : nodes) (rendered : list nat) (i : nat) : Prop :=
  exists c, is_cycle (connected g) c /\ In i c /\ forall x, In x c -> ~ breaker g x /\ ~ In x rendered.

Definition on_cycle (g : nodes) (i : nat) : Prop :=
  exists c, is_cycle (connected g) c /\ In i c.

(** [g'] is [g] except that the outgoing connections of some delay writers that
    lie on a cycle were cut *)
Definition cut_at_breakers (g g' : nodes) : Prop :=
  forall i, get g' i = get g i \/
            exists n, get g i = Some n /\ n_breaker n = true /\ on_cycle g i /\
                      get g' i = Some (clear_edges n).

(** [ord] is a rendering order for [g]: every rendered node exists, is rendered
    once, and renders after the rendered nodes that feed it *)
Definition rendering_order (g : nodes) (ord : list nat) : Prop :=
  NoDup ord /\
  (forall i, In i ord -> live g i) /\
  (forall a b, In a ord -> In b ord -> connected g a b -> before ord a b).

End Spec.

(** ** Rendering of a quantum *)
Section RenderSpec.
Context {P Q CFG : Type}.
Notation nodes := (nodes P Q CFG).
Notation step_log := (step_log P Q).

(** The signals that the rendered nodes [lgs] send, in this quantum, into input
    port [port] of node [id]: the current outputs along the existing
    connections, in rendering order. *)
Definition signals_of (outs : list Q) (es : list edge) (id port : nat) : list Q :=
  flat_map (fun e =>
    if Nat.eqb (e_dest e) id && port_eqb (e_port e) (Some port)
    then match nth_error outs (e_self e) with Some q => [q] | None => [] end
    else []) es.

Definition signals_into (lgs : list step_log) (id port : nat) : list Q :=
  flat_map (fun lg => match l_result lg with
                      | Some (_, outs, _) => signals_of outs (l_edges lg) id port
                      | None => []
                      end) lgs.

(** Their mix, starting from silence, under the channel configuration of the
    receiving node. *)
Definition mixed (E : env P Q CFG) (cfg : CFG) (sigs : list Q) : Q :=
  fold_left (fun acc s => qadd E acc s cfg) sigs (silence E).

(** Some rendered node sends a signal to [id] in this quantum. *)
Definition fed (lgs : list step_log) (id : nat) : Prop :=
  exists lg e p, In lg lgs /\ l_result lg <> None /\ In e (l_edges lg) /\ e_dest e = id /\ e_port e = Some p.

(** The life-cycle rule of the API documentation: a node disappears only when
    its processor crashed, or when the user holds no handle to it any more and
    it cannot be heard: either nothing feeds it and it has no tail (or no
    listener), or nobody listens and it has no side effects. *)
Definition may_disappear (E : env P Q CFG) (g : nodes) (lgs : list step_log) (lg : step_log) : Prop :=
  match l_result lg with
  | None => True
  | Some (p', _, tail) =>
      (exists n, get g (l_id lg) = Some n /\ n_dropped n = true) /\
      ((~ fed lgs (l_id lg) /\ (tail = false \/ l_edges lg = [])) \/
       (side_effects E p' = false /\ l_edges lg = []))
  end.

(** buffers of node [i] as it enters a quantum: nothing pending on its inputs *)
Definition quiet (E : env P Q CFG) (g : nodes) (i : nat) : Prop :=
  forall n, get g i = Some n ->
    n_inputs n = repeat (silence E) (length (n_inputs n)) /\ n_connected n = false.

(** every connection uses existing ports *)
Definition ports_ok (g : nodes) : Prop :=
  forall a n e, get g a = Some n -> In e (n_edges n) ->
    e_self e < length (n_outputs n) /\
    forall p, e_port e = Some p -> exists d, get g (e_dest e) = Some d /\ p < length (n_inputs d).

(** processors write into the output buffers they are given: the number of
    outputs does not change *)
Definition env_ok (E : env P Q CFG) : Prop :=
  forall p ins outs v f p' outs' t,
    process E p ins outs v f = Some (p', outs', t) -> length outs' = length outs.

End RenderSpec.
