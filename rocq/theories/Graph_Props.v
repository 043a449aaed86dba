(** * Properties C01 - C05: ordering, routing and life cycle of the audio graph

    All theorems quantify over every history of control messages and quanta that
    the control side can produce ([legal_run], Graph_TraceSpec.v), over every
    behaviour of the processors and of sample mixing ([E]), with processors that
    keep their number of outputs ([env_ok]). *)
From Coq Require Import List Arith Bool Lia Permutation.
From Verif Require Import Graph_Model Graph_Spec Graph_OrderProofs Graph_RenderProofs
  Graph_TraceModel Graph_TraceSpec Graph_TraceProofs Graph_MainProofs.
Import ListNotations.

(** ** A concrete environment for the examples

    Processors are numbers: 99 panics, any other [p] outputs [p] plus the sum of
    its inputs; sources ([p > 0]) have an endless tail. *)
Definition sumn (l : list nat) : nat := fold_right Nat.add 0 l.
Definition E1 : env nat nat unit := {|
  silence := 0;
  qadd := fun a b _ => a + b;
  process := fun p ins outs _ _ =>
    if Nat.eqb p 99 then None else Some (p, map (fun _ => p + sumn ins) outs, Nat.leb 1 p);
  side_effects := fun _ => false
|}.

Lemma E1_ok : env_ok E1.
Proof.
  intros p ins outs v f p' outs' t. cbn. destruct (Nat.eqb p 99); [discriminate|].
  intros H. injection H as <- <- <-. apply map_length.
Qed.

(** executable check of a connection, for the examples *)
Lemma connected_check (g : nodes nat nat unit) a b :
  match get g a with Some n => existsb (fun e => Nat.eqb (e_dest e) b) (n_edges n) | None => false end = true ->
  connected g a b.
Proof.
  destruct (get g a) as [n|] eqn:En; [|discriminate]. intros H. apply existsb_exists in H.
  destruct H as (e & He & Hd). apply Nat.eqb_eq in Hd. exists n, e. tauto.
Qed.

Ltac legal_step :=
  match goal with
  | |- True => exact I
  | |- along _ _ _ _ => hnf
  | |- ~ live _ _ => let H := fresh in intros [? H]; vm_compute in H; discriminate
  | |- live _ _ => eexists; vm_compute; reflexivity
  | |- legal _ _ _ /\ _ => split; [cbn [legal]|intros ? ? ?H; vm_compute in H; injection H as <- <-]
  | |- _ /\ _ => split
  | |- forall p, _ = Some p -> _ => let H := fresh in intros ? H; first [discriminate|injection H as <-]; cbn; lia
  | |- exists n, get _ _ = Some n /\ _ => eexists; split; [vm_compute; reflexivity|]
  | |- forall _ _, _ <> None => intros ? ?; vm_compute; discriminate
  | |- _ <> _ => vm_compute; discriminate
  | |- _ = _ => vm_compute; reflexivity
  | |- _ < _ => vm_compute; lia
  end.
Ltac legal_tac := unfold legal_run; repeat legal_step.

(** destination 0, source 1 (constant 5), gain-like node 2 between them *)
Definition ops_chain : list (gop nat unit) :=
  [ OpAdd 0 0 1 1 tt; OpAdd 1 5 0 1 tt; OpAdd 2 0 1 1 tt;
    OpConnect 1 0 2 (Some 0); OpConnect 2 0 0 (Some 0) ].

Example chain_legal : legal_run E1 graph_new (ops_chain ++ [OpRender 0]).
Proof. legal_tac. Qed.

(** ** The render thread never panics *)
Theorem C05_render_thread_never_panics :
  forall P Q CFG (E : env P Q CFG) ops, env_ok E -> legal_run E graph_new ops ->
  exists g ls, grun E ops graph_new = Some (g, ls).
Proof. intros. eapply main_no_panic; eassumption. Qed.
Print Assumptions C05_render_thread_never_panics.

(** ** C01 *)

(** computing the order terminates and does not panic, for every graph whose
    connections lead to existing nodes *)
Theorem C01_ordering_terminates :
  forall P Q CFG (ns : nodes P Q CFG), closed ns -> exists ns' ord cyc, order_nodes ns = ORet ns' ord cyc.
Proof. intros. apply render_total_order. assumption. Qed.
Print Assumptions C01_ordering_terminates.

(** Every node is rendered at most once and after all rendered nodes that are
    connected to it; the only exception are the outgoing connections of delay
    writers that lie on a cycle (these carry the signal of the previous quanta). *)
Theorem C01_rendering_order :
  forall P Q CFG (E : env P Q CFG) ops g ls frame g' lgs out, env_ok E ->
  legal_run E graph_new ops -> grun E ops graph_new = Some (g, ls) ->
  render E frame g = Some (g', lgs, out) ->
  NoDup (map l_id lgs) /\
  (forall i, In i (map l_id lgs) -> live (g_nodes g) i) /\
  (forall a b, In a (map l_id lgs) -> In b (map l_id lgs) -> connected (g_nodes g) a b ->
     ~ (breaker (g_nodes g) a /\ on_cycle (g_nodes g) a) -> before (map l_id lgs) a b).
Proof. intros until out. intros EOK. apply main_order. exact EOK. Qed.
Print Assumptions C01_rendering_order.

(** A node that renders after [la] (such as the node owning the AudioParam [la])
    reads the values [la] computed in this same quantum. *)
Theorem C01_params_are_current :
  forall P Q CFG (E : env P Q CFG) ops g ls frame g' lgs out, env_ok E ->
  legal_run E graph_new ops -> grun E ops graph_new = Some (g, ls) ->
  render E frame g = Some (g', lgs, out) ->
  forall la lb p' outs t, In la lgs -> In lb lgs -> before (map l_id lgs) (l_id la) (l_id lb) ->
    l_result la = Some (p', outs, t) -> l_freed la = false ->
    l_view lb (l_id la) = Some outs.
Proof. intros until out. intros EOK. apply main_view. exact EOK. Qed.
Print Assumptions C01_params_are_current.

Example C01_example : exists g ls g' lgs,
  grun E1 ops_chain graph_new = Some (g, ls) /\ render E1 0 g = Some (g', lgs, 5) /\
  map l_id lgs = [1; 2; 0] /\ connected (g_nodes g) 1 2 /\ connected (g_nodes g) 2 0.
Proof.
  eexists _, _, _, _. split; [vm_compute; reflexivity|]. split; [vm_compute; reflexivity|].
  split; [reflexivity|]. split; (eexists _, _; split; [reflexivity|]; split; [now left|reflexivity]).
Qed.

(** ** C02 *)

(** only nodes on delay-free cycles are muted, and such a cycle is muted as a whole *)
Theorem C02_only_cycles_are_muted :
  forall P Q CFG (E : env P Q CFG) ops g ls frame g' lgs out, env_ok E ->
  legal_run E graph_new ops -> registrations_in_time ops ->
  grun E ops graph_new = Some (g, ls) ->
  render E frame g = Some (g', lgs, out) ->
  forall i, live (g_nodes g) i -> In i (map l_id lgs) \/ on_muted_cycle (g_nodes g) (map l_id lgs) i.
Proof. intros until out. intros EOK. apply main_complete. exact EOK. Qed.
Print Assumptions C02_only_cycles_are_muted.

(** if every cycle passes through a delay, every node is rendered exactly once *)
Theorem C02_delays_legalise_cycles :
  forall P Q CFG (E : env P Q CFG) ops g ls frame g' lgs out, env_ok E ->
  legal_run E graph_new ops -> registrations_in_time ops ->
  grun E ops graph_new = Some (g, ls) ->
  (forall c, is_cycle (connected (g_nodes g)) c -> exists x, In x c /\ breaker (g_nodes g) x) ->
  render E frame g = Some (g', lgs, out) ->
  Permutation (map l_id lgs) (keys (g_nodes g)).
Proof. intros until out. intros EOK. apply main_all_rendered. exact EOK. Qed.
Print Assumptions C02_delays_legalise_cycles.

(** every delay-free cycle is interrupted: at least one of its nodes is muted *)
Theorem C02_every_cycle_interrupted :
  forall P Q CFG (E : env P Q CFG) ops g ls frame g' lgs out, env_ok E ->
  legal_run E graph_new ops -> grun E ops graph_new = Some (g, ls) ->
  render E frame g = Some (g', lgs, out) ->
  forall c, is_cycle (connected (g_nodes g)) c -> (forall x, In x c -> ~ breaker (g_nodes g) x) ->
  exists x, In x c /\ ~ In x (map l_id lgs).
Proof. intros until out. intros EOK. apply main_cycle_muted. exact EOK. Qed.
Print Assumptions C02_every_cycle_interrupted.

(** cycle 1 -> 2 -> 1 through the delay writer 2; the gain 3 hangs off the cycle *)
Definition ops_delay_cycle : list (gop nat unit) :=
  [ OpAdd 0 0 1 1 tt; OpAdd 1 5 1 1 tt; OpAdd 2 0 1 1 tt; OpBreaker 2; OpAdd 3 0 1 1 tt;
    OpConnect 1 0 2 (Some 0); OpConnect 2 0 1 (Some 0); OpConnect 1 0 3 (Some 0); OpConnect 3 0 0 (Some 0) ].

Example C02_example_hyps :
  legal_run E1 graph_new (ops_delay_cycle ++ [OpRender 0]) /\
  registrations_in_time (ops_delay_cycle ++ [OpRender 0]).
Proof.
  split; [legal_tac|].
  unfold registrations_in_time. cbn. auto.
Qed.

Example C02_example : exists g ls g' lgs,
  grun E1 ops_delay_cycle graph_new = Some (g, ls) /\ render E1 0 g = Some (g', lgs, 5) /\
  map l_id lgs = [1; 3; 2; 0] /\ on_cycle (g_nodes g) 2 /\ breaker (g_nodes g) 2.
Proof.
  eexists _, _, _, _. split; [vm_compute; reflexivity|]. split; [vm_compute; reflexivity|].
  split; [reflexivity|]. split.
  - exists [2; 1]. split; [|now left]. cbn. split.
    + eexists _, _. split; [reflexivity|]. split; [now left|reflexivity].
    + eexists _, _. split; [reflexivity|]. split; [now left|reflexivity].
  - eexists. split; reflexivity.
Qed.

(** Finding: the documented rule that all nodes of a delay-free cycle are muted
    does not hold.  1 -> 2 -> 3 -> 1 and 2 -> 4 -> 3: node 4 lies on the delay-free
    cycle 4 -> 3 -> 1 -> 2 -> 4 and is rendered. *)
Definition ops_theta : list (gop nat unit) :=
  [ OpAdd 0 0 1 1 tt; OpAdd 1 0 1 1 tt; OpAdd 2 0 1 1 tt; OpAdd 3 0 1 1 tt; OpAdd 4 0 1 1 tt;
    OpConnect 1 0 2 (Some 0); OpConnect 2 0 3 (Some 0); OpConnect 3 0 1 (Some 0);
    OpConnect 2 0 4 (Some 0); OpConnect 4 0 3 (Some 0) ].

Theorem C02_all_cycle_nodes_muted_refuted :
  exists ops g ls g' lgs out i,
    legal_run E1 graph_new ops /\ grun E1 ops graph_new = Some (g, ls) /\
    render E1 0 g = Some (g', lgs, out) /\
    on_delay_free_cycle (g_nodes g) i /\ In i (map l_id lgs).
Proof.
  exists ops_theta. eexists _, _, _, _, _, 4.
  split; [legal_tac|]. split; [vm_compute; reflexivity|]. split; [vm_compute; reflexivity|].
  split; [|cbn; tauto].
  exists [4; 3; 1; 2]. split; [|split; [now left|]].
  - repeat split; apply connected_check; reflexivity.
  - intros x Hx (n & Hn & Hb). cbn in Hx.
    destruct Hx as [<-|[<-|[<-|[<-|[]]]]]; vm_compute in Hn; injection Hn as <-; discriminate Hb.
Qed.
Print Assumptions C02_all_cycle_nodes_muted_refuted.

(** ** C03 *)

(** Partial: unless a node is registered after the last (dis)connection before a
    quantum, the next quantum processes every live node that is not on a
    delay-free cycle, and sends its output along exactly its current
    connections.  Missing: registrations after the last (dis)connection, for which the
    claim is false (next theorem). *)
Theorem C03_topology_changes_effective_partial :
  forall P Q CFG (E : env P Q CFG) ops g ls frame g' lgs out, env_ok E ->
  legal_run E graph_new ops -> registrations_in_time ops ->
  grun E ops graph_new = Some (g, ls) ->
  render E frame g = Some (g', lgs, out) ->
  (forall i, live (g_nodes g) i -> ~ on_delay_free_cycle (g_nodes g) i -> In i (map l_id lgs)) /\
  (forall lg n, In lg lgs -> get (g_nodes g) (l_id lg) = Some n -> l_result lg <> None ->
     ~ (n_breaker n = true /\ on_cycle (g_nodes g) (l_id lg)) -> l_edges lg = n_edges n).
Proof.
  intros until out. intros EOK HL HA Hr Hren. split.
  - intros i Hi Hn. destruct (main_complete E EOK _ _ _ _ _ _ _ HL HA Hr Hren i Hi) as [H|H]; [exact H|]. apply muted_delay_free in H. tauto.
  - eapply main_edges; eassumption.
Qed.
Print Assumptions C03_topology_changes_effective_partial.

(** Finding: registering a node after a connection, before the next quantum,
    makes the render thread process only the new node: the source 1 and the
    destination 0 are live, in no cycle, and not processed; the output is silence
    instead of 5. *)
Definition ops_lost_order : list (gop nat unit) :=
  [ OpAdd 0 0 1 1 tt; OpAdd 1 5 0 1 tt; OpConnect 1 0 0 (Some 0); OpAdd 2 0 1 1 tt ].

Theorem C03_topology_changes_effective_refuted :
  exists ops g ls g' lgs out i,
    legal_run E1 graph_new (ops ++ [OpRender 0]) /\ grun E1 ops graph_new = Some (g, ls) /\
    render E1 0 g = Some (g', lgs, out) /\
    live (g_nodes g) i /\ (forall j, ~ on_cycle (g_nodes g) j) /\ ~ In i (map l_id lgs).
Proof.
  exists ops_lost_order. eexists _, _, _, _, _, 1.
  split; [legal_tac|]. split; [vm_compute; reflexivity|]. split; [vm_compute; reflexivity|].
  split; [eexists; reflexivity|]. split.
  - intros j (c & Hc & Hj).
    (* every connection leads to node 0, which has none *)
    assert (Hcon' : forall a b, connected (g_nodes (add_node E1 (mk_graph
       ([Some (mk_node 0 [0] [0] tt [] false false false);
        Some (mk_node 5 [] [0] tt [mk_edge 0 0 (Some 0)] false false false)] ++ repeat None 62) []) 2 0 1 1 tt)) a b -> a = 1 /\ b = 0).
    { intros a b (n & e & En & He & Hd). cbn [add_node g_nodes] in En. rewrite get_insert in En.
      destruct (Nat.eqb 2 a); [injection En as <-; destruct He|].
      rewrite get_app_None in En. destruct a as [|[|[|a]]]; cbn in En; try discriminate;
        injection En as <-; cbn in He; try tauto. destruct He as [<-|[]]. cbn in Hd. split; congruence. }
    destruct c as [|a l]; [destruct Hc|]. cbn in Hc.
    assert (Hfin : forall l a b, chain (connected (g_nodes (add_node E1 (mk_graph
       ([Some (mk_node 0 [0] [0] tt [] false false false);
        Some (mk_node 5 [] [0] tt [mk_edge 0 0 (Some 0)] false false false)] ++ repeat None 62) []) 2 0 1 1 tt))) a l b -> a = 1 /\ b = 0).
    { induction l0 as [|x l0 IH]; cbn [chain]; intros a0 b0.
      - apply Hcon'.
      - intros [H1 H2]. apply Hcon' in H1. apply IH in H2. split; tauto. }
    apply Hfin in Hc. destruct Hc; congruence.
  - cbn. intros [H|[]]. discriminate.
Qed.
Print Assumptions C03_topology_changes_effective_refuted.

Example C03_lost_output : exists g ls g' lgs,
  grun E1 ops_lost_order graph_new = Some (g, ls) /\ render E1 0 g = Some (g', lgs, 0) /\ map l_id lgs = [2].
Proof. eexists _, _, _, _. split; [vm_compute; reflexivity|]. split; vm_compute; reflexivity. Qed.

(** ** C04 *)

(** In a history whose quanta were all rendered without a delay-free cycle, each
    input port of each rendered node carries exactly the mix of the outputs, of
    this quantum, of the rendered nodes connected to that port. *)
Theorem C04_inputs_are_the_mix_partial :
  forall P Q CFG (E : env P Q CFG) ops g ls frame g' lgs out, env_ok E ->
  legal_run E graph_new ops -> registrations_in_time ops ->
  along E no_cycle_when_rendering graph_new ops ->
  grun E ops graph_new = Some (g, ls) ->
  render E frame g = Some (g', lgs, out) ->
  forall lg, In lg lgs -> exists n, get (g_nodes g) (l_id lg) = Some n /\
    l_inputs lg = map (fun p => mixed E (n_cfg n) (signals_into lgs (l_id lg) p)) (seq 0 (length (n_inputs n))) /\
    l_result lg = process E (n_proc n) (l_inputs lg) (n_outputs n) (l_view lg) frame.
Proof. intros until out. intros EOK. apply main_inputs. exact EOK. Qed.
Print Assumptions C04_inputs_are_the_mix_partial.

Example C04_example : exists g ls g' lgs lg,
  grun E1 ops_chain graph_new = Some (g, ls) /\ render E1 0 g = Some (g', lgs, 5) /\
  In lg lgs /\ l_id lg = 2 /\ l_inputs lg = [5] /\ signals_into lgs 2 0 = [5].
Proof.
  eexists _, _, _, _, _. split; [vm_compute; reflexivity|]. split; [vm_compute; reflexivity|].
  split; [right; left; reflexivity|]. repeat split.
Qed.

(** Finding: the inputs of muted nodes keep accumulating.  1 <-> 2 form a
    delay-free cycle fed by the source 3; after two quanta the cycle is opened and
    node 1 sees 3 times the source. *)
Definition ops_stale : list (gop nat unit) :=
  [ OpAdd 0 0 1 1 tt; OpAdd 1 0 1 1 tt; OpAdd 2 0 1 1 tt; OpAdd 3 5 0 1 tt;
    OpConnect 1 0 2 (Some 0); OpConnect 2 0 1 (Some 0); OpConnect 3 0 1 (Some 0); OpConnect 1 0 0 (Some 0);
    OpRender 0; OpRender 1; OpDisconnect 2 0 1 (Some 0) ].

Theorem C04_nothing_stale_refuted :
  exists ops g ls g' lgs out lg n,
    legal_run E1 graph_new (ops ++ [OpRender 2]) /\ grun E1 ops graph_new = Some (g, ls) /\
    render E1 2 g = Some (g', lgs, out) /\ In lg lgs /\ get (g_nodes g) (l_id lg) = Some n /\
    signals_into lgs (l_id lg) 0 = [5] /\ l_inputs lg = [15] /\ out = 15.
Proof.
  exists ops_stale. eexists _, _, _, _, _, _, _.
  split; [legal_tac|]. split; [vm_compute; reflexivity|]. split; [vm_compute; reflexivity|].
  split; [right; left; reflexivity|]. split; [vm_compute; reflexivity|]. repeat split.
Qed.
Print Assumptions C04_nothing_stale_refuted.

(** ** C05 *)

(** a node disappears only if the documented rule allows it *)
Theorem C05_removed_only_if_unneeded :
  forall P Q CFG (E : env P Q CFG) ops g ls frame g' lgs out, env_ok E ->
  legal_run E graph_new ops -> grun E ops graph_new = Some (g, ls) ->
  render E frame g = Some (g', lgs, out) ->
  forall lg, In lg lgs -> l_freed lg = true -> may_disappear E (g_nodes g) lgs lg.
Proof. intros until out. intros EOK. apply main_freed. exact EOK. Qed.
Print Assumptions C05_removed_only_if_unneeded.

(** and, as long as no node was muted, it does disappear when the rule allows it *)
Theorem C05_removed_iff_unneeded :
  forall P Q CFG (E : env P Q CFG) ops g ls frame g' lgs out, env_ok E ->
  legal_run E graph_new ops -> registrations_in_time ops ->
  along E no_cycle_when_rendering graph_new ops ->
  grun E ops graph_new = Some (g, ls) ->
  render E frame g = Some (g', lgs, out) ->
  forall lg, In lg lgs -> (may_disappear E (g_nodes g) lgs lg <-> l_freed lg = true).
Proof. intros until out. intros EOK. apply main_freed_iff. exact EOK. Qed.
Print Assumptions C05_removed_iff_unneeded.

(** a node whose control handle is alive is never removed unless it panics; this
    covers the destination and the listener, whose handles are never dropped *)
Theorem C05_handle_keeps_node_alive :
  forall P Q CFG (E : env P Q CFG) ops g ls frame g' lgs out, env_ok E ->
  legal_run E graph_new ops -> grun E ops graph_new = Some (g, ls) ->
  render E frame g = Some (g', lgs, out) ->
  forall lg, In lg lgs -> handle_alive (l_id lg) ops -> l_result lg <> None -> l_freed lg = false.
Proof. intros until out. intros EOK. apply main_handle. exact EOK. Qed.
Print Assumptions C05_handle_keeps_node_alive.

(** exactly the reclaimed nodes leave the graph *)
Theorem C05_only_reclaimed_nodes_leave :
  forall P Q CFG (E : env P Q CFG) ops g ls frame g' lgs out, env_ok E ->
  legal_run E graph_new ops -> grun E ops graph_new = Some (g, ls) ->
  render E frame g = Some (g', lgs, out) ->
  forall i, live (g_nodes g') i <-> live (g_nodes g) i /\ ~ In i (reclaimed lgs).
Proof. intros until out. intros EOK. apply main_live_after. exact EOK. Qed.
Print Assumptions C05_only_reclaimed_nodes_leave.

(** an identifier is given back exactly once per node that left the graph *)
Theorem C05_reclaimed_exactly_once :
  forall P Q CFG (E : env P Q CFG) ops g ls id, env_ok E ->
  legal_run E graph_new ops -> grun E ops graph_new = Some (g, ls) ->
  (live (g_nodes g) id -> adds id ops = S (reclaims id ls)) /\
  (~ live (g_nodes g) id -> adds id ops = reclaims id ls).
Proof. intros until id. intros EOK. apply main_reclaim_once. exact EOK. Qed.
Print Assumptions C05_reclaimed_exactly_once.

(** no connection to a removed node remains *)
Theorem C05_no_dangling_connections :
  forall P Q CFG (E : env P Q CFG) ops g ls, env_ok E ->
  legal_run E graph_new ops -> grun E ops graph_new = Some (g, ls) ->
  forall a b, connected (g_nodes g) a b -> live (g_nodes g) b.
Proof. intros until ls. intros EOK. apply main_closed. exact EOK. Qed.
Print Assumptions C05_no_dangling_connections.

(** the gain 2 disappears once its handle is dropped and its input disconnected;
    the destination keeps rendering *)
Definition ops_drop : list (gop nat unit) :=
  ops_chain ++ [ OpRender 0; OpDrop 2; OpRender 1; OpDisconnect 1 0 2 (Some 0) ].

Example C05_example_legal : legal_run E1 graph_new (ops_drop ++ [OpRender 2]).
Proof. legal_tac. Qed.

Example C05_example : exists g ls g' lgs,
  grun E1 ops_drop graph_new = Some (g, ls) /\ reclaims 2 ls = 0 /\
  render E1 2 g = Some (g', lgs, 0) /\ reclaimed lgs = [2].
Proof. eexists _, _, _, _. split; [vm_compute; reflexivity|]. repeat split; vm_compute; reflexivity. Qed.
