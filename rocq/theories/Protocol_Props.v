(** * Properties C06 - C09: the protocol between control and render thread

    The theorems quantify over every interleaving of API calls (on any number of
    threads) and render-thread steps ([ops]), over every processor behaviour [E]
    and over every destination processor. *)
From Coq Require Import List Arith Bool Lia.
From Verif Require Import Graph_Model Graph_Spec Graph_TraceModel Graph_TraceSpec Graph_Props
  Protocol_Model Protocol_Spec Protocol_Proofs Protocol_InvProofs Protocol_ConnProofs Protocol_MagicProofs Protocol_PauseProofs.
Import ListNotations.

(** ** Environment and scripts for the examples *)

(** like [E1] of Graph_Props.v, without the panicking processor *)
Definition E2 : env nat nat unit := {|
  silence := 0;
  qadd := fun a b _ => a + b;
  process := fun p ins outs _ _ => Some (p, map (fun _ => p + sumn ins) outs, Nat.leb 1 p);
  side_effects := fun _ => false
|}.
Lemma E2_ok : env_ok E2.
Proof. intros p ins outs v f p' outs' t. cbn. intros H. injection H as <- <- <-. apply map_length. Qed.
Lemma E2_np : no_panics E2.
Proof. intros p ins outs v f. cbn. discriminate. Qed.

Notation sysn := (sys nat nat unit).
Notation opn := (op nat unit).

(** the steps of the library's constructors *)
Definition new_source (id v : nat) : list opn := [CAlloc; CRegister id v 0 1 tt; CResolve id].
(** a node with one AudioParam, e.g. GainNode: the node's id is allocated first *)
Definition new_gain (id param : nat) : list opn :=
  [CAlloc; CAlloc; CRegister param 0 1 1 tt; CResolve param; CQueueParam param id; CRegister id 0 1 1 tt; CResolve id].
(** DelayNode: reader (with its delayTime param) inside the writer's constructor *)
Definition new_delay (w r param : nat) : list opn :=
  [CAlloc; CAlloc; CAlloc; CRegister param 0 1 1 tt; CResolve param; CQueueParam param r;
   CRegister r 0 1 1 tt; CResolve r; CRegister w 0 1 1 tt; CResolve w; CBreaker w; CConnect w 0 r (Some 0)].
(** first use of the AudioListener (concrete_base.rs 380-425) *)
Definition use_listener : list opn :=
  CRegister 1 0 9 0 tt :: map (fun i => CRegister i 0 1 1 tt) (seq 2 9) ++ [CResolve 1].

Ltac careful_step :=
  match goal with
  | |- True => exact I
  | |- throughout _ _ (_ ++ _) _ => unfold new_source, new_gain, new_delay, use_listener; cbn [app map seq]
  | |- throughout _ _ (_ :: _) _ => split; [|let H := fresh in intros ? H; vm_compute in H; first [discriminate|injection H as <-]]
  | |- throughout _ _ [] _ => exact I
  | |- careful _ (CQueueParam _ _) => vm_compute; reflexivity
  | |- careful _ (CBreaker _) => let H := fresh in intros ? ? ? H; vm_compute in H; injection H as <- <- <-; reflexivity
  | |- careful _ CSuspend => vm_compute; reflexivity
  | |- careful _ (CPost _ _) => intros ?; vm_compute; discriminate
  | |- careful _ (CResolve _) => let H := fresh in intros ? H; vm_compute in H;
        repeat (destruct H as [H|H]); try contradiction; try discriminate;
        injection H; intros; subst; eexists _, _, _; (split; [vm_compute; reflexivity|lia])
  | |- careful _ _ => exact I
  end.
Ltac careful_tac := repeat careful_step.

(** a program using all node kinds: source 11 -> gain 12 (param 13) -> delay
    (writer 14, reader 15, param 16) -> destination, with feedback from the delay to
    the gain, a suspension, and the listener *)
Definition script : list opn :=
  new_source 11 5 ++ new_gain 12 13 ++ new_delay 14 15 16 ++
  [CConnect 11 0 12 (Some 0); CConnect 12 0 14 (Some 0); CConnect 15 0 0 (Some 0); CConnect 15 0 12 (Some 0)] ++
  repeat RHandle 12 ++ [RRender 0] ++ [CSuspend] ++ use_listener ++ [CConnect 11 0 0 (Some 0); RHandle; CResume] ++
  repeat RHandle 30 ++ [RRender 128; CDisconnect 11 None (Some 12) None; CCfg 12 (fun x => x); CPost 11 (fun p => Some (S p)); CDrop 11] ++
  repeat RHandle 10 ++ [RRender 256; RRender 384].

Example script_careful : throughout E2 careful script (sys0 0 tt).
Proof. unfold script. cbn [repeat app]. careful_tac. Qed.

Example script_runs : exists s, run E2 script (sys0 0 tt) = Some s /\ pending s = [] /\ s_closed s = false /\
  has_edge s 12 0 14 (Some 0) /\ held s 12 /\ held s 14 /\ not_writer s 12 /\ length (s_handled s) = 41.
Proof.
  eexists. split; [vm_compute; reflexivity|]. split; [reflexivity|]. split; [reflexivity|]. split.
  { eexists. split; [vm_compute; reflexivity|]. now left. }
  split; [eexists _, _, _; vm_compute; reflexivity|]. split; [eexists _, _, _; vm_compute; reflexivity|].
  split; [|vm_compute; reflexivity]. split; [|vm_compute; intros []].
  intros n Hn. vm_compute in Hn. injection Hn as <-. reflexivity.
Qed.

(** ** C06 *)

(** The identifier the next constructor gets is not in use: not by a node of the
    render graph, not by a handle of the program, not by a message on its way and
    not in the table of connections.  The hypothesis that no processor panics
    while rendering is needed (second theorem). *)
Theorem C06_identifiers_are_unique_partial :
  forall P Q CFG (E : env P Q CFG), env_ok E -> no_panics E ->
  forall dest cfg ops s, throughout E careful ops (sys0 dest cfg) -> run E ops (sys0 dest cfg) = Some s ->
  ~ in_use s (next_id s).
Proof. intros P Q CFG E EOK NP. exact (main_unique E EOK NP). Qed.
Print Assumptions C06_identifiers_are_unique_partial.

(** identifiers are indeed reused: 11 is handed out again after its node is gone *)
Example C06_reuse : exists s : sysn, run E2 ((new_source 11 0 ++ [CDrop 11] ++ repeat RHandle 4 ++ [RRender 0]) : list opn) (sys0 0 tt) = Some s /\
  next_id s = 11 /\ s_next s = 12.
Proof. eexists. split; [vm_compute; reflexivity|]. split; reflexivity. Qed.

(** Finding: when a processor panics, the render thread frees the node and gives
    back its identifier although the program still holds the node: the next
    constructor gets an identifier the program is still using. *)
Theorem C06_identifiers_are_unique_refuted :
  exists (ops : list opn) (s : sysn),
    throughout E1 careful ops (sys0 0 tt) /\ run E1 ops (sys0 0 tt) = Some s /\
    held s (next_id s).
Proof.
  exists (new_source 11 99 ++ [RHandle; RHandle; RRender 0]). eexists. split; [careful_tac|].
  split; [vm_compute; reflexivity|]. eexists _, _, _. vm_compute. reflexivity.
Qed.
Print Assumptions C06_identifiers_are_unique_refuted.

(** The destination, the listener and the listener's nine parameters (identifiers 0 to 10) are never dropped, whatever
    the program does with its handles of them. *)
Theorem C06_never_dropped :
  forall P Q CFG (E : env P Q CFG) dest cfg ops s id, run E ops (sys0 dest cfg) = Some s -> In (MDrop id) (s_issued s) -> 10 < id.
Proof. intros P Q CFG. exact never_dropped_ids. Qed.
Print Assumptions C06_never_dropped.
Definition is_drop {P CFG} (m : msg P CFG) : list nat := match m with MDrop id => [id] | _ => [] end.
Example C06_dropped : exists s : sysn, run E2 ((new_source 11 0 ++ [CDrop 11; CDrop 0; CDrop 10]) : list opn) (sys0 0 tt) = Some s /\
  flat_map is_drop (s_issued s) = [11].
Proof. eexists. split; [vm_compute; reflexivity|]. reflexivity. Qed.

(** ** C07 *)

(** Everything the API issued is what the render thread handled, followed by what
    is still on its way, in the same order; once the context is closed, a suffix
    may be missing.  Hypothesis: suspend is not called twice before resume (next
    theorem). *)
Theorem C07_in_order_exactly_once_partial :
  forall P Q CFG (E : env P Q CFG) dest cfg ops s,
  throughout E single_suspend ops (sys0 dest cfg) -> run E ops (sys0 dest cfg) = Some s ->
  exists lost, s_issued s = s_handled s ++ pending s ++ lost /\ (s_closed s = false -> lost = []).
Proof. intros P Q CFG E. exact (main_delivery E). Qed.
Print Assumptions C07_in_order_exactly_once_partial.

Example C07_example : throughout E2 single_suspend script (sys0 0 tt) /\
  exists s, run E2 script (sys0 0 tt) = Some s /\ s_closed s = false /\ pending s = [] /\ length (s_issued s) = 41.
Proof.
  split; [eapply throughout_weaken; [apply careful_single|exact script_careful]|].
  eexists. split; [vm_compute; reflexivity|]. split; [reflexivity|]. split; reflexivity.
Qed.

(** Nothing is rendered between the handling of suspend (or close) and the handling of resume; otherwise every render step of an
    active graph renders it. *)
Theorem C07_pauses : forall P Q CFG (E : env P Q CFG) dest cfg ops s, run E ops (sys0 dest cfg) = Some s -> forall frame,
  (paused (s_handled s) = true -> step E (RRender frame) s = Some s) /\
  (paused (s_handled s) = false -> is_active (s_graph s) = true -> forall s', step E (RRender frame) s = Some s' -> s_trace s' = s_trace s ++ [OpRender frame]).
Proof. exact @pause_render. Qed.
Print Assumptions C07_pauses.
Example C07_pauses_case : exists s1 s2, run E2 [RHandle; CSuspend; RHandle] (sys0 0 tt) = Some s1 /\ paused (s_handled s1) = true /\ is_active (s_graph s1) = true /\
  run E2 [RHandle; CSuspend; RHandle; CResume; RHandle] (sys0 0 tt) = Some s2 /\ paused (s_handled s2) = false /\ is_active (s_graph s2) = true.
Proof. eexists _, _. split; [vm_compute; reflexivity|]. split; [reflexivity|]. split; [reflexivity|]. split; [vm_compute; reflexivity|]. split; reflexivity. Qed.

(** Finding: calling suspend twice before resume loses the messages buffered in
    between; here the registration of node 11 never reaches the render thread. *)
Theorem C07_in_order_exactly_once_refuted :
  exists (ops : list opn) (s : sysn) m,
    run E2 ops (sys0 0 tt) = Some s /\ s_closed s = false /\ pending s = [] /\
    In m (s_issued s) /\ ~ In m (s_handled s).
Proof.
  exists ([CSuspend; CAlloc; CRegister 11 5 0 1 tt; CSuspend; CResume] ++ repeat RHandle 5).
  eexists _, (MRegister 11 5 0 1 tt). split; [vm_compute; reflexivity|]. split; [reflexivity|]. split; [reflexivity|].
  split; [cbn; tauto|]. cbn. intros H. decompose [or] H; try discriminate; assumption.
Qed.
Print Assumptions C07_in_order_exactly_once_refuted.

(** ** C08 *)

(** When all messages are handled, the control thread's table of connections and
    the render graph agree on every connection between nodes the program holds
    (the connection inside a delay, which is cut when the delay closes a cycle,
    excepted).  Missing for the full property: connections of nodes that were
    dropped, and the number of parallel edges, for which the claim is false. *)
Theorem C08_views_agree_partial :
  forall P Q CFG (E : env P Q CFG), env_ok E -> no_panics E ->
  forall dest cfg ops s a o b p,
  throughout E careful ops (sys0 dest cfg) -> run E ops (sys0 dest cfg) = Some s ->
  s_closed s = false -> pending s = [] -> held s a -> held s b -> not_writer s a ->
  (has_edge s a o b (Some p) <-> In (a, o, b, Some p) (s_conns s)).
Proof. intros P Q CFG E EOK NP. exact (main_agree E EOK NP). Qed.
Print Assumptions C08_views_agree_partial.

(** After a disconnect call, once the messages are handled, no selected connection
    remains unless it was made again. *)
Theorem C08_disconnect_is_complete_partial :
  forall P Q CFG (E : env P Q CFG), env_ok E -> no_panics E ->
  forall dest cfg ops1 src out dst port ops2 s a o b p,
  let ops := ops1 ++ CDisconnect src out dst port :: ops2 in
  throughout E careful ops (sys0 dest cfg) -> run E ops (sys0 dest cfg) = Some s ->
  (forall s1, run E ops1 (sys0 dest cfg) = Some s1 -> held s1 src) ->
  disconnects src out dst port a o b (Some p) ->
  Forall (fun op => op <> CConnect a o b (Some p)) ops2 ->
  s_closed s = false -> pending s = [] -> held s a -> held s b -> not_writer s a ->
  ~ has_edge s a o b (Some p).
Proof.
  intros P Q CFG E EOK NP dest cfg ops1 src out dst port ops2 s a o b p. cbv zeta. rewrite <- selects_spec.
  exact (main_disconnect E EOK NP dest cfg ops1 src out dst port ops2 s a o b p).
Qed.
Print Assumptions C08_disconnect_is_complete_partial.

(** After a connect call, once the messages are handled, the connection exists,
    unless it was disconnected again. *)
Theorem C08_connect_is_effective_partial :
  forall P Q CFG (E : env P Q CFG), env_ok E -> no_panics E ->
  forall dest cfg ops1 ops2 s a o b p ins outs fa dins douts fb,
  let ops := ops1 ++ CConnect a o b (Some p) :: ops2 in
  throughout E careful ops (sys0 dest cfg) -> run E ops (sys0 dest cfg) = Some s ->
  (forall s1, run E ops1 (sys0 dest cfg) = Some s1 -> s_handle s1 a = Alive ins outs fa /\ s_handle s1 b = Alive dins douts fb) ->
  o < outs -> p < dins ->
  Forall (fun op => forall src out dst port, op = CDisconnect src out dst port -> ~ disconnects src out dst port a o b (Some p)) ops2 ->
  Forall (fun op => op <> CDrop a /\ op <> CDrop b) ops2 ->
  s_closed s = false -> pending s = [] -> held s a -> held s b -> not_writer s a ->
  has_edge s a o b (Some p).
Proof.
  intros P Q CFG E EOK NP dest cfg ops1 ops2 s a o b p ins outs fa dins douts fb. cbv zeta. intros H1 H2 H3 H4 H5 H6.
  apply (main_connect E EOK NP dest cfg ops1 ops2 s a o b p ins outs fa dins douts fb H1 H2 H3 H4 H5).
  eapply Forall_impl; [|exact H6]. intros op H src out dst port Eo. specialize (H src out dst port Eo). rewrite <- selects_spec in H.
  destruct (selects src out dst port (a, o, b, Some p)); [exfalso; apply H; reflexivity | reflexivity].
Qed.
Print Assumptions C08_connect_is_effective_partial.

Example C08_example :
  let ops1 := new_source 11 5 ++ new_gain 12 13 ++ [CConnect 11 0 12 (Some 0); CConnect 11 0 0 (Some 0)] in
  let ops := ops1 ++ CDisconnect 11 None (Some 12) None :: repeat RHandle 10 in
  throughout E2 careful ops (sys0 0 tt) /\
  exists s, run E2 ops (sys0 0 tt) = Some s /\ pending s = [] /\ s_closed s = false /\
    held s 11 /\ held s 12 /\ not_writer s 11 /\
    s_conns s = [(11, 0, 0, Some 0)] /\ has_edge s 11 0 0 (Some 0).
Proof.
  cbn zeta. split; [cbn [repeat app]; careful_tac|]. eexists. split; [vm_compute; reflexivity|].
  split; [reflexivity|]. split; [reflexivity|]. split; [eexists _, _, _; vm_compute; reflexivity|].
  split; [eexists _, _, _; vm_compute; reflexivity|]. split.
  { split; [|vm_compute; intros []]. intros n Hn. vm_compute in Hn. injection Hn as <-. reflexivity. }
  split; [reflexivity|]. eexists. split; [vm_compute; reflexivity|]. now left.
Qed.

(** Finding: connecting the same output to the same input twice doubles the
    signal: the source of value 5 is heard as 10. *)
Theorem C08_connect_is_idempotent_refuted :
  exists (ops : list opn) (s1 s2 : sysn) g1 l1 v1 g2 l2 v2,
    let once := ops ++ [CConnect 11 0 0 (Some 0)] in
    let twice := once ++ [CConnect 11 0 0 (Some 0)] in
    let finish := repeat RHandle 5 in
    throughout E2 careful (twice ++ finish) (sys0 0 tt) /\
    run E2 (once ++ finish) (sys0 0 tt) = Some s1 /\ run E2 (twice ++ finish) (sys0 0 tt) = Some s2 /\
    s_conns s1 = s_conns s2 /\
    render E2 0 (s_graph s1) = Some (g1, l1, v1) /\ render E2 0 (s_graph s2) = Some (g2, l2, v2) /\
    v1 = 5 /\ v2 = 10.
Proof.
  exists (new_source 11 5). eexists _, _, _, _, _, _, _, _. cbn zeta. split; [cbn [repeat app]; careful_tac|].
  split; [vm_compute; reflexivity|]. split; [vm_compute; reflexivity|]. split; [reflexivity|].
  split; [vm_compute; reflexivity|]. split; [vm_compute; reflexivity|]. split; reflexivity.
Qed.
Print Assumptions C08_connect_is_idempotent_refuted.

(** Finding: source 11 -> gain 12 -> destination; the program drops its handle of
    the gain (which stays in the graph, it has an input) and calls
    [disconnect] on the source.  The table forgot the connection with the handle,
    no message is sent, and the source remains audible for ever. *)
Theorem C08_disconnect_is_complete_refuted :
  exists (ops : list opn) (s : sysn) g l v,
    throughout E2 careful (ops ++ [CDisconnect 11 None None None] ++ repeat RHandle 5 ++ [RRender 128; RRender 256]) (sys0 0 tt) /\
    run E2 (ops ++ [CDisconnect 11 None None None] ++ repeat RHandle 5 ++ [RRender 128; RRender 256]) (sys0 0 tt) = Some s /\
    pending s = [] /\ has_edge s 11 0 12 (Some 0) /\
    render E2 384 (s_graph s) = Some (g, l, v) /\ v = 5.
Proof.
  exists (new_source 11 5 ++ new_gain 12 13 ++ [CConnect 11 0 12 (Some 0); CConnect 12 0 0 (Some 0)] ++ repeat RHandle 10 ++ [RRender 0; CDrop 12]).
  eexists _, _, _, _. split; [cbn [repeat app]; careful_tac|]. split; [vm_compute; reflexivity|]. split; [reflexivity|].
  split; [eexists; split; [vm_compute; reflexivity|now left]|].
  split; [vm_compute; reflexivity|reflexivity].
Qed.
Print Assumptions C08_disconnect_is_complete_refuted.

(** Finding: a handle drop sends its message before it clears the table of
    connections.  If the identifier is reclaimed and reused by another thread in
    between, the drop erases the new node's connection from the table: a later
    disconnect does nothing although both nodes are held. *)
Theorem C08_views_agree_refuted :
  exists (ops : list opn) (s : sysn),
    run E2 (ops ++ [CForget 12; CDisconnect 11 None None None] ++ repeat RHandle 5) (sys0 0 tt) = Some s /\
    pending s = [] /\ held s 11 /\ held s 12 /\ has_edge s 11 0 12 (Some 0).
Proof.
  exists (new_source 11 5 ++ new_source 12 0 ++ repeat RHandle 3 ++ [CSendDrop 12; RHandle; RRender 0] ++
          [CAlloc; CRegister 12 0 1 1 tt; CConnect 11 0 12 (Some 0)]).
  eexists. split; [vm_compute; reflexivity|]. split; [reflexivity|].
  split; [eexists _, _, _; vm_compute; reflexivity|]. split; [eexists _, _, _; vm_compute; reflexivity|].
  eexists. split; [vm_compute; reflexivity|]. now left.
Qed.
Print Assumptions C08_views_agree_refuted.

(** ** C09 *)

(** No execution of a program that uses the API as documented makes the render
    thread panic. *)
Theorem C09_messages_never_panic_partial :
  forall P Q CFG (E : env P Q CFG), env_ok E -> no_panics E ->
  forall dest cfg ops, throughout E careful ops (sys0 dest cfg) ->
  exists s, run E ops (sys0 dest cfg) = Some s.
Proof. intros P Q CFG E EOK NP. exact (main_no_panic E EOK NP). Qed.
Print Assumptions C09_messages_never_panic_partial.

(** The operations applied to the graph form a legal history in the sense of
    Graph_TraceSpec.v (in particular every message refers to a node that is
    registered), so that C01 to C05 apply to every state the render thread can be
    in. *)
Theorem C09_graph_histories_are_legal_partial :
  forall P Q CFG (E : env P Q CFG), env_ok E -> no_panics E ->
  forall dest cfg ops s, throughout E careful ops (sys0 dest cfg) -> run E ops (sys0 dest cfg) = Some s ->
  exists ls, grun E (s_trace s) graph_new = Some (s_graph s, ls) /\ legal_run E graph_new (s_trace s).
Proof. intros P Q CFG E EOK NP. exact (main_traced E EOK NP). Qed.
Print Assumptions C09_graph_histories_are_legal_partial.

Example C09_example : exists s, run E2 script (sys0 0 tt) = Some s /\ length (s_trace s) = 43.
Proof. eexists. split; [vm_compute; reflexivity|]. vm_compute. reflexivity. Qed.

(** Finding: after a processor panicked (which frees the node), using the node
    that the program still holds makes the render thread panic. *)
Theorem C09_messages_never_panic_refuted_after_processor_panic :
  exists ops : list opn, throughout E1 careful ops (sys0 0 tt) /\ run E1 ops (sys0 0 tt) = None.
Proof.
  exists (new_source 11 99 ++ [RHandle; RHandle; RRender 0; CConnect 11 0 0 (Some 0); RHandle]).
  split; [careful_tac|vm_compute; reflexivity].
Qed.
Print Assumptions C09_messages_never_panic_refuted_after_processor_panic.

(** Finding: a constructor that panics (e.g. a filter with invalid coefficients)
    after its identifier was allocated tells the render thread to drop a node
    that was never registered; with an identifier beyond the size of the node
    vector the render thread panics.  Here 54 identifiers were handed out before. *)
Theorem C09_messages_never_panic_refuted_by_failed_constructor :
  exists ops : list opn, throughout E2 careful ops (sys0 0 tt) /\
    run E2 (ops ++ [CAbandon 64; RHandle; RHandle]) (sys0 0 tt) = None.
Proof.
  exists (repeat CAlloc 54). split; [cbn [repeat]; careful_tac|vm_compute; reflexivity].
Qed.
Print Assumptions C09_messages_never_panic_refuted_by_failed_constructor.

(** Finding: an AudioParam created for a node that is already registered leaves a
    queued connection behind; when the node's identifier is reused, the
    connection is sent for the new node although the parameter is gone. *)
Theorem C09_messages_never_panic_refuted_by_late_param :
  exists ops : list opn, run E2 ops (sys0 0 tt) = None.
Proof.
  exists (new_source 11 0 ++ [CAlloc; CRegister 12 0 1 1 tt; CResolve 12; CQueueParam 12 11] ++ [CDrop 11; CDrop 12] ++
    repeat RHandle 5 ++ [RRender 0] ++ new_source 11 0 ++ [RHandle; RHandle; RHandle]).
  vm_compute. reflexivity.
Qed.
Print Assumptions C09_messages_never_panic_refuted_by_late_param.
