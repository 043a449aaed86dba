(** Property C91: what happens in a node, a failure included, has an influence only downstream of it *)
From Coq Require Import List Arith Bool Lia.
From Verif Require Import Graph_Model Graph_Spec Graph_OrderProofs Graph_TraceModel Graph_TraceSpec Graph_Props Flow_Spec Contain_Spec Contain_Proofs.
Import ListNotations.

(** Two graphs that are the same outside of [D], where nothing of [D] is connected to the outside: over any number of quanta, and
    whatever happens in [D] (panics, nodes that end, other sounds, other connections), the nodes outside get the same inputs, compute the
    same outputs, panic or not alike, in the same order; if the destination is outside, the output is the same. *)
Theorem C91_only_downstream : forall P Q CFG (E : env P Q CFG) D K g1 g2 frames g1' g2' ll1 ll2 os1 os2,
  do_not_read E D K -> processors_outside D K (g_nodes g1) ->
  downstream_closed D (g_nodes g1) -> downstream_closed D (g_nodes g2) -> same_outside D g1 g2 -> held D (g_nodes g1) ->
  In 0 (g_ordered g1) -> In 0 (g_ordered g2) ->
  play E g1 frames = Some (g1', ll1, os1) -> play E g2 frames = Some (g2', ll2, os2) ->
  map (doings D) ll1 = map (doings D) ll2 /\ (D 0 = false -> os1 = os2).
Proof.
  intros P Q CFG E D K g1 g2 frames g1' g2' ll1 ll2 os1 os2 RD PO C1 C2 [S F] H Z1 Z2 A B.
  eapply (play_same E D K RD); [|exact F|exact Z1|exact Z2|exact A|exact B]. split; [exact S|]. split; [exact C1|]. split; [exact C2|]. split; [exact H|exact PO].
Qed.
Print Assumptions C91_only_downstream.

(** In particular: whether the processor of node [x] panics, now or in a later quantum, or works, can be noticed only downstream of [x]. *)
Theorem C91_failure_is_contained : forall P Q CFG (E : env P Q CFG) D K g x p frames g1' g2' ll1 ll2 os1 os2,
  do_not_read E D K -> processors_outside D K (g_nodes g) ->
  D x = true -> downstream_closed D (g_nodes g) -> held D (g_nodes g) -> In 0 (g_ordered g) ->
  play E g frames = Some (g1', ll1, os1) -> play E (with_processor g x p) frames = Some (g2', ll2, os2) ->
  map (doings D) ll1 = map (doings D) ll2 /\ (D 0 = false -> os1 = os2).
Proof.
  intros P Q CFG E D K g x p frames g1' g2' ll1 ll2 os1 os2 RD PO Dx C H Z A B.
  eapply (C91_only_downstream P Q CFG E D K g (with_processor g x p)); eauto.
  - intros i n e Hi Hg He. cbn [with_processor g_nodes] in Hg. destruct (Nat.eq_dec x i) as [X|X].
    + subst i. rewrite get_update_eq in Hg. destruct (get (g_nodes g) x) as [m|] eqn:G; [|discriminate]. injection Hg as <-. cbn in He. eapply C; eauto.
    + rewrite get_update_neq in Hg by exact X. eapply C; eauto.
  - split; [|reflexivity]. intros i Hi. cbn [with_processor g_nodes]. rewrite get_update_neq by congruence. destruct (get (g_nodes g) i); [apply same_node_refl|exact I].
Qed.
Print Assumptions C91_failure_is_contained.

(** 1 (constant 5) feeds 2, that feeds the destination, and 3, that feeds 4.  Node 3 panics (99) or not (7). *)
Definition ops_fork (p3 : nat) : list (gop nat unit) :=
  [ OpAdd 0 0 1 1 tt; OpAdd 1 5 0 1 tt; OpAdd 2 0 1 1 tt; OpAdd 3 p3 1 1 tt; OpAdd 4 0 1 1 tt;
    OpConnect 1 0 2 (Some 0); OpConnect 2 0 0 (Some 0); OpConnect 1 0 3 (Some 0); OpConnect 3 0 4 (Some 0); OpRender 0 ].
Definition behind_3 (i : nat) : bool := Nat.eqb i 3 || Nat.eqb i 4.

Definition check_closed (D : nat -> bool) (ns : nodes nat nat unit) : bool :=
  forallb (fun i => match get ns i with Some n => negb (D i) || forallb (fun e => D (e_dest e)) (n_edges n) | None => true end) (seq 0 (length ns)).
Lemma check_closed_ok D ns : check_closed D ns = true -> downstream_closed D ns.
Proof.
  intros H i n e Hi Hg He. unfold check_closed in H. rewrite forallb_forall in H. specialize (H i). rewrite in_seq in H.
  pose proof (get_In _ _ _ Hg) as L. specialize (H ltac:(lia)). rewrite Hg, Hi in H. cbn in H. rewrite forallb_forall in H. apply H. exact He.
Qed.
Definition check_held (D : nat -> bool) (ns : nodes nat nat unit) : bool :=
  forallb (fun i => match get ns i with Some n => D i || negb (n_dropped n) | None => true end) (seq 0 (length ns)).
Lemma check_held_ok D ns : check_held D ns = true -> held D ns.
Proof.
  intros H i n Hi Hg. unfold check_held in H. rewrite forallb_forall in H. specialize (H i). rewrite in_seq in H.
  pose proof (get_In _ _ _ Hg) as L. specialize (H ltac:(lia)). rewrite Hg, Hi in H. cbn in H. apply negb_true_iff in H. exact H.
Qed.

Example C91_case : exists g ls g1' ll1 g2' ll2,
  grun E1 (ops_fork 7) graph_new = Some (g, ls) /\ do_not_read E1 behind_3 (fun _ => True) /\
  downstream_closed behind_3 (g_nodes g) /\ held behind_3 (g_nodes g) /\ In 0 (g_ordered g) /\
  play E1 g [1; 2] = Some (g1', ll1, [5; 5]) /\ play E1 (with_processor g 3 99) [1; 2] = Some (g2', ll2, [5; 5]) /\
  map (map l_id) ll1 = [[1; 3; 4; 2; 0]; [1; 3; 4; 2; 0]] /\ map (map l_id) ll2 = [[1; 3; 4; 2; 0]; [1; 4; 2; 0]] /\
  map (map l_inputs) ll1 = [[[]; [5]; [12]; [5]; [5]]; [[]; [5]; [12]; [5]; [5]]] /\ map (map l_inputs) ll2 = [[[]; [5]; [0]; [5]; [5]]; [[]; [0]; [5]; [5]]].
Proof.
  eexists _, _, _, _, _, _. split; [vm_compute; reflexivity|]. split; [split; [reflexivity|auto]|].
  split; [apply check_closed_ok; vm_compute; reflexivity|]. split; [apply check_held_ok; vm_compute; reflexivity|]. split; [vm_compute; tauto|].
  split; [vm_compute; reflexivity|]. split; [vm_compute; reflexivity|]. split; [vm_compute; reflexivity|]. split; [vm_compute; reflexivity|]. split; vm_compute; reflexivity.
Qed.

(** Finding: a panic in a processor is caught when it renders (graph.rs 513-521), but not when it receives a message (graph.rs 322-324,
    called from thread.rs without catch_unwind).  One message to one node, connected to nothing, ends all rendering. *)
Theorem C91_message_panic_refuted : exists (ops : list (gop nat unit)) id onmsg g ls n,
  legal_run E1 graph_new (ops ++ [OpRender 0]) /\ grun E1 ops graph_new = Some (g, ls) /\
  get (g_nodes g) id = Some n /\ n_edges n = [] /\
  (exists g' ls', grun E1 (ops ++ [OpRender 0]) graph_new = Some (g', ls')) /\
  grun E1 (ops ++ [OpMessage id onmsg; OpRender 0]) graph_new = None.
Proof.
  exists (ops_chain ++ [OpAdd 3 7 1 1 tt]), 3, (fun _ => None). eexists _, _, _.
  split; [legal_tac|]. split; [vm_compute; reflexivity|]. split; [vm_compute; reflexivity|]. split; [vm_compute; reflexivity|].
  split; [eexists _, _; vm_compute; reflexivity|vm_compute; reflexivity].
Qed.
Print Assumptions C91_message_panic_refuted.
