(** The render graph of the echo program, quantum by quantum (C87) *)
From Coq Require Import List Arith Bool ZArith Lia.
From Verif Require Import Graph_Model Graph_TraceModel.
Import ListNotations.

Section EchoGraph.
Context {P Q : Type}.
Variable E : env P Q unit.
Notation s := (silence E).

Definition program (p0 p1 p2 p3 p4 : P) : list (gop P unit) :=
  [OpAdd 0 p0 1 1 tt; OpAdd 1 p1 0 1 tt; OpAdd 3 p3 1 1 tt; OpAdd 2 p2 1 1 tt; OpBreaker 2; OpConnect 2 0 3 (Some 0); OpAdd 4 p4 1 1 tt;
   OpConnect 1 0 0 (Some 0); OpConnect 1 0 2 (Some 0); OpConnect 3 0 4 (Some 0); OpConnect 4 0 2 (Some 0); OpConnect 3 0 0 (Some 0)].

(** the graph between quanta *)
Definition steady (p0 p1 p2 p3 p4 : P) (o0 o1 o2 o3 o4 : Q) : graph P Q unit :=
  mk_graph ([Some (mk_node p0 [s] [o0] tt [] false false false);
             Some (mk_node p1 [] [o1] tt [mk_edge 0 0 (Some 0); mk_edge 0 2 (Some 0)] false false false);
             Some (mk_node p2 [s] [o2] tt [] false false true);
             Some (mk_node p3 [s] [o3] tt [mk_edge 0 4 (Some 0); mk_edge 0 0 (Some 0)] false false false);
             Some (mk_node p4 [s] [o4] tt [mk_edge 0 2 (Some 0)] false false false)] ++ repeat None 59) [3; 4; 1; 2; 0].

(** built, the graph renders its first quantum like this: the connection from the writer (2) to the reader (3) is cut *)
Lemma built p0 p1 p2 p3 p4 : exists g, grun E (program p0 p1 p2 p3 p4) graph_new = Some (g, []) /\
  forall f, render E f g = render E f (steady p0 p1 p2 p3 p4 s s s s s).
Proof. eexists. split; [vm_compute; reflexivity|]. intros f. unfold render. vm_compute. reflexivity. Qed.

Lemma quantum f p0 p1 p2 p3 p4 o0 o1 o2 o3 o4 p0' p1' p2' p3' p4' o0' o1' o2' o3' o4' t0 t1 t2 t3 t4 :
  (forall v, v 2 = Some [o2] -> process E p3 [s] [o3] v f = Some (p3', [o3'], t3)) ->
  (forall v, process E p4 [qadd E s o3' tt] [o4] v f = Some (p4', [o4'], t4)) ->
  (forall v, process E p1 [] [o1] v f = Some (p1', [o1'], t1)) ->
  (forall v, v 3 = Some [o3'] -> process E p2 [qadd E (qadd E s o4' tt) o1' tt] [o2] v f = Some (p2', [o2'], t2)) ->
  (forall v, process E p0 [qadd E (qadd E s o3' tt) o1' tt] [o0] v f = Some (p0', [o0'], t0)) ->
  exists lgs, render E f (steady p0 p1 p2 p3 p4 o0 o1 o2 o3 o4) = Some (steady p0' p1' p2' p3' p4' o0' o1' o2' o3' o4', lgs, o0').
Proof.
  intros H3 H4 H1 H2 H0. remember (steady p0' p1' p2' p3' p4' o0' o1' o2' o3' o4') as G' eqn:EG. unfold render, steady. cbn [g_ordered g_nodes].
  cbn [render_nodes]. unfold render_node at 1. cbn [get nth_error app n_proc n_inputs n_outputs]. rewrite H3 by reflexivity.
  cbn -[repeat process qadd silence render_node].
  unfold render_node at 1. cbn [get nth_error app n_proc n_inputs n_outputs]. rewrite H4.
  cbn -[repeat process qadd silence render_node].
  unfold render_node at 1. cbn [get nth_error app n_proc n_inputs n_outputs]. rewrite H1.
  cbn -[repeat process qadd silence render_node].
  unfold render_node at 1. cbn [get nth_error app n_proc n_inputs n_outputs]. rewrite H2 by reflexivity.
  cbn -[repeat process qadd silence render_node].
  unfold render_node at 1. cbn [get nth_error app n_proc n_inputs n_outputs]. rewrite H0.
  cbn -[repeat process qadd silence render_node].
  eexists. rewrite EG. reflexivity.
Qed.
End EchoGraph.
