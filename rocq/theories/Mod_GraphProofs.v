(** The render graph of the tremolo program, quantum by quantum (C88) *)
From Coq Require Import List Arith Bool ZArith Lia.
From Verif Require Import Graph_Model Graph_TraceModel Desk_BuildProofs.
Import ListNotations.

Section ModGraph.
Context {P Q CFG : Type}.
Variable E : env P Q CFG.
Variables cd cn cp : CFG.
Notation s := (silence E).

Lemma grun_then a : forall b g g1 l1 g2 l2, grun E a g = Some (g1, l1) -> grun E b g1 = Some (g2, l2) -> grun E (a ++ b) g = Some (g2, l1 ++ l2).
Proof.
  induction a as [|x a IH]; intros b g g1 l1 g2 l2 H1 H2; cbn [app grun] in *; [injection H1 as <- <-; exact H2|].
  destruct (gstep E x g) as [[g' l']|]; [|discriminate]. destruct (grun E a g') as [[g'' l'']|] eqn:Ea; [|discriminate]. injection H1 as <- <-.
  rewrite (IH b g' g'' l'' g2 l2 Ea H2). rewrite app_assoc. reflexivity.
Qed.

(** a series of messages to a node *)
Fixpoint changed (fs : list (P -> option P)) (p : P) : option P :=
  match fs with [] => Some p | f :: fs' => match f p with Some p' => changed fs' p' | None => None end end.
Definition to (id : nat) (fs : list (P -> option P)) : list (gop P CFG) := map (OpMessage id) fs.
Lemma set_set (ns : nodes P Q CFG) : forall i x y, set_slot (set_slot ns i x) i y = set_slot ns i y.
Proof. induction ns as [|a ns IH]; intros [|i] x y; cbn; try reflexivity. rewrite IH. reflexivity. Qed.
Lemma set_same (ns : nodes P Q CFG) : forall i x, nth_error ns i = Some x -> set_slot ns i x = ns.
Proof. induction ns as [|a ns IH]; intros [|i] x H; cbn in *; try discriminate; [injection H as ->; reflexivity|]. rewrite IH by exact H. reflexivity. Qed.
Lemma get_set (ns : nodes P Q CFG) : forall i n x, get ns i = Some n -> get (set_slot ns i (Some x)) i = Some x.
Proof. unfold get. induction ns as [|a ns IH]; intros [|i] n x H; cbn in *; try discriminate; [reflexivity|]. apply (IH i n x H). Qed.
Lemma told id fs : forall ns ord n p', get ns id = Some n -> changed fs (n_proc n) = Some p' ->
  grun E (to id fs) (mk_graph ns ord) = Some (mk_graph (set_slot ns id (Some (with_proc n p'))) ord, []).
Proof.
  induction fs as [|f fs IH]; intros ns ord n p' G C; cbn [to map changed grun] in *.
  - injection C as <-. f_equal. f_equal. f_equal. symmetry. unfold with_proc. destruct n. cbn. apply set_same. unfold get in G. destruct (nth_error ns id) as [[?|]|]; try discriminate. injection G as ->. reflexivity.
  - destruct (f (n_proc n)) as [p|] eqn:F; [|discriminate]. cbn [gstep]. unfold route_message. cbn [g_nodes g_ordered]. rewrite G, F. cbn [option_map]. unfold update. rewrite G.
    fold (to id fs). match goal with |- match grun E _ ?g with _ => _ end = _ => change g with (mk_graph (set_slot ns id (Some (with_proc n p))) ord) end. rewrite (IH _ ord (with_proc n p) p' (get_set ns id n _ G) C). rewrite set_set. reflexivity.
Qed.

Definition voice1 (q11 q12 q13 q14 : P) (a12 a14 b12 b14 c11 : list (P -> option P)) (dst : nat) : list (gop P CFG) :=
  [OpAdd 12 q12 1 1 cp] ++ to 12 a12 ++ [OpAdd 11 q11 0 1 cn; OpConnect 12 0 11 None; OpAdd 14 q14 1 1 cp] ++ to 14 a14 ++
  [OpAdd 13 q13 1 1 cn; OpConnect 14 0 13 None; OpConnect 11 0 13 (Some 0); OpConnect 13 0 dst (Some 0)] ++ to 12 b12 ++ to 14 b14 ++ to 11 c11.
Definition voice2 (q11 q12 q13 q14 : P) (a12 a14 b12 b14 c11 : list (P -> option P)) (dst : nat) : list (gop P CFG) :=
  [OpAdd 16 q12 1 1 cp] ++ to 16 a12 ++ [OpAdd 15 q11 0 1 cn; OpConnect 16 0 15 None; OpAdd 18 q14 1 1 cp] ++ to 18 a14 ++
  [OpAdd 17 q13 1 1 cn; OpConnect 18 0 17 None; OpConnect 15 0 17 (Some 0); OpConnect 17 0 dst (Some 0)] ++ to 16 b12 ++ to 18 b14 ++ to 15 c11.

(** the nodes *)
Definition slots (p0 p1 p2 p3 p4 p5 p6 p7 p8 : P) (o0 o1 o2 o3 o4 o5 o6 o7 o8 : Q) : nodes P Q CFG :=
  [Some (mk_node p0 [s] [o0] cd [] false false false)] ++ repeat None 10 ++
  [Some (mk_node p1 [] [o1] cn [mk_edge 0 13 (Some 0)] false false false);
   Some (mk_node p2 [s] [o2] cp [mk_edge 0 11 None] false false false);
   Some (mk_node p3 [s] [o3] cn [mk_edge 0 0 (Some 0)] false false false);
   Some (mk_node p4 [s] [o4] cp [mk_edge 0 13 None] false false false);
   Some (mk_node p5 [] [o5] cn [mk_edge 0 17 (Some 0)] false false false);
   Some (mk_node p6 [s] [o6] cp [mk_edge 0 15 None] false false false);
   Some (mk_node p7 [s] [o7] cn [mk_edge 0 14 (Some 0)] false false false);
   Some (mk_node p8 [s] [o8] cp [mk_edge 0 17 None] false false false)] ++ repeat None 45.
Definition steady p0 p1 p2 p3 p4 p5 p6 p7 p8 o0 o1 o2 o3 o4 o5 o6 o7 o8 : graph P Q CFG :=
  mk_graph (slots p0 p1 p2 p3 p4 p5 p6 p7 p8 o0 o1 o2 o3 o4 o5 o6 o7 o8) [18; 16; 15; 17; 14; 12; 11; 13; 0].

Lemma built p0 q1 q2 q3 q4 q5 q6 q7 q8 a2 a4 b2 b4 c1 a6 a8 b6 b8 c5 p1 p2 p4 p5 p6 p8 r2 r4 r6 r8 :
  changed a2 q2 = Some r2 -> changed b2 r2 = Some p2 -> changed a4 q4 = Some r4 -> changed b4 r4 = Some p4 -> changed c1 q1 = Some p1 ->
  changed a6 q6 = Some r6 -> changed b6 r6 = Some p6 -> changed a8 q8 = Some r8 -> changed b8 r8 = Some p8 -> changed c5 q5 = Some p5 ->
  exists g ls, grun E (OpAdd 0 p0 1 1 cd :: voice1 q1 q2 q3 q4 a2 a4 b2 b4 c1 0 ++ voice2 q5 q6 q7 q8 a6 a8 b6 b8 c5 14) graph_new = Some (g, ls) /\
    forall f, render E f g = render E f (steady p0 p1 p2 q3 p4 p5 p6 q7 p8 s s s s s s s s s).
Proof.
  intros A2 B2 A4 B4 C1 A6 B6 A8 B8 C5. eexists (mk_graph (slots p0 p1 p2 q3 p4 p5 p6 q7 p8 s s s s s s s s s) []), _. split.
  - change (OpAdd 0 p0 1 1 cd :: voice1 q1 q2 q3 q4 a2 a4 b2 b4 c1 0 ++ voice2 q5 q6 q7 q8 a6 a8 b6 b8 c5 14) with ([OpAdd 0 p0 1 1 cd] ++ (voice1 q1 q2 q3 q4 a2 a4 b2 b4 c1 0 ++ voice2 q5 q6 q7 q8 a6 a8 b6 b8 c5 14)).
    eapply grun_then; [reflexivity|]. eapply grun_then; unfold voice1, voice2.
    + repeat first [eapply grun_then; [first [reflexivity|eapply told; [reflexivity|cbn [n_proc with_proc]; eassumption]]|] | eapply told; [reflexivity|cbn [n_proc with_proc]; eassumption]].
    + repeat (eapply grun_then; [first [reflexivity|eapply told; [reflexivity|cbn [n_proc with_proc]; eassumption]]|]). etransitivity; [eapply told; [reflexivity|cbn [n_proc with_proc]; eassumption]|]. cbn [app]. reflexivity.
  - intros f. reflexivity.
Qed.

Lemma quantum f p0 p1 p2 p3 p4 p5 p6 p7 p8 o0 o1 o2 o3 o4 o5 o6 o7 o8 p0' p1' p2' p3' p4' p5' p6' p7' p8' o0' o1' o2' o3' o4' o5' o6' o7' o8' t0 t1 t2 t3 t4 t5 t6 t7 t8 :
  (forall v, process E p8 [s] [o8] v f = Some (p8', [o8'], t8)) ->
  (forall v, process E p6 [s] [o6] v f = Some (p6', [o6'], t6)) ->
  (forall v, v 16 = Some [o6'] -> process E p5 [] [o5] v f = Some (p5', [o5'], t5)) ->
  (forall v, v 18 = Some [o8'] -> process E p7 [qadd E s o5' cn] [o7] v f = Some (p7', [o7'], t7)) ->
  (forall v, process E p4 [qadd E s o7' cp] [o4] v f = Some (p4', [o4'], t4)) ->
  (forall v, process E p2 [s] [o2] v f = Some (p2', [o2'], t2)) ->
  (forall v, v 12 = Some [o2'] -> process E p1 [] [o1] v f = Some (p1', [o1'], t1)) ->
  (forall v, v 14 = Some [o4'] -> process E p3 [qadd E s o1' cn] [o3] v f = Some (p3', [o3'], t3)) ->
  (forall v, process E p0 [qadd E s o3' cd] [o0] v f = Some (p0', [o0'], t0)) ->
  exists lgs, render E f (steady p0 p1 p2 p3 p4 p5 p6 p7 p8 o0 o1 o2 o3 o4 o5 o6 o7 o8) =
    Some (steady p0' p1' p2' p3' p4' p5' p6' p7' p8' o0' o1' o2' o3' o4' o5' o6' o7' o8', lgs, o0').
Proof.
  intros H8 H6 H5 H7 H4 H2 H1 H3 H0. remember (steady p0' p1' p2' p3' p4' p5' p6' p7' p8' o0' o1' o2' o3' o4' o5' o6' o7' o8') as G' eqn:EG.
  unfold render, steady. cbn [g_ordered g_nodes]. unfold slots. cbn [repeat app].
  cbn [render_nodes]. unfold render_node at 1. cbn [get nth_error n_proc n_inputs n_outputs]. rewrite H8.
  cbn -[repeat process qadd silence render_node].
  unfold render_node at 1. cbn [get nth_error n_proc n_inputs n_outputs]. rewrite H6.
  cbn -[repeat process qadd silence render_node].
  unfold render_node at 1. cbn [get nth_error n_proc n_inputs n_outputs]. rewrite H5 by reflexivity.
  cbn -[repeat process qadd silence render_node].
  unfold render_node at 1. cbn [get nth_error n_proc n_inputs n_outputs]. rewrite H7 by reflexivity.
  cbn -[repeat process qadd silence render_node].
  unfold render_node at 1. cbn [get nth_error n_proc n_inputs n_outputs]. rewrite H4.
  cbn -[repeat process qadd silence render_node].
  unfold render_node at 1. cbn [get nth_error n_proc n_inputs n_outputs]. rewrite H2.
  cbn -[repeat process qadd silence render_node].
  unfold render_node at 1. cbn [get nth_error n_proc n_inputs n_outputs]. rewrite H1 by reflexivity.
  cbn -[repeat process qadd silence render_node].
  unfold render_node at 1. cbn [get nth_error n_proc n_inputs n_outputs]. rewrite H3 by reflexivity.
  cbn -[repeat process qadd silence render_node].
  unfold render_node at 1. cbn [get nth_error n_proc n_inputs n_outputs]. rewrite H0.
  cbn -[repeat process qadd silence render_node].
  eexists. rewrite EG. reflexivity.
Qed.
End ModGraph.
