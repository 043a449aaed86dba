(** Proofs about the ended event of sources (C86) *)
From Coq Require Import List Arith ZArith Bool Lia.
From Verif Require Import Common_Model Arith_Model Graph_Model Graph_Spec Graph_TraceModel Graph_TraceSpec Graph_RenderProofs Graph_TraceProofs
  Hooks_Model Hooks_Spec Hooks_Proofs Source_Model Source_Proofs Osc_Proofs Absn_Model Absn_HangProofs.
Import ListNotations.

Section Ended2.
Context {P Q CFG : Type}.
Variable E : env P Q CFG.
Hypothesis EOK : env_ok E.

Lemma of_node_In id h (l : list (nat * @hook P)) : In h (of_node id l) -> In (id, h) l.
Proof.
  unfold of_node. intros H. apply in_flat_map in H. destruct H as ([i h'] & H1 & H2). cbn [fst snd] in H2. destruct (Nat.eqb_spec i id) as [->|]; [|destruct H2].
  destruct H2 as [->|[]]. exact H1.
Qed.

Theorem ended (over : P -> bool) (begun : P -> nat -> bool) ops1 id p ins outs cfg ops2 frame :
  legal_run E graph_new (ops1 ++ OpAdd id p ins outs cfg :: ops2) -> not_registered id ops2 -> over p = false ->
  (forall q i o v f q' o' t, process E q i o v f = Some (q', o', t) -> over q = true -> over q' = true) ->
  (forall m q q', In (OpMessage id m) ops2 -> m q = Some q' -> over q' = over q) ->
  exists g1 t1 t2 l q last, hrun E ops1 graph_new = Some (g1, t1) /\ whole_life E (ops1 ++ OpAdd id p ins outs cfg :: ops2) frame = Some (t1 ++ t2) /\
    of_node id t2 = l ++ [Dropped q last] /\
    ended_events over begun (of_node id t2) = if over q || begun q last then 1 else 0.
Proof.
  intros HL HN HO HP HM. destruct (life_total E EOK _ frame HL) as [tr H].
  destruct (life_parts E EOK _ _ _ _ _ _ _ _ _ HL HN H) as (g1 & t1 & l2 & g2 & R & R3 & L3 & HW & -> & C).
  destruct (ended_spec over begun _ _ C) as (l & q & last & EQ & EV).
  - intros a b Hab. apply of_node_In in Hab. apply in_app_or in Hab. destruct Hab as [Hab|Hab].
    + destruct (called_process E EOK _ _ _ _ HW L3 R3 _ _ Hab) as (m & I1 & I2). exact (HM m a b I1 I2).
    + unfold unload in Hab. apply in_flat_map in Hab. destruct Hab as (i & _ & Hi). destruct (get (g_nodes g2) i); [destruct Hi as [Hi|[]]; discriminate|destruct Hi].
  - intros a b Hab. apply of_node_In in Hab. apply in_app_or in Hab. destruct Hab as [Hab|Hab].
    + destruct (called_process E EOK _ _ _ _ HW L3 R3 _ _ Hab) as (i & o & v & f & o' & t & X). exact (HP _ _ _ _ _ _ _ _ X).
    + unfold unload in Hab. apply in_flat_map in Hab. destruct Hab as (i & _ & Hi). destruct (get (g_nodes g2) i); [destruct Hi as [Hi|[]]; discriminate|destruct Hi].
  - rewrite HO in EV. exists g1, t1, (l2 ++ unload g2 frame), l, q, last. split; [exact R|]. split; [exact H|]. split; [exact EQ|exact EV].
Qed.
End Ended2.

Lemma constant_source {T V} (A : arith T V) sr s frame offset s' o : cs_process A sr s frame offset = (s', o) ->
  o_event o = negb (cs_ended s) && cs_ended s' /\ (cs_ended s = true -> cs_ended s' = true).
Proof. intros H. apply cs_process_event in H. destruct H as (-> & N & _). destruct (cs_ended s), (o_event o); cbn; auto. Qed.
Lemma oscillator {T V} (A : arith T V) sr table s frame freq detune s' o : osc_process A sr table s frame freq detune = Ok (s', o) ->
  o_event o = negb (os_ended s) && os_ended s' /\ (os_ended s = true -> os_ended s' = true).
Proof. intros H. apply osc_process_event in H. destruct H as (-> & N & _). destruct (os_ended s), (o_event o); cbn; auto. Qed.
Lemma buffer_source {T V} (A : arith T V) sr ae az fuel s frame rate detune s' o : absn_process A sr ae az fuel s frame rate detune = Ok (s', o) ->
  o_event o = negb (a_ended s) && a_ended s' /\ (a_ended s = true -> a_ended s' = true).
Proof. intros H. apply process_ended in H. destruct H as (-> & N). destruct (a_ended s), (o_event o); cbn; auto. Qed.
Lemma messages {T V} (A : arith T V) (s : @osc T V) a (b : @absn T V) c : os_ended (osc_message s a) = os_ended s /\ a_ended (absn_message A b c) = a_ended b.
Proof. split; [destruct a; reflexivity|apply message_ended]. Qed.
