(** * Property C86: the life of a processor, and the one ended event of a source *)
From Coq Require Import List Arith ZArith Bool Lia.
From Verif Require Import Common_Model Arith_Model Graph_Model Graph_Spec Graph_TraceModel Graph_TraceSpec Graph_Props
  Hooks_Model Hooks_Spec Hooks_Proofs Hooks_SourceProofs Source_Model Absn_Model.
Import ListNotations.

(** An offline rendering, to its end: a node that is registered with processor [p] (and whose id is not given to another node
    later) receives messages and is called, each time in the state it was left in; then, exactly once, and as the very last
    thing, its destructor hook runs.  A processor that panics is not called again. *)
Theorem C86_life : forall P Q CFG (E : env P Q CFG) ops1 id p ins outs cfg ops2 frame, env_ok E ->
  legal_run E graph_new (ops1 ++ OpAdd id p ins outs cfg :: ops2) -> not_registered id ops2 ->
  exists g1 t1 t2, hrun E ops1 graph_new = Some (g1, t1) /\ whole_life E (ops1 ++ OpAdd id p ins outs cfg :: ops2) frame = Some (t1 ++ t2) /\
    course p (of_node id t2) None.
Proof.
  intros P Q CFG E ops1 id p ins outs cfg ops2 frame EOK HL HN. destruct (life_total E EOK _ frame HL) as [tr H].
  destruct (life E EOK _ _ _ _ _ _ _ _ _ HL HN H) as (g1 & t1 & t2 & R & -> & C). exists g1, t1, t2. split; [exact R|]. split; [exact H|exact C].
Qed.
Print Assumptions C86_life.

(** A source never sends two ended events, whatever the graph around it does and whether it ends by itself, is taken out of the
    graph, or is still there at the end.  It sends one if in the end it is over, or has begun or been stopped by the time of the
    last frame. *)
Theorem C86_ended : forall P Q CFG (E : env P Q CFG) (over : P -> bool) (begun : P -> nat -> bool) ops1 id p ins outs cfg ops2 frame, env_ok E ->
  legal_run E graph_new (ops1 ++ OpAdd id p ins outs cfg :: ops2) -> not_registered id ops2 -> over p = false ->
  (forall q i o v f q' o' t, process E q i o v f = Some (q', o', t) -> over q = true -> over q' = true) ->
  (forall m q q', In (OpMessage id m) ops2 -> m q = Some q' -> over q' = over q) ->
  exists g1 t1 t2 l q last, hrun E ops1 graph_new = Some (g1, t1) /\ whole_life E (ops1 ++ OpAdd id p ins outs cfg :: ops2) frame = Some (t1 ++ t2) /\
    of_node id t2 = l ++ [Dropped q last] /\
    ended_events over begun (of_node id t2) = if over q || begun q last then 1 else 0.
Proof. intros P Q CFG E over begun ops1 id p ins outs cfg ops2 frame EOK. exact (ended E EOK over begun ops1 id p ins outs cfg ops2 frame). Qed.
Print Assumptions C86_ended.

(** The three kinds of sources are like this, in any arithmetic: they send the event at the moment the flag is set ... *)
Theorem C86_constant_source : forall T V (A : arith T V) sr s frame offset s' o, cs_process A sr s frame offset = (s', o) ->
  o_event o = negb (cs_ended s) && cs_ended s' /\ (cs_ended s = true -> cs_ended s' = true).
Proof. exact @constant_source. Qed.
Theorem C86_oscillator : forall T V (A : arith T V) sr table s frame freq detune s' o, osc_process A sr table s frame freq detune = Ok (s', o) ->
  o_event o = negb (os_ended s) && os_ended s' /\ (os_ended s = true -> os_ended s' = true).
Proof. exact @oscillator. Qed.
Theorem C86_buffer_source : forall T V (A : arith T V) sr ae az fuel s frame rate detune s' o, absn_process A sr ae az fuel s frame rate detune = Ok (s', o) ->
  o_event o = negb (a_ended s) && a_ended s' /\ (a_ended s = true -> a_ended s' = true).
Proof. exact @buffer_source. Qed.
(** ... messages do not touch the flag ... *)
Theorem C86_messages : forall T V (A : arith T V) (s : @osc T V) a (b : @absn T V) c, os_ended (osc_message s a) = os_ended s /\ a_ended (absn_message A b c) = a_ended b.
Proof. exact @messages. Qed.
(** ... and when dropped, they send it if it was not yet sent and the start or the stop time is not after the time of the scope. *)
Theorem C86_hooks : forall T V (A : arith T V) sr (c : @csource T) (s : @osc T V) (b : @absn T V) frame,
  let now := t_div A (t_of_Z A frame) (t_of_v A sr) in
  cs_before_drop A sr c frame = (negb (cs_ended c) && (t_le A (cs_start c) now || t_le A (cs_stop c) now)) /\
  osc_before_drop A sr s frame = (negb (os_ended s) && (t_le A (os_start s) now || t_le A (os_stop s) now)) /\
  absn_before_drop A sr b frame = (negb (a_ended b) && (t_le A (p_start (a_play b)) now || t_le A (a_stop b) now)).
Proof. repeat split. Qed.
Print Assumptions C86_constant_source. Print Assumptions C86_oscillator. Print Assumptions C86_buffer_source. Print Assumptions C86_messages. Print Assumptions C86_hooks.

(** Processors that count: one that has passed 7 has no tail time, one at 100 panics *)
Definition E86 : env nat nat unit := {|
  Graph_Model.silence := 0;
  qadd := fun a b _ => a + b;
  process := fun p ins outs _ _ => if Nat.eqb p 100 then None else Some (S p, map (fun _ => p) outs, Nat.ltb p 7);
  side_effects := fun _ => false
|}.
Lemma E86_ok : env_ok E86.
Proof. intros p ins outs v f p' outs' t H. cbn in H. destruct (Nat.eqb p 100); [discriminate|]. injection H as <- <- <-. apply map_length. Qed.
(** node 1 runs to its end and is dropped; node 2 panics; node 3 gets a message and is there at the end *)
Definition C86_before : list (gop nat unit) := [OpAdd 0 0 1 1 tt].
Definition C86_after : list (gop nat unit) :=
  [OpAdd 2 99 0 1 tt; OpAdd 3 0 0 1 tt; OpConnect 1 0 0 (Some 0); OpConnect 2 0 0 (Some 0); OpConnect 3 0 0 (Some 0); OpDrop 1;
   OpRender 0; OpMessage 3 (fun p => Some (p + 2)); OpRender 4; OpRender 8; OpRender 12].

Example C86_case : exists tr,
  legal_run E86 graph_new (C86_before ++ OpAdd 1 5 0 1 tt :: C86_after) /\ not_registered 1 C86_after /\
  whole_life E86 (C86_before ++ OpAdd 1 5 0 1 tt :: C86_after) 16 = Some tr /\
  of_node 1 tr = [Called 5 6; Called 6 7; Called 7 8; Dropped 8 8] /\
  of_node 2 tr = [Called 99 100; Failed 100; Dropped 100 4] /\
  of_node 3 tr = [Called 0 1; Told 1 3; Called 3 4; Called 4 5; Called 5 6; Dropped 6 16].
Proof.
  eexists. split; [legal_tac|]. split; [repeat constructor; discriminate|]. split; [vm_compute; reflexivity|]. repeat split; vm_compute; reflexivity.
Qed.
(** the hypotheses of [C86_ended]: over from 7 on *)
Example C86_ended_case :
  (forall q i o v f q' o' t, process E86 q i o v f = Some (q', o', t) -> Nat.leb 7 q = true -> Nat.leb 7 q' = true) /\
  Nat.leb 7 5 = false /\ (forall m q q', In (OpMessage 1 m) C86_after -> m q = Some q' -> Nat.leb 7 q' = Nat.leb 7 q) /\
  ended_events (Nat.leb 7) (fun _ _ => true) [Called 5 6; Called 6 7; Called 7 8; Dropped 8 8] = 1.
Proof.
  split. { intros q i o v f q' o' t H L. cbn [process E86] in H. destruct (Nat.eqb q 100); [discriminate|]. injection H as <- <- <-. apply Nat.leb_le in L. apply Nat.leb_le. lia. }
  split; [reflexivity|]. split; [|reflexivity]. intros m q q' H. cbn in H. repeat (destruct H as [H|H]; [discriminate|]). destruct H.
Qed.
