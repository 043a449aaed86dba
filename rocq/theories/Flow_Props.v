(** * Property C68: a fixed graph computes its equations *)
From Coq Require Import List Arith Bool Lia.
From Verif Require Import Graph_Model Graph_Spec Graph_OrderProofs Graph_RenderProofs
  Graph_TraceModel Graph_TraceSpec Graph_TraceProofs Graph_Props Flow_Spec Flow_Proofs.
Import ListNotations.

(** After any history of control messages and quanta, as long as no message arrives, the application holds all its nodes and
    no processor panics: over any number of quanta, the nodes' states and outputs are a solution of the equations of the graph,
    and the destination's first output is what the render thread puts out. *)
Theorem C68_dataflow :
  forall P Q CFG (E : env P Q CFG) ops g ls frames g' ll os, env_ok E ->
  legal_run E graph_new ops -> registrations_in_time ops -> along E no_cycle_when_rendering graph_new ops ->
  grun E ops graph_new = Some (g, ls) ->
  (forall i, live (g_nodes g) i -> handle_alive i ops) -> (forall i, ~ on_delay_free_cycle (g_nodes g) i) ->
  play E g frames = Some (g', ll, os) -> Forall (Forall (fun lg => l_result lg <> None)) ll ->
  exists ns ord state, cut_at_breakers (g_nodes g) ns /\ dataflow E ns ord frames state /\
    (forall k o, nth_error os k = Some o -> hd_error (outputs_of (state (S k)) 0) = Some o) /\ length os = length frames.
Proof. intros until os. intro EOK. apply flow_history. exact EOK. Qed.
Print Assumptions C68_dataflow.

(** and such quanta can always be rendered when no processor panics *)
Theorem C68_plays :
  forall P Q CFG (E : env P Q CFG) ops g ls frames, env_ok E -> never_panics E ->
  legal_run E graph_new ops -> registrations_in_time ops -> along E no_cycle_when_rendering graph_new ops ->
  grun E ops graph_new = Some (g, ls) ->
  (forall i, live (g_nodes g) i -> handle_alive i ops) -> (forall i, ~ on_delay_free_cycle (g_nodes g) i) ->
  (exists d, get (g_nodes g) 0 = Some d /\ n_outputs d <> []) ->
  exists g' ll os, play E g frames = Some (g', ll, os) /\ Forall (Forall (fun lg => l_result lg <> None)) ll.
Proof. intros until frames. intro EOK. apply play_history. exact EOK. Qed.
Print Assumptions C68_plays.

(** The equations leave no choice: with processors that read only the nodes connected to them, two solutions are equal *)
Theorem C68_one_solution :
  forall P Q CFG (E : env P Q CFG) ns ord frames s1 s2, reads_connected E ns s1 ->
  dataflow E ns ord frames s1 -> dataflow E ns ord frames s2 ->
  forall k i, k <= length frames -> live ns i -> s1 k i = s2 k i.
Proof. intros P Q CFG E ns ord frames s1 s2 HR H1 H2 k i Hk [n Hn]. exact (dataflow_unique E ns ord frames s1 s2 HR H1 H2 k i n Hk Hn). Qed.
Print Assumptions C68_one_solution.

(** and whoever finds a solution knows what is played, panics included: none of the nodes panics *)
Theorem C68_solution_is_played :
  forall P Q CFG (E : env P Q CFG) ops g ls, env_ok E ->
  legal_run E graph_new ops -> registrations_in_time ops -> along E no_cycle_when_rendering graph_new ops ->
  grun E ops graph_new = Some (g, ls) ->
  (forall i, live (g_nodes g) i -> handle_alive i ops) -> (forall i, ~ on_delay_free_cycle (g_nodes g) i) ->
  (exists d, get (g_nodes g) 0 = Some d /\ n_outputs d <> []) ->
  exists ns ord, cut_at_breakers (g_nodes g) ns /\ rendering_order ns ord /\ (forall i, live ns i -> In i ord) /\
    forall frames state, reads_connected E ns state -> dataflow E ns ord frames state ->
    exists g' ll os, play E g frames = Some (g', ll, os) /\ Forall (Forall (fun lg => l_result lg <> None)) ll /\
      forall k o, nth_error os k = Some o -> hd_error (outputs_of (state (S k)) 0) = Some o.
Proof. intros until ls. intro EOK. apply solved_history. exact EOK. Qed.
Print Assumptions C68_solution_is_played.

(** An environment with state: a processor [p] puts out [p] plus its inputs and counts up *)
Definition E2 : env nat nat unit := {|
  silence := 0;
  qadd := fun a b _ => a + b;
  process := fun p ins outs _ _ => Some (S p, map (fun _ => p + sumn ins) outs, true);
  side_effects := fun _ => false
|}.

(** a source directly connected, then rerouted through a node that is registered afterwards *)
Definition ops_reroute : list (gop nat unit) :=
  [ OpAdd 0 0 1 1 tt; OpAdd 1 5 0 1 tt; OpConnect 1 0 0 (Some 0); OpAdd 2 0 1 1 tt; OpDisconnect 1 0 0 (Some 0);
    OpConnect 1 0 2 (Some 0); OpConnect 2 0 0 (Some 0) ].

Lemma E2_ok : env_ok E2.
Proof. intros p ins outs v f p' outs' t H. cbn in H. injection H as <- <- <-. apply map_length. Qed.

Lemma no_cycle_rank {P Q CFG} (ns : nodes P Q CFG) (rank : nat -> nat) :
  (forall a b, connected ns a b -> rank b < rank a) -> forall i, ~ on_delay_free_cycle ns i.
Proof.
  intros H i ([|a l] & Hc & _ & _); [exact Hc|]. cbn in Hc.
  assert (X : forall l a b, chain (connected ns) a l b -> rank b < rank a).
  { clear -H. induction l as [|x l IH]; cbn; intros a b Hc; [apply H; exact Hc|]. destruct Hc as [H1 H2]. apply H in H1. apply IH in H2. lia. }
  apply X in Hc. lia.
Qed.

Lemma live_check (ns : nodes nat nat unit) l :
  forallb (fun i => match get ns i with Some _ => existsb (Nat.eqb i) l | None => true end) (seq 0 (length ns)) = true ->
  forall i n, get ns i = Some n -> In i l.
Proof.
  intros H i n Hn. rewrite forallb_forall in H. specialize (H i). rewrite Hn in H.
  assert (X : existsb (Nat.eqb i) l = true) by (apply H, in_seq; split; [lia|apply (get_In _ _ _ Hn)]).
  apply existsb_exists in X. destruct X as (x & Hx & He). apply Nat.eqb_eq in He. subst x. exact Hx.
Qed.

Example C68_example : exists g ls g' ll,
  env_ok E2 /\ never_panics E2 /\ legal_run E2 graph_new ops_reroute /\ registrations_in_time ops_reroute /\
  along E2 no_cycle_when_rendering graph_new ops_reroute /\ grun E2 ops_reroute graph_new = Some (g, ls) /\
  (forall i, live (g_nodes g) i -> handle_alive i ops_reroute) /\ (forall i, ~ on_delay_free_cycle (g_nodes g) i) /\
  (forall state, reads_connected E2 (g_nodes g) state) /\
  play E2 g [0; 128; 256] = Some (g', ll, [5; 8; 11]) /\ Forall (Forall (fun lg => l_result lg <> None)) ll.
Proof.
  eexists _, _, _, _. split; [exact E2_ok|]. split; [intros p ins outs v f; discriminate|]. split; [legal_tac|].
  split; [reflexivity|].
  split. { repeat match goal with
    | |- along _ _ _ _ => hnf
    | |- no_cycle_when_rendering _ _ /\ _ => split; [exact I|intros ? ? ?H; vm_compute in H; injection H as <- <-]
    | |- True => exact I
    end. }
  split; [vm_compute; reflexivity|].
  split. { intros i [n Hn]. assert (Hi : In i [0; 1; 2]) by (eapply live_check; [|exact Hn]; vm_compute; reflexivity). clear Hn.
    destruct Hi as [<-|[<-|[<-|[]]]].
    - exists [], 0, 1, 1, tt. eexists. split; [reflexivity|]. intros H. cbn in H. repeat destruct H as [H|H]; try discriminate; exact H.
    - exists [OpAdd 0 0 1 1 tt], 5, 0, 1, tt. eexists. split; [reflexivity|]. intros H. cbn in H. repeat destruct H as [H|H]; try discriminate; exact H.
    - exists [OpAdd 0 0 1 1 tt; OpAdd 1 5 0 1 tt; OpConnect 1 0 0 (Some 0)], 0, 1, 1, tt. eexists. split; [reflexivity|]. intros H. cbn in H. repeat destruct H as [H|H]; try discriminate; exact H. }
  split. { apply (no_cycle_rank _ (fun i => match i with 0 => 0 | 1 => 2 | _ => 1 end)).
    intros a b (n & e & Hn & He & Hb). assert (Hi : In a [0; 1; 2]) by (eapply live_check; [|exact Hn]; vm_compute; reflexivity).
    destruct Hi as [<-|[<-|[<-|[]]]]; vm_compute in Hn;
      injection Hn as <-; cbn in He; repeat destruct He as [He|He]; try contradiction; subst e; cbn in Hb; subst b; lia. }
  split; [intros state k i p outs ins v v' f _ _; reflexivity|]. split; [vm_compute; reflexivity|]. repeat (apply Forall_nil || apply Forall_cons); cbn; discriminate.
Qed.
