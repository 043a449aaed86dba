(** * Property C85: changing the graph in the middle of an offline rendering *)
From Coq Require Import List Arith Bool Lia.
From Verif Require Import Graph_Model Graph_Spec Graph_TraceModel Graph_TraceSpec Graph_Props Flow_Spec Flow_Props
  Thread_Model Thread_Spec Whole_Model Whole_Spec Whole_Props Change_Spec Change_Proofs.
Import ListNotations.

(** The application builds a graph, asks for suspensions at some quanta, changes the graph in each of them in any way (it keeps
    its nodes) and renders [len] frames.  In each stage (between two suspensions) the samples are those of the solution of the
    equations (C68) of the graph as changed so far, from the very first sample frame of the stage on.  A node that was not itself
    sent a message goes on from where it was at the end of the stage before. *)
Theorem C85_changes : forall P Q CFG V (E : env P Q CFG) (chans : Q -> list (list V)) zero RQ n len msgs k0 (st : list stage) gend logs,
  0 < RQ -> (forall q, well_formed RQ (chans q)) -> env_ok E -> 0 < n ->
  let all := (msgs, k0) :: st in
  Forall (fun s => messages_only (fst s)) all -> Forall (fun s => 0 < snd s) st -> duration all = div_ceil len RQ ->
  legal_run E graph_new (performed RQ 0 all) -> registrations_in_time (performed RQ 0 all) ->
  along E no_cycle_when_rendering graph_new (performed RQ 0 all) -> (forall i, ~ In (OpDrop i) (performed RQ 0 all)) ->
  grun E (performed RQ 0 all) graph_new = Some (gend, logs) -> Forall (Forall (fun lg => l_result lg <> None)) logs ->
  exists t' buf ran (state : nat -> nat -> moment),
    render_audiobuffer (audio_graph E chans) zero RQ n len new_thread (startup msgs) (suspended_at k0 st) [] = Some (t', buf, ran) /\
    length buf = n /\ Forall (fun ch => length ch = len) buf /\
    forall before ms k after, all = before ++ (ms, k) :: after -> 0 < k ->
      (exists g ls ns ord, grun E (performed RQ 0 before ++ ms) graph_new = Some (g, ls) /\ cut_at_breakers (g_nodes g) ns /\
         dataflow E ns ord (frames_of RQ (duration before) k) (state (length before))) /\
      (forall earlier ms' k' i, before = earlier ++ [(ms', k')] -> 0 < k' -> untold i ms -> state (length before) 0 i = state (length earlier) k' i) /\
      forall i j, i < n -> j < k * RQ -> duration before * RQ + j < len ->
        exists ch, nth_error buf i = Some ch /\ nth_error ch (duration before * RQ + j) = Some (heard chans zero RQ (state (length before)) i j).
Proof. intros until logs. intros H1 H2 EOK. apply changes; assumption. Qed.
Print Assumptions C85_changes.

(** Nothing that is changed from some suspension on is heard before it: two renderings that agree up to there, whatever their
    lengths and whatever happens later (legal as far as the graph is concerned), have the same samples up to there. *)
Theorem C85_causal : forall P Q CFG V (E : env P Q CFG) (chans : Q -> list (list V)) zero RQ n len len' msgs k0 (pre st st' : list stage),
  0 < RQ -> (forall q, well_formed RQ (chans q)) -> env_ok E -> 0 < n ->
  Forall (fun s => messages_only (fst s)) ((msgs, k0) :: pre ++ st) -> Forall (fun s => 0 < snd s) (pre ++ st) -> duration ((msgs, k0) :: pre ++ st) = div_ceil len RQ ->
  Forall (fun s => messages_only (fst s)) ((msgs, k0) :: pre ++ st') -> Forall (fun s => 0 < snd s) (pre ++ st') -> duration ((msgs, k0) :: pre ++ st') = div_ceil len' RQ ->
  legal_run E graph_new (performed RQ 0 ((msgs, k0) :: pre ++ st)) -> legal_run E graph_new (performed RQ 0 ((msgs, k0) :: pre ++ st')) ->
  exists t buf ran t' buf' ran',
    render_audiobuffer (audio_graph E chans) zero RQ n len new_thread (startup msgs) (suspended_at k0 (pre ++ st)) [] = Some (t, buf, ran) /\
    render_audiobuffer (audio_graph E chans) zero RQ n len' new_thread (startup msgs) (suspended_at k0 (pre ++ st')) [] = Some (t', buf', ran') /\
    forall i j, i < n -> j < duration ((msgs, k0) :: pre) * RQ -> j < len -> j < len' ->
      exists ch ch' v, nth_error buf i = Some ch /\ nth_error buf' i = Some ch' /\ nth_error ch j = Some v /\ nth_error ch' j = Some v.
Proof. intros until st'. intros H1 H2 EOK. apply causal; assumption. Qed.
Print Assumptions C85_causal.

(** A source (node 1, a counter from 5) into the destination; after two quanta a second source (node 2, from 100) is added;
    after one more quantum the first is disconnected. *)
Definition C85_msgs : list (gop nat unit) := [OpAdd 0 0 1 1 tt; OpAdd 1 5 0 1 tt; OpConnect 1 0 0 (Some 0)].
Definition C85_stages : list (@stage nat unit) := [([OpAdd 2 100 0 1 tt; OpConnect 2 0 0 (Some 0)], 1); ([OpDisconnect 1 0 0 (Some 0)], 2)].

Example C85_case : exists gend logs t',
  Forall (fun s => messages_only (fst s)) ((C85_msgs, 2) :: C85_stages) /\ Forall (fun s => 0 < snd s) C85_stages /\
  duration ((C85_msgs, 2) :: C85_stages) = div_ceil 18 4 /\
  legal_run E2 graph_new (performed 4 0 ((C85_msgs, 2) :: C85_stages)) /\ registrations_in_time (performed 4 0 ((C85_msgs, 2) :: C85_stages)) /\
  along E2 no_cycle_when_rendering graph_new (performed 4 0 ((C85_msgs, 2) :: C85_stages)) /\ (forall i, ~ In (OpDrop i) (performed 4 0 ((C85_msgs, 2) :: C85_stages))) /\
  grun E2 (performed 4 0 ((C85_msgs, 2) :: C85_stages)) graph_new = Some (gend, logs) /\ Forall (Forall (fun lg => l_result lg <> None)) logs /\
  render_audiobuffer (audio_graph E2 chans4) 0 4 1 18 new_thread (startup C85_msgs) (suspended_at 2 C85_stages) [] =
    Some (t', [[5; 5; 5; 5; 7; 7; 7; 7; 109; 109; 109; 109; 104; 104; 104; 104; 106; 106]], [(2, 8); (3, 12)]).
Proof.
  eexists _, _, _. split; [repeat constructor|]. split; [repeat constructor|]. split; [reflexivity|]. split; [legal_tac|].
  split; [vm_compute; repeat split|]. split.
  { assert (NC : forall g : graph nat nat unit, forallb (fun i => match get (g_nodes g) i with Some n => forallb (fun e => Nat.ltb (e_dest e) i) (n_edges n) | None => true end) (seq 0 (length (g_nodes g))) = true ->
      forall i, ~ on_delay_free_cycle (g_nodes g) i).
    { intros g H. apply (no_cycle_rank _ (fun i => i)). intros a b (n & e & Hn & He & Hb). rewrite forallb_forall in H.
      assert (La : a < length (g_nodes g)) by (unfold get in Hn; apply nth_error_Some; destruct (nth_error (g_nodes g) a); congruence).
      specialize (H a ltac:(apply in_seq; lia)). rewrite Hn, forallb_forall in H. specialize (H e He). apply Nat.ltb_lt in H. congruence. }
    repeat match goal with
    | |- along _ _ _ [] => exact I
    | |- along _ _ _ _ => split
    | |- no_cycle_when_rendering _ (OpRender _) => cbn [no_cycle_when_rendering]; apply NC; vm_compute; reflexivity
    | |- no_cycle_when_rendering _ _ => first [exact I|cbn [no_cycle_when_rendering]; apply NC; vm_compute; reflexivity]
    | |- forall _ _, gstep _ _ _ = _ -> _ => intros ? ? ?H; vm_compute in H; injection H as <- <-
    end. }
  split. { intros i H. vm_compute in H. repeat destruct H as [H|H]; try discriminate. exact H. }
  split; [vm_compute; reflexivity|]. split; [repeat (apply Forall_nil || apply Forall_cons); cbn; discriminate|]. vm_compute. reflexivity.
Qed.
