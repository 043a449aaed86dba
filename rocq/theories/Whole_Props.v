(** * Property C69: what is rendered is the sound of the graph that was built *)
From Coq Require Import List Arith Bool Lia.
From Verif Require Import Graph_Model Graph_Spec Graph_OrderProofs Graph_RenderProofs
  Graph_TraceModel Graph_TraceSpec Graph_TraceProofs Graph_Props Flow_Spec Flow_Proofs Flow_Props
  Thread_Model Thread_Spec Thread_Proofs Thread_OfflineProofs Whole_Model Whole_Spec Whole_Proofs.
Import ListNotations.

(** Offline.  The application builds any graph with any control messages, keeps all its nodes, and renders [len] frames on [n]
    channels: the result is one buffer with [n] channels of [len] frames, whose sample [j] on channel [i] is the sample
    [j mod RQ] of that channel at the destination in quantum [j / RQ], the quanta being the solution of the equations of the
    graph for the frame counters 0, [RQ], 2 [RQ], ... *)
Theorem C69_offline : forall P Q CFG V (E : env P Q CFG) (chans : Q -> list (list V)) zero RQ n len msgs g ls,
  0 < RQ -> (forall q, well_formed RQ (chans q)) -> env_ok E -> never_panics E -> 0 < n ->
  legal_run E graph_new msgs -> registrations_in_time msgs -> messages_only msgs -> grun E msgs graph_new = Some (g, ls) ->
  (forall i, Graph_Spec.live (g_nodes g) i -> handle_alive i msgs) -> (forall i, ~ on_delay_free_cycle (g_nodes g) i) ->
  (exists d, get (g_nodes g) 0 = Some d /\ n_outputs d <> []) ->
  exists t' buf ns ord state,
    render_audiobuffer (audio_graph E chans) zero RQ n len new_thread (startup msgs) [] [] = Some (t', buf, []) /\
    cut_at_breakers (g_nodes g) ns /\ dataflow E ns ord (clock RQ (div_ceil len RQ)) state /\ length buf = n /\
    forall i, i < n -> exists ch, nth_error buf i = Some ch /\ length ch = len /\
      forall j, j < len -> nth_error ch j = Some (heard chans zero RQ state i j).
Proof.
  intros P Q CFG V E chans zero RQ n len msgs g ls H1 H2 EOK NP Hn HL HT HM HR HA HC HD.
  destruct (play_history E EOK msgs g ls (clock RQ (div_ceil len RQ)) NP HL HT) as (g' & ll & os & HP & HN); try assumption.
  { clear - HM. generalize (@graph_new P Q CFG). induction HM as [|m msgs H1 H2 IH]; intros g0; cbn; [exact I|]. split; [destruct m; (exact I || destruct H1)|intros; apply IH]. }
  exact (offline_flow E chans zero RQ H1 H2 EOK n len msgs g ls g' ll os Hn HL HT HM HR HA HC HP HN).
Qed.
Print Assumptions C69_offline.

(** The same when processors may panic, but do not in these quanta *)
Theorem C69_offline_no_panic : forall P Q CFG V (E : env P Q CFG) (chans : Q -> list (list V)) zero RQ n len msgs g ls g' ll os,
  0 < RQ -> (forall q, well_formed RQ (chans q)) -> env_ok E -> 0 < n ->
  legal_run E graph_new msgs -> registrations_in_time msgs -> messages_only msgs -> grun E msgs graph_new = Some (g, ls) ->
  (forall i, Graph_Spec.live (g_nodes g) i -> handle_alive i msgs) -> (forall i, ~ on_delay_free_cycle (g_nodes g) i) ->
  play E g (clock RQ (div_ceil len RQ)) = Some (g', ll, os) -> Forall (Forall (fun lg => l_result lg <> None)) ll ->
  exists t' buf ns ord state,
    render_audiobuffer (audio_graph E chans) zero RQ n len new_thread (startup msgs) [] [] = Some (t', buf, []) /\
    cut_at_breakers (g_nodes g) ns /\ dataflow E ns ord (clock RQ (div_ceil len RQ)) state /\ length buf = n /\
    forall i, i < n -> exists ch, nth_error buf i = Some ch /\ length ch = len /\
      forall j, j < len -> nth_error ch j = Some (heard chans zero RQ state i j).
Proof. intros until os. intros H1 H2 EOK. apply offline_flow; assumption. Qed.
Print Assumptions C69_offline_no_panic.

(** Whoever finds a solution of the equations knows the rendered buffer. *)
Theorem C69_solution : forall P Q CFG V (E : env P Q CFG) (chans : Q -> list (list V)) zero RQ n len msgs g ls,
  0 < RQ -> (forall q, well_formed RQ (chans q)) -> env_ok E -> 0 < n ->
  legal_run E graph_new msgs -> registrations_in_time msgs -> messages_only msgs -> grun E msgs graph_new = Some (g, ls) ->
  (forall i, Graph_Spec.live (g_nodes g) i -> handle_alive i msgs) -> (forall i, ~ on_delay_free_cycle (g_nodes g) i) ->
  (exists d, get (g_nodes g) 0 = Some d /\ n_outputs d <> []) ->
  exists ns ord, cut_at_breakers (g_nodes g) ns /\ rendering_order ns ord /\ (forall i, Graph_Spec.live ns i -> In i ord) /\
    forall state, reads_connected E ns state -> dataflow E ns ord (clock RQ (div_ceil len RQ)) state ->
    exists t' buf, render_audiobuffer (audio_graph E chans) zero RQ n len new_thread (startup msgs) [] [] = Some (t', buf, []) /\ length buf = n /\
      forall i, i < n -> exists ch, nth_error buf i = Some ch /\ length ch = len /\
        forall j, j < len -> nth_error ch j = Some (heard chans zero RQ state i j).
Proof. intros P Q CFG V E chans zero RQ n len msgs g ls HR HQ EOK. apply (offline_solved E chans zero RQ HR HQ EOK). Qed.
Print Assumptions C69_solution.

(** Realtime.  After the same messages, hardware callbacks of any sizes deliver the same samples, interleaved. *)
Theorem C69_realtime : forall P Q CFG V T (E : env P Q CFG) (chans : Q -> list (list V)) zero (conv : V -> T) RQ n bufs msgs g ls t t' outs rest' bs' k g' ll os,
  0 < RQ -> (forall q, well_formed RQ (chans q)) -> env_ok E -> 0 < n ->
  legal_run E graph_new msgs -> registrations_in_time msgs -> messages_only msgs -> grun E msgs graph_new = Some (g, ls) ->
  (forall i, Graph_Spec.live (g_nodes g) i -> handle_alive i msgs) -> (forall i, ~ on_delay_free_cycle (g_nodes g) i) ->
  handle_control_messages (audio_graph E chans) new_thread (startup msgs) = Some (t, []) -> is_active g = true ->
  Forall (fun buf => exists m, length buf = m * n) bufs ->
  callbacks (audio_graph E chans) zero conv RQ n t bufs [] [] = Some (t', outs, rest', bs') ->
  length (concat bufs) <= k * (RQ * n) ->
  play E g (clock RQ k) = Some (g', ll, os) -> Forall (Forall (fun lg => l_result lg <> None)) ll ->
  exists ns ord state,
    cut_at_breakers (g_nodes g) ns /\ dataflow E ns ord (clock RQ k) state /\ map (@length T) outs = map (@length T) bufs /\
    forall i j, i < n -> j * n + i < length (concat bufs) -> nth_error (concat outs) (j * n + i) = Some (conv (heard chans zero RQ state i j)).
Proof. intros until os. intros H1 H2 EOK. apply callbacks_flow; assumption. Qed.
Print Assumptions C69_realtime.

(** a mono quantum of four equal samples *)
Definition chans4 (q : nat) : list (list nat) := [repeat q 4].

Example C69_example : exists g ls t1 t2 t3 outs,
  (forall q, well_formed 4 (chans4 q)) /\ env_ok E2 /\ never_panics E2 /\ messages_only ops_reroute /\
  legal_run E2 graph_new ops_reroute /\ registrations_in_time ops_reroute /\ grun E2 ops_reroute graph_new = Some (g, ls) /\
  is_active g = true /\ (exists d, get (g_nodes g) 0 = Some d /\ n_outputs d <> []) /\
  render_audiobuffer (audio_graph E2 chans4) 0 4 2 10 new_thread (startup ops_reroute) [] [] =
    Some (t1, [[5; 5; 5; 5; 8; 8; 8; 8; 11; 11]; repeat 0 10], []) /\
  handle_control_messages (audio_graph E2 chans4) new_thread (startup ops_reroute) = Some (t2, []) /\
  callbacks (audio_graph E2 chans4) 0 (fun x => x) 4 1 t2 [[0; 0; 0]; [0; 0; 0; 0]] [] [] = Some (t3, outs, [], []) /\
  outs = [[5; 5; 5]; [5; 8; 8; 8]].
Proof.
  eexists _, _, _, _, _, _. split; [intros q; split; [discriminate|repeat constructor]|]. split; [exact E2_ok|]. split; [intros p ins outs v f; discriminate|].
  split; [repeat constructor|]. split; [legal_tac|]. split; [reflexivity|]. split; [vm_compute; reflexivity|]. split; [reflexivity|].
  split; [eexists; split; [reflexivity|discriminate]|]. split; [vm_compute; reflexivity|]. split; [vm_compute; reflexivity|]. split; vm_compute; reflexivity.
Qed.
