(** The state machine of the online context, and changing its sink: theorems.

    C41 Switching the output device preserves the audio graph and applies all pending control messages in order,
    and the call returns.
    C43 The context state only changes along suspended/running/closed transitions that were requested, closed is
    final, each state change emits one statechange event, and the current time never decreases and does not advance
    while suspended or closed. *)
From Coq Require Import List Arith Bool Lia.
From Verif Require Import Context_Model Context_Spec Context_Proofs Context_ProgressProofs Context_StartProofs.
Import ListNotations.

(** * C43: the state machine *)

(** In every run without sink changes a step leaves the state and the events alone, or it makes one of the
    transitions of the state machine, that one was requested by a call that is still waiting for it or is the start
    of the context, and exactly one event with the new state is emitted. There is no transition out of closed. *)
Theorem C43_transitions_partial : forall (M : Type) (active : list M -> bool) RQ w w' l,
  reaches active RQ false new_context w -> allowed false w l -> step active RQ w l = Some w' ->
  (w_state w' = w_state w /\ w_events w' = w_events w) \/
  (w_events w' = w_events w ++ [w_state w'] /\
   match w_state w, w_state w' with
   | Suspended, Running => (exists t, requested (w_pcs w t) = Some Running) \/ exists g c, w_chan w = Startup g :: c
   | Running, Suspended => exists t, requested (w_pcs w t) = Some Suspended
   | Suspended, Closed | Running, Closed => exists t, requested (w_pcs w t) = Some Closed
   | _, _ => False
   end).
Proof.
  intros M active RQ w w' l R A C. destruct (changes active RQ false w w' l (reach_inv active RQ false w R) A C) as [H|(E & H)]; [left; exact H|right; split; [exact E|]].
  destruct (w_state w), (w_state w'); try exact H. destruct H as [H|(H & _)]; [exact H|discriminate].
Qed.
Print Assumptions C43_transitions_partial.

(** Closed is final, also with sink changes: no later state differs, and there are no more events. *)
Theorem C43_closed_partial : forall (M : Type) (active : list M -> bool) RQ sinks w w', reaches active RQ sinks new_context w -> w_state w = Closed ->
  reaches active RQ sinks w w' -> w_state w' = Closed /\ w_events w' = w_events w.
Proof.
  intros M active RQ sinks w w' R C R'. assert (I := reach_inv active RQ sinks w R). clear R. revert I C. induction R' as [|w1 l w2 R1 IH A St]; intros I C; [split; [exact C|reflexivity]|].
  destruct (IH I C) as [C1 E1]. assert (I1 : Inv sinks w1). { clear - R1 I. induction R1 as [|w1 l w2 R1 IH A St]; [exact I|]. apply (step_inv active RQ sinks w1 w2 l IH A St). }
  destruct (changes active RQ sinks w1 w2 l I1 A St) as [(Q1 & Q2)|(_ & Q)]; [split; congruence|]. rewrite C1 in Q. contradiction.
Qed.
Print Assumptions C43_closed_partial.

(** The current time never goes back: this holds of every step, allowed or not. *)
Theorem C43_monotone : forall (M : Type) (active : list M -> bool) RQ w w' l, step active RQ w l = Some w' -> w_frames w <= w_frames w'.
Proof.
  intros M active RQ w w' l C. destruct l as [t o|t|i k|i|i]; cbn [step] in C.
  - destruct (call_same w w' t o C) as (_ & _ & ->). apply le_n.
  - destruct (thread_same w w' t C) as [(sync & Q)|(_ & _ & ->)]; [|apply le_n]. unfold thread_step in C. rewrite Q in C. injection C as <-. destruct (is_state (w_state w) Closed); apply le_n.
  - destruct (nth_error (w_streams w) i) as [s|]; [|discriminate]. unfold stream_start in C. destruct (s_pc s); try discriminate. destruct (_ && _); [|discriminate]. injection C as <-. apply le_n.
  - destruct (nth_error (w_streams w) i) as [s|]; [|discriminate]. destruct (s_alive s); [|discriminate]. unfold render_step in C.
    assert (H : forall m c, w_frames (handle (with_chan w c) i s m) = w_frames w) by (intros m c; destruct m; cbn [handle]; try destruct (s_graph s); reflexivity).
    destruct (s_pc s) as [|k|[|k]|k|]; try discriminate.
    + destruct (if s_listening s then w_chan w else []); injection C as <-; [apply le_n|]. rewrite H. apply le_n.
    + injection C as <-. apply le_n.
    + destruct (s_graph s); injection C as <-; cbn; lia.
    + destruct (if s_listening s then w_chan w else []); injection C as <-; [apply le_n|]. rewrite H. apply le_n.
  - destruct (nth_error (w_streams w) i) as [s|]; [|discriminate]. unfold stream_request in C. destruct (s_pc s); try discriminate. destruct (s_queue s); [discriminate|]. destruct (s_alive s); [|discriminate]. injection C as <-. apply le_n.
Qed.
Print Assumptions C43_monotone.

(** It advances by one quantum at a time, and only while the context is running; with sink changes as well. *)
Theorem C43_clock_partial : forall (M : Type) (active : list M -> bool) RQ w w' l, reaches active RQ true new_context w -> step active RQ w l = Some w' ->
  w_frames w' = w_frames w \/ (w_frames w' = w_frames w + RQ /\ w_state w = Running /\ w_state w' = Running).
Proof. intros M active RQ w w' l R. apply clock. apply (reach_inv active RQ true w R). Qed.
Print Assumptions C43_clock_partial.

(** Time begins at 0, and goes on in whole quanta; it is 0 until the context has been running. *)
Theorem C43_time_zero : forall (M : Type) (active : list M -> bool) RQ w, reaches active RQ true new_context w ->
  (exists k, w_frames w = k * RQ) /\ (~ In Running (w_events w) -> w_frames w = 0).
Proof.
  intros M active RQ w R. assert (H : (exists k, w_frames w = k * RQ) /\ (w_state w = Running -> In Running (w_events w)) /\ (w_frames w = 0 \/ In Running (w_events w))).
  { induction R as [|w1 l w2 R IH A St]; [split; [exists 0; reflexivity|split; [discriminate|left; reflexivity]]|]. destruct IH as ((k & Hk) & I1 & I2).
    assert (I := reach_inv active RQ true w1 R). pose proof (clock active RQ w1 w2 l I St) as C. pose proof (changes active RQ true w1 w2 l I A St) as D.
    assert (E : In Running (w_events w1) -> In Running (w_events w2)) by (intros N; destruct D as [(_ & ->)|(-> & _)]; [exact N|apply in_or_app; left; exact N]).
    split; [destruct C as [C|(C & _)]; [exists k; congruence|exists (S k); rewrite C, Hk; cbn; lia]|].
    split; [destruct D as [(D1 & D2)|(D1 & _)]; [rewrite D1, D2; exact I1|intros Q; rewrite D1, Q; apply in_or_app; right; left; reflexivity]|].
    destruct C as [C|(C & C1 & _)]; [rewrite C; destruct I2 as [I2|I2]; [left; exact I2|right; apply E; exact I2]|right; apply E, I1, C1]. }
  destruct H as (H1 & _ & H2). split; [exact H1|]. intros N. destruct H2; [assumption|contradiction].
Qed.
Print Assumptions C43_time_zero.

(** A call that returns has brought about what it was called for, or the context is closed. *)
Theorem C43_returns_partial : forall (M : Type) (active : list M -> bool) RQ sinks w w' t,
  reaches active RQ sinks new_context w -> step active RQ w (LStep t) = Some w' -> w_pcs w' t = Idle ->
  match w_pcs w t with
  | SuspChk _ | SuspChk2 _ _ | SuspSend _ | SuspWait _ | SuspStream _ => w_state w' = Suspended \/ w_state w' = Closed
  | ResChk _ | ResStream _ | ResSend _ | ResWait _ => w_state w' = Running \/ w_state w' = Closed
  | CloseChk _ | CloseChk2 _ | CloseSend _ | CloseManual _ | CloseWait _ | CloseStream _ => w_state w' = Closed
  | _ => True
  end.
Proof. intros M active RQ sinks w w' t R. apply (returns sinks w w' t). apply (reach_inv active RQ sinks w R). Qed.
Print Assumptions C43_returns_partial.

(** In every run whatsoever: as long as the context has never run, a call that suspends it is not taken for a call on a
    suspended context, so it takes effect once the context starts.  (See below for a start between the two checks.) *)
Theorem C43_suspend_before_start : forall (M : Type) (active : list M -> bool) RQ ls w t sync st w',
  exec active RQ new_context ls = Some w -> ~ In Running (w_events w) -> w_pcs w t = SuspChk2 sync st ->
  step active RQ w (LStep t) = Some w' -> w_pcs w' t = SuspSend sync.
Proof. exact @suspend_before_start. Qed.
Print Assumptions C43_suspend_before_start.

(** * C41: no deadlock, and no message lost or out of order *)

(** At any moment, whatever call a thread is in, steps of that thread and of the streams alone lead to its return
    and to a free context, on which every call can begin. *)
Theorem C41_completes_partial : forall (M : Type) (active : list M -> bool) RQ sinks w t, reaches active RQ sinks new_context w -> w_pcs w t <> Idle ->
  exists w', helped active RQ sinks t w w' /\ w_lock w' = None /\ w_pcs w' t = Idle.
Proof. intros M active RQ sinks w t R. apply (completes active RQ sinks w t). apply (reach_inv active RQ sinks w R). Qed.
Print Assumptions C41_completes_partial.
Theorem C41_begins_partial : forall (M : Type) (active : list M -> bool) RQ sinks w t o, reaches active RQ sinks new_context w -> w_lock w = None -> exists w', step active RQ w (LCall t o) = Some w'.
Proof. intros M active RQ sinks w t o R. apply (begins sinks w t o). apply (reach_inv active RQ sinks w R). Qed.
Print Assumptions C41_begins_partial.

(** The graph of the current render thread has always received an initial part of the messages sent, in their
    order; and all of them when no call is in progress and nothing is in the channel or stored until the resumption. *)
Theorem C41_messages_partial : forall (M : Type) (active : list M -> bool) RQ sinks w, reaches active RQ sinks new_context w ->
  (forall g, graph_of w = Some g -> prefix_of g (w_issued w)) /\
  (w_lock w = None -> w_chan w = [] -> (w_buf w = None \/ w_buf w = Some []) -> graph_of w = Some (w_issued w)).
Proof.
  intros M active RQ sinks w R. destruct (messages sinks w (reach_inv active RQ sinks w R)) as (A & B). split; [exact A|]. intros L C S. apply (B L C). unfold stored. destruct S as [->| ->]; reflexivity.
Qed.
Print Assumptions C41_messages_partial.

(** * Concrete runs *)
Definition act : list nat -> bool := fun _ => true.
Definition go (ls : list (label nat)) : option (world nat) := exec act 128 new_context ls.
Definition steps (t n : nat) : list (label nat) := repeat (LStep t) n.
(** one callback of no quanta that handles [n] messages *)
Definition pass (i n : nat) : list (label nat) := LStart i 0 :: repeat (LRender i) (n + 2).
(** the context starts; it is suspended with the synchronous call *)
Definition started : list (label nat) := pass 0 1.
Definition suspended : list (label nat) := started ++ LCall 0 (OSuspend true) :: steps 0 3 ++ LStart 0 0 :: LRender 0 :: LRender 0 :: steps 0 2 ++ [LRequest 0].

Example C43_suspend_before_start_example :
  match go [LCall 0 (OSuspend true); LStep 0] with Some w => ~ In Running (w_events w) /\ w_pcs w 0 = SuspChk2 true Suspended | None => False end.
Proof. vm_compute. split; [intros []|reflexivity]. Qed.

(** a schedule is checked to be allowed *)
Fixpoint allowed_run (sinks : bool) (w : world nat) (ls : list (label nat)) : Prop :=
  match ls with
  | [] => True
  | l :: ls' => allowed sinks w l /\ match step act 128 w l with Some w' => allowed_run sinks w' ls' | None => False end
  end.
Lemma allowed_reaches sinks : forall ls w w', allowed_run sinks w ls -> exec act 128 w ls = Some w' -> reaches act 128 sinks w w'.
Proof.
  intros ls w. assert (H : forall ls w0, reaches act 128 sinks w w0 -> forall w', allowed_run sinks w0 ls -> exec act 128 w0 ls = Some w' -> reaches act 128 sinks w w').
  { clear ls. induction ls as [|l ls IH]; intros w0 R w' A E; [injection E as <-; exact R|]. cbn [allowed_run exec] in *. destruct A as (A & B). destruct (step act 128 w0 l) as [w1|] eqn:St; [|discriminate]. apply (IH w1); [|exact B|exact E]. apply (reaches_step _ _ _ _ w0 l w1 R A St). }
  intros w' A E. apply (H ls w (reaches_refl _ _ _ _) w' A E).
Qed.
Ltac settle := repeat split; try exact I; try discriminate; try (intros _; lia); try (intros g H; repeat (destruct H as [H|H]; [discriminate|]); exact H).

(** starting, playing two quanta, suspending, sending, resuming, closing *)
Definition tour : list (label nat) :=
  pass 0 1 ++ [LCall 5 (OSend 1); LStart 0 2] ++ repeat (LRender 0) 7 ++
  LCall 0 (OSuspend true) :: steps 0 3 ++ LStart 0 0 :: LRender 0 :: LRender 0 :: steps 0 2 ++ [LRequest 0; LCall 5 (OSend 2)] ++
  LCall 1 (OResume true) :: steps 1 3 ++ LRequest 0 :: pass 0 2 ++ steps 1 1 ++
  LCall 2 (OClose true) :: steps 2 3 ++ LStart 0 0 :: LRender 0 :: LRender 0 :: steps 2 2.
Example C43_tour : allowed_run false new_context tour /\ match go tour with
  | Some w => w_state w = Closed /\ w_events w = [Running; Suspended; Running; Closed] /\ w_frames w = 256 /\ graph_of w = Some [1; 2] /\ w_issued w = [1; 2] /\ w_lock w = None
  | None => False end.
Proof. split; vm_compute; settle. Qed.

(** the sink is changed while the context runs: the graph moves to the second stream, the message sent next is applied there *)
Definition move : list (label nat) :=
  pass 0 1 ++ [LCall 5 (OSend 1)] ++ pass 0 1 ++ LCall 0 OSink :: steps 0 4 ++ LStart 0 0 :: LRender 0 :: LRender 0 :: steps 0 5 ++ LCall 5 (OSend 2) :: pass 1 2.
Example C41_move : allowed_run true new_context move /\ match go move with
  | Some w => w_state w = Running /\ length (w_streams w) = 2 /\ graph_of w = Some [1; 2] /\ w_issued w = [1; 2] /\ w_lock w = None
  | None => False end.
Proof. split; vm_compute; settle. Qed.

(** * C43: where it does not hold *)
Definition idle (w : world nat) : Prop := forall t, w_pcs w t = Idle.
(** the stream [i] is stopped and has no request to deal with: it will not run by itself *)
Definition dead (w : world nat) (i : nat) : Prop := (forall k, step act 128 w (LStart i k) = None) /\ step act 128 w (LRender i) = None /\ step act 128 w (LRequest i) = None.
(** nothing but a new call is possible *)
Definition hangs (w : world nat) : Prop := forall l, match l with LCall _ _ => False | _ => True end -> step act 128 w l = None.
Ltac look := vm_compute; repeat split; try (intros [|[|[|?]]]; reflexivity).

(** Closed is not final: a context closed right after its construction runs when its stream starts. *)
Theorem C43_close_at_startup_refuted :
  match go (LCall 0 (OClose true) :: steps 0 4 ++ [LStart 0 1; LRender 0]) with
  | Some w => idle w /\ w_state w = Running /\ w_events w = [Closed; Running]
  | None => False end.
Proof. look. Qed.
Print Assumptions C43_close_at_startup_refuted.

(** One change of the state, two events: resuming a context that has not started. *)
Theorem C43_two_events_refuted :
  match go (LCall 0 (OResume true) :: steps 0 3 ++ [LStart 0 1; LRender 0; LRender 0] ++ steps 0 1) with
  | Some w => idle w /\ w_state w = Running /\ w_events w = [Running; Running]
  | None => False end.
Proof. look. Qed.
Print Assumptions C43_two_events_refuted.

(** Suspending a context that has not started may return at once without effect: [startup_pending] is read after
    the state, and the context starts in between. *)
Theorem C43_suspend_lost_refuted :
  match go (LCall 0 (OSuspend true) :: steps 0 1 ++ [LStart 0 1; LRender 0] ++ steps 0 1) with
  | Some w => idle w /\ w_state w = Running /\ w_events w = [Running] /\ w_chan w = []
  | None => False end.
Proof. look. Qed.
Print Assumptions C43_suspend_lost_refuted.

(** Closing while an asynchronous suspension is on its way: the request to close is kept until the resumption, and
    the caller waits for ever. *)
Definition close_stored : list (label nat) :=
  started ++ LCall 0 (OSuspend false) :: steps 0 3 ++ LCall 1 (OClose false) :: steps 1 3 ++ LStart 0 0 :: LRender 0 :: LRender 0 :: steps 0 2 ++ [LRequest 0].
Theorem C43_close_hangs_refuted :
  match go close_stored with
  | Some w => hangs w /\ w_pcs w 1 = CloseWait false /\ w_state w = Suspended
  | None => False end.
Proof. vm_compute. repeat split. intros [t o|t|i k|i|i] H; [contradiction|destruct t as [|[|t]]|destruct i as [|[|i]]|destruct i as [|[|i]]|destruct i as [|[|i]]]; reflexivity. Qed.
Print Assumptions C43_close_hangs_refuted.
(** A resumption then closes the context and sets it running. *)
Theorem C43_close_then_run_refuted :
  match go (close_stored ++ LCall 2 (OResume true) :: steps 2 3 ++ [LRequest 0; LStart 0 0; LRender 0; LRender 0] ++ steps 2 1 ++ steps 1 2) with
  | Some w => idle w /\ w_state w = Running /\ w_events w = [Running; Suspended; Closed; Running]
  | None => False end.
Proof. look. Qed.
Print Assumptions C43_close_then_run_refuted.

(** Closing a suspended context while an asynchronous resumption is on its way. *)
Theorem C43_close_during_resume_refuted :
  match go (suspended ++ LCall 0 (OResume false) :: steps 0 3 ++ LCall 1 (OClose true) :: steps 1 4 ++ [LRequest 0; LStart 0 0; LRender 0] ++ steps 0 1) with
  | Some w => idle w /\ w_state w = Running /\ w_events w = [Running; Suspended; Closed; Running]
  | None => False end.
Proof. look. Qed.
Print Assumptions C43_close_during_resume_refuted.

(** An asynchronous suspension stops the stream late, after a complete resumption: the context is running for ever
    without a callback; whoever suspends or closes it now waits for ever. *)
Definition stopped_late : list (label nat) :=
  started ++ LCall 0 (OSuspend false) :: steps 0 3 ++ LStart 0 0 :: LRender 0 :: LRender 0 :: steps 0 1 ++
  LCall 1 (OResume true) :: steps 1 3 ++ LRequest 0 :: pass 0 1 ++ steps 1 1 ++ steps 0 1 ++ [LRequest 0].
Theorem C43_running_without_callbacks_refuted :
  match go stopped_late with
  | Some w => idle w /\ w_state w = Running /\ w_lock w = None /\ dead w 0
  | None => False end /\
  match go (stopped_late ++ LCall 2 (OClose true) :: steps 2 3) with
  | Some w => hangs w /\ w_pcs w 2 = CloseWait true
  | None => False end.
Proof. split; [look|]. vm_compute. repeat split. intros [t o|t|i k|i|i] H; [contradiction|destruct t as [|[|[|t]]]|destruct i as [|[|i]]|destruct i as [|[|i]]|destruct i as [|[|i]]]; reflexivity. Qed.
Print Assumptions C43_running_without_callbacks_refuted.

(** Changing the sink of a running context emits two events nobody asked for; when the call returns the context is
    suspended. *)
Definition changed : list (label nat) := started ++ LCall 0 OSink :: steps 0 4 ++ LStart 0 0 :: LRender 0 :: LRender 0 :: steps 0 5.
Theorem C43_sink_events_refuted :
  match go changed with Some w => idle w /\ w_state w = Suspended /\ w_events w = [Running; Suspended] | None => False end /\
  match go (changed ++ pass 1 1) with Some w => idle w /\ w_state w = Running /\ w_events w = [Running; Suspended; Running] | None => False end.
Proof. split; look. Qed.
Print Assumptions C43_sink_events_refuted.
(** A suspension in that window is ignored, and a context closed in that window runs again. *)
Theorem C43_sink_window_refuted :
  match go (changed ++ LCall 1 (OSuspend true) :: steps 1 2 ++ pass 1 1) with Some w => idle w /\ w_state w = Running | None => False end /\
  match go (changed ++ LCall 1 (OClose true) :: steps 1 4 ++ pass 1 1) with Some w => idle w /\ w_state w = Running /\ w_events w = [Running; Suspended; Closed; Running] | None => False end.
Proof. split; look. Qed.
Print Assumptions C43_sink_window_refuted.

(** Changing the sink of a suspended context may leave it running without callbacks: the new stream starts before
    it is asked to stop. *)
Theorem C43_sink_suspended_refuted :
  match go (suspended ++ LCall 0 OSink :: steps 0 5 ++ LRequest 0 :: LStart 0 0 :: LRender 0 :: LRender 0 :: steps 0 6 ++ pass 1 1 ++ [LRequest 1]) with
  | Some w => idle w /\ w_state w = Running /\ w_events w = [Running; Suspended; Suspended; Running] /\ dead w 1
  | None => False end.
Proof. look. Qed.
Print Assumptions C43_sink_suspended_refuted.

(** * C41: where it does not hold *)

(** A message that waits when the sink is changed is taken out of the channel and sent again at the end, with the
    channel still locked: the call never returns, unless the context is closed. *)
Definition caught : list (label nat) :=
  started ++ [LCall 5 (OSend 7)] ++ LCall 0 OSink :: steps 0 5 ++ LStart 0 0 :: LRender 0 :: LRender 0 :: steps 0 4.
Theorem C41_deadlock_refuted :
  match go caught with
  | Some w => forall ls w', (forall t sync, ~ In (LCall t (OClose sync)) ls) -> exec act 128 w ls = Some w' -> w_pcs w' 0 = SinkFlush [Apply 7] /\ step act 128 w' (LStep 0) = None
  | None => False end.
Proof.
  destruct (go caught) as [w|] eqn:E; [|vm_compute in E; discriminate]. intros ls w' N X.
  assert (J : jam 0 (Apply 7) [] w).
  { assert (H : match go caught with Some w => w_pcs w 0 = SinkFlush [Apply 7] /\ w_wlock w = Some 0 /\ w_lock w = Some 0 /\ w_state w = Suspended /\ w_chan w = [Startup []] /\ forall u, w_pcs w (S u) = Idle | None => False end) by (vm_compute; repeat split).
    rewrite E in H. destruct H as (H1 & H2 & H3 & H4 & H5 & H6). split; try assumption; [rewrite H4; discriminate|rewrite H5; intros u [Q|[]]; discriminate|]. intros [|u] U; [contradiction|]. rewrite H6. exact I. }
  destruct (jammed_run act 128 0 (Apply 7) [] ls w w' J N X) as [J1 J2 J3 J4 J5 J6]. split; [exact J1|]. cbn [step]. unfold thread_step. rewrite J1. unfold send_msg. rewrite J2. cbn [free]. destruct (w_state w'); [reflexivity|reflexivity|contradiction].
Qed.
Print Assumptions C41_deadlock_refuted.
(** the race for the messages in the channel: the call takes the first, the old render thread applies the second *)
Theorem C41_reordered_refuted :
  match go (started ++ [LCall 5 (OSend 1); LCall 5 (OSend 2)] ++ LCall 0 OSink :: steps 0 3 ++ [LStart 0 0; LRender 0]) with
  | Some w => graph_of w = Some [2] /\ w_issued w = [1; 2]
  | None => False end.
Proof. look. Qed.
Print Assumptions C41_reordered_refuted.
Example C41_caught : match go (caught ++ pass 1 1) with Some w => w_pcs w 0 = SinkFlush [Apply 7] /\ graph_of w = Some [] /\ w_issued w = [7] | None => False end.
Proof. look. Qed.
