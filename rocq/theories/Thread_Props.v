(** Properties of the render thread and of offline rendering. *)
From Coq Require Import List Arith Bool Sorted ZArith QArith Lia.
From Verif Require Import Thread_Model Thread_Spec Thread_Proofs Thread_OfflineProofs Thread_ReportProofs.
Import ListNotations.
Local Open Scope nat_scope.

(** ** C14: the callback size does not change the audio *)

(** Whatever the callback sizes and whenever messages arrive: the delivered
    samples, followed by the frames not yet delivered, are the samples of a history
    of the render thread; every buffer is filled completely; the messages are
    handled in order of arrival, none is lost or repeated; fewer than one
    quantum of frames is held back. *)
Theorem C14_stream : forall G M V T (GO : @graph_ops G M V) zero (conv : V -> T) RQ n bufs t rest bs t' outs rest' bs',
  0 < RQ -> graph_ok GO RQ -> 0 < n ->
  Forall (fun buf => exists m, length buf = m * n) bufs -> offset_ok RQ n t ->
  callbacks GO zero conv RQ n t bufs rest bs = Some (t', outs, rest', bs') ->
  exists es, history GO RQ (core t) es (core t') /\
    concat outs ++ undelivered zero conv RQ n t' = undelivered zero conv RQ n t ++ concat (map (sound zero conv RQ n) es) /\
    map (@length T) outs = map (@length T) bufs /\
    offset_ok RQ n t' /\
    rest ++ concat bs = handled es ++ rest' ++ concat bs'.
Proof. intros. eapply callbacks_stream; eauto. Qed.
Print Assumptions C14_stream.

(** Without messages, the output is the beginning of the interleaved quanta, and
    the clock is less than one quantum ahead of the delivered frames. *)
Theorem C14_output_is_the_stream_of_quanta : forall G M V T (GO : @graph_ops G M V) zero (conv : V -> T) RQ n bufs t t' outs rest' bs',
  0 < RQ -> graph_ok GO RQ -> stays_active GO -> 0 < n ->
  Forall (fun buf => exists m, length buf = m * n) bufs -> t_offset t = None -> live GO t ->
  callbacks GO zero conv RQ n t bufs [] [] = Some (t', outs, rest', bs') ->
  map (@length T) outs = map (@length T) bufs /\
  (exists k qs, quanta GO RQ k (core t) = Some qs /\
    length (concat bufs) <= k * (RQ * n) < length (concat bufs) + RQ * n /\
    t_frames t' = t_frames t + k * RQ) /\
  forall k qs, quanta GO RQ k (core t) = Some qs -> length (concat bufs) <= k * (RQ * n) ->
    concat outs = firstn (length (concat bufs)) (concat (map (fun q => frames_from zero conv RQ n q 0) qs)).
Proof. intros. eapply callbacks_live; eauto. Qed.
Print Assumptions C14_output_is_the_stream_of_quanta.

Theorem C14_callback_sizes_are_irrelevant : forall G M V T (GO : @graph_ops G M V) zero (conv : V -> T) RQ n t
    bufs1 bufs2 t1 t2 outs1 outs2 rest1 rest2 bs1 bs2,
  0 < RQ -> graph_ok GO RQ -> stays_active GO -> 0 < n ->
  Forall (fun buf => exists m, length buf = m * n) bufs1 -> Forall (fun buf => exists m, length buf = m * n) bufs2 ->
  length (concat bufs1) = length (concat bufs2) ->
  t_offset t = None -> live GO t ->
  callbacks GO zero conv RQ n t bufs1 [] [] = Some (t1, outs1, rest1, bs1) ->
  callbacks GO zero conv RQ n t bufs2 [] [] = Some (t2, outs2, rest2, bs2) ->
  concat outs1 = concat outs2.
Proof.
  intros G M V T GO zero conv RQ n t bufs1 bufs2 t1 t2 outs1 outs2 rest1 rest2 bs1 bs2 H1 H2 H3 H4 F1 F2 HL H5 H6 C1 C2.
  destruct (callbacks_live GO zero conv RQ H1 H2 H3 n bufs1 t t1 outs1 rest1 bs1 H4 F1 H5 H6 C1) as (_ & (k & qs & K1 & K2 & _) & A).
  destruct (callbacks_live GO zero conv RQ H1 H2 H3 n bufs2 t t2 outs2 rest2 bs2 H4 F2 H5 H6 C2) as (_ & _ & B).
  rewrite (A k qs K1 (proj1 K2)), (B k qs K1); [rewrite HL; reflexivity|]. rewrite <- HL. exact (proj1 K2).
Qed.
Print Assumptions C14_callback_sizes_are_irrelevant.

(** Unless the graph is taken away in the middle, a callback does not panic. *)
Theorem C14_callbacks_never_panic_partial : forall G M V T (GO : @graph_ops G M V) zero (conv : V -> T) RQ n bufs t rest bs,
  0 < RQ -> graph_ok GO RQ -> graph_total GO -> 0 < n ->
  Forall (fun buf : list T => exists m, length buf = m * n) bufs -> offset_ok RQ n t ->
  t_graph t <> None -> no_recycle rest -> Forall no_recycle bs ->
  callbacks GO zero conv RQ n t bufs rest bs <> None.
Proof. intros G M V T GO zero conv RQ n bufs t rest bs H1 H2 [H3 H4]; intros. eapply callbacks_total; eauto. Qed.
Print Assumptions C14_callbacks_never_panic_partial.

(** A thread that has not received its graph yet plays silence. *)
Theorem C14_silence_before_the_graph : forall G M V T (GO : @graph_ops G M V) zero (conv : V -> T) RQ n t bufs,
  t_graph t = None -> t_offset t = None ->
  callbacks GO zero conv RQ n t bufs [] [] = Some (t, map (map (fun _ => conv zero)) bufs, [], []).
Proof.
  intros G M V T GO zero conv RQ n t bufs Hg Ho. induction bufs as [|b bufs IH]; [reflexivity|].
  cbn [callbacks]. unfold render_inner, render_next, receive, handle_control_messages. rewrite Ho. cbn [hd tl app handle_all].
  replace (if t_listening t then Some (t, []) else Some (t, [])) with (Some (t, @nil (@cmsg G M))) by (destruct (t_listening t); reflexivity).
  rewrite Hg. cbn [negb]. rewrite orb_true_r, IH. reflexivity.
Qed.
Print Assumptions C14_silence_before_the_graph.

(** *** Examples *)

(** a graph that plays a counter: quantum [g] is [100 g], [100 g + 1], ... on one channel *)
Definition counter : @graph_ops nat nat nat :=
  mk_graph_ops (fun g _ => Some (S g, [map (fun i => 100 * g + i) (seq 0 4)])) (fun g m => Some (g + m)) (fun _ => true).

Lemma counter_ok : graph_ok counter 4.
Proof. intros g f g' q H. cbn in H. injection H as <- <-. split; [discriminate|]. repeat constructor. Qed.
Lemma counter_active : stays_active counter.
Proof. intros g f g' q _ _. reflexivity. Qed.
Lemma counter_total : graph_total counter.
Proof. split; discriminate. Qed.

Definition fresh : @thread nat nat := mk_thread (Some 1) false Running 0 true None [] [] [].
(** a thread that is booting; once the graph has arrived it plays *)
Definition booting : @thread nat nat := mk_thread None false Suspended 0 true None [] [] [].
Example C14_silence_case : t_graph booting = None /\ t_offset booting = None /\
  callbacks counter 0 (fun x => x) 4 1 booting [[9; 9; 9]; [9; 9]] [] [] = Some (booting, [[0; 0; 0]; [0; 0]], [], []) /\
  option_map (fun r => snd (fst (fst r))) (callbacks counter 0 (fun x => x) 4 1 booting [[9; 9; 9]; [9; 9]] [] [[]; [StartupMsg 1]]) = Some [[0; 0; 0]; [100; 101]].
Proof. repeat split. Qed.

Definition bufs_of (n : nat) (sizes : list nat) : list (list nat) := map (fun k => repeat 7 (k * n)) sizes.

(** 2 output channels, quanta of 4 frames, callbacks of 3, 1, 5 and 2 frames *)
Example C14_example :
  option_map (fun r => concat (snd (fst (fst r)))) (callbacks counter 0 (fun x => x) 4 2 fresh (bufs_of 2 [3; 1; 5; 2]) [] []) =
  Some [100; 0; 101; 0; 102; 0; 103; 0; 200; 0; 201; 0; 202; 0; 203; 0; 300; 0; 301; 0; 302; 0] /\
  option_map (fun r => concat (snd (fst (fst r)))) (callbacks counter 0 (fun x => x) 4 2 fresh (bufs_of 2 [11]) [] []) =
  option_map (fun r => concat (snd (fst (fst r)))) (callbacks counter 0 (fun x => x) 4 2 fresh (bufs_of 2 [3; 1; 5; 2]) [] []) /\
  Forall (fun buf => exists m, length buf = m * 2) (bufs_of 2 [3; 1; 5; 2]) /\
  offset_ok 4 2 fresh /\ live counter fresh.
Proof.
  split; [reflexivity|]. split; [reflexivity|]. split; [|split; [exact I|split; [reflexivity|exists 1; auto]]].
  unfold bufs_of. apply Forall_forall. intros b Hb. apply in_map_iff in Hb. destruct Hb as (k & <- & _). exists k. apply repeat_length.
Qed.

(** a message arriving in the middle of a callback takes effect at the next quantum;
    after a suspension the frames already rendered are still delivered *)
Example C14_example_messages :
  option_map (fun r => (concat (snd (fst (fst r))), t_frames (fst (fst (fst r)))))
    (callbacks counter 0 (fun x => x) 4 1 fresh (bufs_of 1 [6; 6]) [] [[]; [GraphMsg 3]; []; [SuspendMsg 0]]) =
  Some ([100; 101; 102; 103; 500; 501; 502; 503; 0; 0; 0; 0], 8).
Proof. reflexivity. Qed.

(** ** C41: taking the graph away in the middle of a callback *)

(** When the sink is changed, [CloseAndRecycle] takes the graph out of the
    render thread.  If the message is handled between two quanta of one callback,
    the next quantum finds no graph: the render thread panics. *)
Theorem C41_recycle_during_callback_refuted :
  exists (buf : list nat) bs, callbacks counter 0 (fun x => x) 4 1 fresh [buf] [] bs = None /\
    length buf = 8 /\ concat bs = [RecycleMsg].
Proof. exists (repeat 0 8), [[]; [RecycleMsg]]. repeat split. Qed.
Print Assumptions C41_recycle_during_callback_refuted.

(** ** C43: the reports of the render thread *)

(** Whatever the callback sizes and whenever messages arrive: every message that changes the state is reported to the control
    thread, in order and once, everybody who waits for one is notified, in order and once; the state is that of the last report. *)
Theorem C43_changes_are_reported : forall G M V T (GO : @graph_ops G M V) zero (conv : V -> T) RQ n bufs t rest bs t' outs rest' bs',
  callbacks GO zero conv RQ n t bufs rest bs = Some (t', outs, rest', bs') ->
  exists ms, rest ++ concat bs = ms ++ rest' ++ concat bs' /\ t_events t' = t_events t ++ flat_map changes ms /\ t_notified t' = t_notified t ++ flat_map asks ms /\ t_state t' = last (flat_map changes ms) (t_state t) /\ t_suspended t' = pauses ms (t_suspended t).
Proof. intros G M V T GO zero conv RQ n bufs t rest bs t' outs rest' bs' H. exact (callbacks_reports GO zero conv RQ n bufs t t' rest bs outs rest' bs' H). Qed.
Print Assumptions C43_changes_are_reported.
Example C43_changes_are_reported_case :
  option_map (fun r => let t := fst (fst (fst r)) in (t_events t, t_notified t, t_state t, t_suspended t))
    (callbacks counter 0 (fun x => x) 4 1 fresh (bufs_of 1 [6; 6; 4]) [] [[]; [GraphMsg 3; SuspendMsg 7]; [ResumeMsg 8; CloseMsg 9]]) = Some ([Suspended; Running; Closed], [7; 8; 9], Closed, true).
Proof. reflexivity. Qed.

(** ** C43: the clock after a suspension *)

(** A suspension handled between two quanta of one callback does not stop the
    callback: the state is Suspended and the requester notified, yet quanta are
    still rendered and the clock still advances. *)
Theorem C43_suspended_clock_stands_still_refuted :
  exists t1 t2 (out : list nat) rest bs,
    receive counter fresh [] [[SuspendMsg 5]] = Some (t1, [], []) /\
    t_state t1 = Suspended /\ t_notified t1 = [5] /\
    render_chunks counter 0 (fun x => x) 4 1 t1 (chunks 4 (repeat 0 8)) [] [] = Some (t2, out, rest, bs) /\
    t_state t2 = Suspended /\ t_frames t2 = t_frames t1 + 8.
Proof. eexists _, _, _, _, _. repeat split. Qed.
Print Assumptions C43_suspended_clock_stands_still_refuted.

(** and this is what happens within a callback *)
Example C43_suspended_clock_example :
  option_map (fun r => (t_state (fst (fst (fst r))), t_frames (fst (fst (fst r)))))
    (callbacks counter 0 (fun x => x) 4 1 fresh (bufs_of 1 [12]) [] [[]; [SuspendMsg 5]]) = Some (Suspended, 12).
Proof. reflexivity. Qed.

(** ** C15: offline rendering *)
Theorem C15_exactly_the_requested_buffer : forall G M V (GO : @graph_ops G M V) zero RQ n len t init susp evs t' buf ran,
  0 < RQ -> graph_ok GO RQ -> ordered susp ->
  render_audiobuffer GO zero RQ n len t init susp evs = Some (t', buf, ran) ->
  length buf = n /\ Forall (fun ch => length ch = len) buf /\
  t_frames t' = t_frames t + div_ceil len RQ * RQ /\
  exists qs, length qs = div_ceil len RQ /\
    (forall i, i < n -> nth_error buf i = Some (firstn len (channel zero RQ i qs))) /\
    (t_listening t = true -> no_recycle init -> Forall (fun s => no_recycle (snd s)) susp -> Forall no_recycle evs ->
      history GO RQ t (Receive init :: offline_schedule susp evs qs) t').
Proof.
  intros G M V GO zero RQ n len t init susp evs t' buf ran H1 H2 H3 H.
  destruct (audiobuffer_spec GO zero RQ H1 H2 n len t init susp evs t' buf ran H3 H) as (qs & A1 & A2 & A3 & A4 & A5 & A6 & A7).
  split; [exact A3|]. split.
  - apply Forall_forall. intros ch Hch. apply In_nth_error in Hch. destruct Hch as [i Hi].
    assert (L : i < n) by (rewrite <- A3; apply nth_error_Some; congruence).
    destruct (A4 i L) as [B1 B2]. congruence.
  - split; [exact A5|]. exists qs. split; [exact A1|]. split; [intros i Hi; apply (A4 i Hi)|exact A7].
Qed.
Print Assumptions C15_exactly_the_requested_buffer.

Theorem C15_offline_never_panics : forall G M V (GO : @graph_ops G M V) zero RQ n len t init susp evs,
  0 < RQ -> graph_ok GO RQ -> graph_total GO -> 0 < n ->
  t_graph t <> None -> no_recycle init -> Forall (fun s => no_recycle (snd s)) susp -> Forall no_recycle evs ->
  render_audiobuffer GO zero RQ n len t init susp evs <> None.
Proof. intros G M V GO zero RQ n len t init susp evs H1 H2 [H3 H4]; intros. eapply audiobuffer_total; eauto. Qed.
Print Assumptions C15_offline_never_panics.

(** 2 channels (the graph is mono), 10 frames, a suspension before the third quantum *)
Example C15_example :
  option_map (fun r => (snd (fst r), snd r, t_frames (fst (fst r))))
    (render_audiobuffer counter 0 4 2 10 fresh [GraphMsg 1] [(2, [GraphMsg 5])] []) =
  Some ([[200; 201; 202; 203; 300; 301; 302; 303; 900; 901]; repeat 0 10], [(2, 8)], 12).
Proof. reflexivity. Qed.

(** ** C16: offline suspension *)

(** A time is accepted iff it is within the buffer, and is rounded up to the first
    boundary not earlier (exact arithmetic; the source rounds to f64). *)
Theorem C16_first_boundary : forall RQ len sr time, 0 < RQ -> (0 < sr)%Q ->
  (calculate_suspend_frame RQ len sr time <> None <-> (0 <= time)%Q /\ (time < inject_Z (Z.of_nat len) / sr)%Q) /\
  (forall q, calculate_suspend_frame RQ len sr time = Some q ->
    (time <= boundary_time RQ sr q)%Q /\ forall q', (time <= boundary_time RQ sr q')%Q -> q <= q').
Proof. intros RQ len sr time H1 H2. destruct (suspend_frame_spec RQ len sr time H1 H2). auto. Qed.
Print Assumptions C16_first_boundary.

(** Scheduling in any order yields a strictly ordered schedule; a second suspension
    at the same boundary is refused. *)
Theorem C16_schedule_is_ordered : forall A q (a : A) l, ordered l ->
  (insert_suspension q a l = None <-> exists a', In (q, a') l) /\
  forall l', insert_suspension q a l = Some l' -> ordered l' /\ forall x, In x l' <-> x = (q, a) \/ In x l.
Proof. exact @insert_spec. Qed.
Print Assumptions C16_schedule_is_ordered.

(** Every suspension scheduled before the end takes place exactly once, with
    the clock at its boundary, in time order, its messages being handled just
    before the quantum it was scheduled for; nothing else takes place.
    Missing: suspensions accepted for the boundary at the end of the last quantum. *)
Theorem C16_executed_exactly_once_partial : forall G M V (GO : @graph_ops G M V) zero RQ n len t init susp evs t' buf ran,
  0 < RQ -> graph_ok GO RQ -> ordered susp -> t_frames t = 0 ->
  render_audiobuffer GO zero RQ n len t init susp evs = Some (t', buf, ran) ->
  (forall s, In s susp -> fst s * RQ < len -> In (fst s, fst s * RQ) ran) /\
  (forall q f, In (q, f) ran -> f = q * RQ /\ f < len /\ exists ms, In (q, ms) susp) /\
  StronglySorted lt (map fst ran) /\
  (t_listening t = true -> no_recycle init -> Forall (fun s => no_recycle (snd s)) susp -> Forall no_recycle evs ->
    exists qs, length qs = div_ceil len RQ /\ history GO RQ t (Receive init :: offline_schedule susp evs qs) t').
Proof.
  intros G M V GO zero RQ n len t init susp evs t' buf ran H1 H2 H3 H0 H.
  destruct (audiobuffer_spec GO zero RQ H1 H2 n len t init susp evs t' buf ran H3 H) as (qs & A1 & A2 & A3 & A4 & A5 & A6 & A7).
  rewrite H0 in A6. cbn [Nat.add] in A6. subst ran. split; [|split; [|split]].
  - intros s Hs Hlt. apply in_map_iff. exists s. split; [reflexivity|]. apply filter_In. split; [exact Hs|].
    apply Nat.ltb_lt. apply div_ceil_spec; assumption.
  - intros q f Hq. apply in_map_iff in Hq. destruct Hq as (s & E & Hs). injection E as <- <-. apply filter_In in Hs.
    destruct Hs as [Hs1 Hs2]. apply Nat.ltb_lt in Hs2. apply div_ceil_spec in Hs2; [|exact H1].
    split; [reflexivity|]. split; [exact Hs2|]. exists (snd s). destruct s. exact Hs1.
  - rewrite map_map. cbn [fst]. unfold ordered in H3. clear -H3. induction susp as [|s l IH]; [constructor|].
    cbn [map] in H3. inversion H3 as [|? ? S1 S2]; subst. cbn [filter]. destruct (Nat.ltb (fst s) _); [|apply IH; exact S1].
    cbn [map]. constructor; [apply IH; exact S1|]. rewrite Forall_forall in *. intros x Hx. apply S2.
    apply in_map_iff in Hx. destruct Hx as (y & <- & Hy). apply in_map. apply filter_In in Hy. exact (proj1 Hy).
  - intros. exists qs. split; [exact A1|]. apply A7; assumption.
Qed.
Print Assumptions C16_executed_exactly_once_partial.

Example C16_example : forall ms : list (@cmsg nat nat),
  suspend_at 4 10 (8#1) (9#16) ms [(0, []); (3, [])] = Some [(0, []); (2, ms); (3, [])] /\
  suspend_at 4 10 (8#1) (3#4) ms [(0, []); (2, [])] = None.
Proof. intros ms. split; reflexivity. Qed.

(** A suspension within the last quantum is accepted, and never takes place: it is
    scheduled for the boundary at the end of the rendering.  (The caller of the
    asynchronous variant then panics on the dropped channel.) *)
Theorem C16_executed_exactly_once_refuted :
  exists len time (susp : list (nat * list (@cmsg nat nat))) t' buf,
    suspend_at 4 len (8#1) time [GraphMsg 5] [] = Some susp /\ susp <> [] /\
    render_audiobuffer counter 0 4 1 len fresh [] susp [] = Some (t', buf, []).
Proof. exists 10, (9#8)%Q. eexists _, _, _. repeat split. discriminate. Qed.
Print Assumptions C16_executed_exactly_once_refuted.
