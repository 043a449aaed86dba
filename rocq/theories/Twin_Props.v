(** * Property C78: a realtime context plays what an offline context renders *)
From Coq Require Import List Arith Bool ZArith Lia Permutation Reals Lra.
From Flocq Require Import Core BinarySingleNaN.
From Verif Require Import Float_Model Common_Model Arith_Model Arith_Real Buffer_Model Quantum_Model Source_Model Buffer_ResampleProofs
  Graph_Model Graph_TraceModel Flow_Props Thread_Model Thread_Spec Whole_Model Whole_Props Twin_Proofs
  Desk_Model Desk_Spec Desk_RealSpec Desk_FloatSpec Desk_RealProofs Desk_IeeeProofs Desk_Props.
Import ListNotations.
Local Open Scope nat_scope.

(** The application builds a graph.  If an OfflineAudioContext renders [len] frames of it on [n] channels, an AudioContext with [n] output
    channels that is given the same graph does not panic either, whatever the sizes of the hardware callbacks, fills the buffer of every
    callback, and its output (frame by frame, the channels of a frame next to each other) has the samples of the rendered buffer.
    ([conv] converts a sample to the type of the device.) *)
Theorem C78_same_sound : forall P Q CFG V T (E : env P Q CFG) (chans : Q -> list (list V)) zero (conv : V -> T) RQ n len msgs p ins outs cfg t1 buf ran bufs,
  0 < RQ -> (forall q, well_formed RQ (chans q)) -> 0 < n -> In (OpAdd 0 p ins outs cfg) msgs ->
  render_audiobuffer (audio_graph E chans) zero RQ n len new_thread (startup msgs) [] [] = Some (t1, buf, ran) ->
  Forall (fun b => exists m, length b = m * n) bufs -> length (concat bufs) <= len * n ->
  exists t t2 outs, handle_control_messages (audio_graph E chans) new_thread (startup msgs) = Some (t, []) /\
    callbacks (audio_graph E chans) zero conv RQ n t bufs [] [] = Some (t2, outs, [], []) /\ map (@length T) outs = map (@length T) bufs /\
    forall i j, i < n -> j * n + i < length (concat bufs) ->
      nth_error (concat outs) (j * n + i) = option_map conv (nth_error (nth i buf []) j).
Proof. intros P Q CFG V T E chans zero conv RQ n len msgs p ins outs cfg t1 buf ran bufs H1 H2. exact (realtime_is_offline E chans zero conv RQ H1 H2 n len msgs p ins outs cfg t1 buf ran bufs). Qed.
Print Assumptions C78_same_sound.

(** The graph may be changed while it is rendered.  The messages of an offline suspension at quantum [k], and those of the event handlers
    after it, have the effect of the same messages sent to a realtime context whose device asks for one quantum per callback, if they
    arrive before callback [k] and while it runs. *)
Theorem C78_suspensions : forall P Q CFG V T (E : env P Q CFG) (chans : Q -> list (list V)) zero (conv : V -> T) RQ n len msgs p ins outs cfg susp evs t1 buf ran bufs,
  0 < RQ -> (forall q, well_formed RQ (chans q)) -> 0 < n -> In (OpAdd 0 p ins outs cfg) msgs -> ordered susp ->
  render_audiobuffer (audio_graph E chans) zero RQ n len new_thread (startup msgs)
    (map (fun s => (fst s, map GraphMsg (snd s))) susp) (map (map GraphMsg) evs) = Some (t1, buf, ran) ->
  Forall (fun b => length b = RQ * n) bufs -> length bufs = div_ceil len RQ ->
  exists t t2 outs, handle_control_messages (audio_graph E chans) new_thread (startup msgs) = Some (t, []) /\
    callbacks (audio_graph E chans) zero conv RQ n t bufs []
      (flat_map (fun k => [messages_at (map (fun s => (fst s, map GraphMsg (snd s))) susp) k; nth k (map (map GraphMsg) evs) []]) (seq 0 (div_ceil len RQ)))
      = Some (t2, outs, [], []) /\
    forall i j, i < n -> j < len -> nth_error (concat outs) (j * n + i) = option_map (conv : V -> T) (nth_error (nth i buf []) j).
Proof. intros P Q CFG V T E chans zero conv RQ n len msgs p ins outs cfg susp evs t1 buf ran bufs H1 H2. exact (realtime_is_offline_steps E chans zero conv RQ H1 H2 n len msgs p ins outs cfg susp evs t1 buf ran bufs). Qed.
Print Assumptions C78_suspensions.

(** at the boundary of the second quantum the application takes the source out of the graph; an event handler puts it back *)
Definition unplug : list (nat * list (gop nat unit)) := [(1, [OpDisconnect 1 0 2 (Some 0)])].
Definition replug : list (list (gop nat unit)) := [[]; [OpConnect 1 0 2 (Some 0)]].
Example C78_example : exists t1 t t2,
  In (OpAdd 0 0 1 1 tt) ops_reroute /\ ordered unplug /\
  render_audiobuffer (audio_graph E2 chans4) 0 4 2 10 new_thread (startup ops_reroute)
    (map (fun s => (fst s, map GraphMsg (snd s))) unplug) (map (map GraphMsg) replug) =
    Some (t1, [[5; 5; 5; 5; 2; 2; 2; 2; 11; 11]; repeat 0 10], [(1, 4)]) /\
  handle_control_messages (audio_graph E2 chans4) new_thread (startup ops_reroute) = Some (t, []) /\
  callbacks (audio_graph E2 chans4) 0 S 4 2 t (repeat (repeat 0 8) 3) [] [[]; []; map GraphMsg [OpDisconnect 1 0 2 (Some 0)]; map GraphMsg [OpConnect 1 0 2 (Some 0)]; []; []] =
    Some (t2, [[6; 1; 6; 1; 6; 1; 6; 1]; [3; 1; 3; 1; 3; 1; 3; 1]; [12; 1; 12; 1; 12; 1; 12; 1]], [], []).
Proof.
  eexists _, _, _. split; [left; reflexivity|]. split; [repeat constructor|]. split; [vm_compute; reflexivity|]. split; vm_compute; reflexivity.
Qed.

(** ** The mixing desk of C70, played by a realtime context *)
(** A realtime context with [n] output channels: every callback buffer is filled with the mix, converted to the sample type of the device. *)
Theorem C78_desk : forall T (conv : R -> T) sr n len (parts : list part) bufs,
  (0 < sr)%R -> 0 < n <= max_channels -> Forall (part_legal sr) parts -> (INR len / sr <= t_MAX exact)%R ->
  Forall (fun b => exists m, length b = m * n) bufs -> length (concat bufs) <= len * n ->
  exists t t2 outs,
    handle_control_messages (audio_graph (desk_env exact Param_Real.real_ops sr) (samples exact)) new_thread
      (startup (desk exact Param_Real.real_ops n (map part_calls parts))) = Some (t, []) /\
    callbacks (audio_graph (desk_env exact Param_Real.real_ops sr) (samples exact)) 0%R conv 128 n t bufs [] [] = Some (t2, outs, [], []) /\
    map (@length T) outs = map (@length T) bufs /\
    forall c j, c < n -> j * n + c < length (concat bufs) -> exists y, nth_error (concat outs) (j * n + c) = Some (conv y) /\
      (if speaker n c
       then Rabs (y - mix_at sr parts (Z.of_nat j)) <= / 1000000 * total (map (fun p => Rabs (source_at sr p (Z.of_nat j))) parts)
       else y = 0)%R.
Proof.
  intros T conv sr n len parts bufs H1 H2 H3 H4 H5 H6. destruct (desk_real sr H1 n len parts H2 H3 H4) as (t' & buf & B1 & B2 & B3).
  destruct (C78_same_sound _ _ _ _ T (desk_env exact Param_Real.real_ops sr) (samples exact) 0%R conv 128 n len (desk exact Param_Real.real_ops n (map part_calls parts)) P_destination 1 1 (destination_config n) t' buf [] bufs)
    as (t & t2 & outs & C1 & C2 & C3 & C4); auto with arith; [apply Desk_Proofs.samples_ok|lia|left; reflexivity|].
  exists t, t2, outs. split; [exact C1|]. split; [exact C2|]. split; [exact C3|]. intros c j Hc Hj. rewrite (C4 c j Hc Hj).
  destruct (B3 c Hc) as (ch & N1 & N2 & N3). rewrite (nth_error_nth _ _ [] N1).
  destruct (N3 j) as (y & Y1 & Y2); [nia|]. exists y. rewrite Y1. split; [reflexivity|exact Y2].
Qed.
Print Assumptions C78_desk.

(** Floating point, bit for bit *)
Theorem C78_desk_floats : forall T (conv : f32 -> T) M PO sr n len (strips : list strip) bufs,
  rate_ok sr -> 0 < n <= max_channels -> Forall (strip_ok M PO sr (div_ceil len 128)) strips -> (INR (len + 128) / B2R (f64_of_f32 sr) <= 8388608)%R ->
  Forall (fun b => exists m, length b = m * n) bufs -> length (concat bufs) <= len * n ->
  exists order t t2 outs, Permutation strips order /\
    handle_control_messages (audio_graph (desk_env (ieee M) PO sr) (samples (ieee M))) new_thread
      (startup (desk (ieee M) PO n (map fst strips))) = Some (t, []) /\
    callbacks (audio_graph (desk_env (ieee M) PO sr) (samples (ieee M))) f32_zero conv 128 n t bufs [] [] = Some (t2, outs, [], []) /\
    map (@length T) outs = map (@length T) bufs /\
    forall c j, c < n -> j * n + c < length (concat bufs) -> nth_error (concat outs) (j * n + c) = Some (conv (
        if speaker n c
        then nth (j mod 128) (match sum f32_add (map (strip_quantum M sr (j / 128)) order) with Some v => v | None => repeat f32_zero 128 end) f32_zero
        else f32_zero)).
Proof.
  intros T conv M PO sr n len strips bufs H1 H2 H3 H4 H5 H6. destruct (desk_ieee M PO sr H1 n len strips H2 H3 H4) as (order & t' & buf & HP & B1 & B2 & B3).
  destruct (C78_same_sound _ _ _ _ T (desk_env (ieee M) PO sr) (samples (ieee M)) f32_zero conv 128 n len (desk (ieee M) PO n (map fst strips)) P_destination 1 1 (destination_config n) t' buf [] bufs)
    as (t & t2 & outs & C1 & C2 & C3 & C4); auto with arith; [apply Desk_Proofs.samples_ok|lia|left; reflexivity|].
  exists order, t, t2, outs. split; [exact HP|]. split; [exact C1|]. split; [exact C2|]. split; [exact C3|]. intros c j Hc Hj. rewrite (C4 c j Hc Hj).
  destruct (B3 c Hc) as (ch & N1 & N2 & N3). rewrite (nth_error_nth _ _ [] N1). rewrite N3 by nia. reflexivity.
Qed.
Print Assumptions C78_desk_floats.
