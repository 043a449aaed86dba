(** Theorems about sample buffers and channel mixing: C10, C11, C12, C13. *)
From Coq Require Import List Arith Bool Reals Lra Lia.
From Verif Require Import Quantum_HeapModel Quantum_HeapSpec Quantum_HeapProofs
  Quantum_Model Quantum_Spec Quantum_Proofs.
Import ListNotations.
Open Scope nat_scope.

(** ** C10: buffers are isolated *)

(** Whatever channels are created, copied, written, assigned and dropped, in any
    order and with any initial pool, reading a channel of the reference-counted
    implementation gives what a collection of private arrays gives. *)
Theorem C10_channels_are_private_arrays :
  forall (V : Type) (zero : V) (size capacity : nat) (os : list (hop V)),
  match hrun zero size (with_capacity zero size capacity) os, vrun zero size vals_init os with
  | Some h, Some s =>
      (forall i, hread h i = option_map snd (vget s i)) /\
      (forall i, his_silent h i = option_map (fun c => Nat.eqb (fst c) 0) (vget s i)) /\
      (forall i j, hptr_eq h i j =
         match vget s i, vget s j with
         | Some a, Some b => Some (Nat.eqb (fst a) (fst b)) | _, _ => None end)
  | None, None => True
  | _, _ => False
  end.
Proof. exact @heap_refines. Qed.
Print Assumptions C10_channels_are_private_arrays.

(** The silence buffer is zero forever, and a buffer in the pool is there only
    once, is not the silence buffer and belongs to no channel. *)
Theorem C10_pool_is_unreferenced :
  forall (V : Type) (zero : V) (size capacity : nat) (os : list (hop V)) h,
  hrun zero size (with_capacity zero size capacity) os = Some h ->
  nth_error (h_data h) zeroes = Some (repeat zero size) /\
  (forall l, In l (h_pool h) -> forall i, handle h i <> Some l) /\
  NoDup (h_pool h) /\ ~ In zeroes (h_pool h).
Proof. exact @heap_invariant. Qed.
Print Assumptions C10_pool_is_unreferenced.

(** a run with sharing, copy on write, return to the pool and reuse *)
Example C10_example :
  let os := [HSilence; HWrite 0 (map (fun _ => 7)); HClone 0; HWrite 1 (map S); HDrop 0;
             HSilence; HWrite 2 (map (fun _ => 3)); HAssign 1 2; HAssignSilence 2] in
  match hrun 0 3 (with_capacity 0 3 1) os with
  | Some h => hread h 0 = None /\ hread h 1 = Some [3;3;3] /\ hread h 2 = Some [0;0;0]
              /\ h_pool h <> [] /\ his_silent h 2 = Some true /\ his_silent h 1 = Some false
  | None => False
  end.
Proof. vm_compute. repeat split; discriminate. Qed.

(** ** C11: silence is zero *)

Theorem C11_silent_channel_is_zero :
  forall (V : Type) (zero : V) (size capacity : nat) (os : list (hop V)) h i,
  hrun zero size (with_capacity zero size capacity) os = Some h ->
  his_silent h i = Some true -> hread h i = Some (repeat zero size).
Proof. exact @heap_silent. Qed.
Print Assumptions C11_silent_channel_is_zero.

Theorem C11_silent_quantum_is_zero :
  forall size s val q t,
  good_quantum size s val q -> is_silent q = true -> frame q t = repeat 0%R (length q).
Proof. exact main_is_silent. Qed.
Print Assumptions C11_silent_quantum_is_zero.

Definition three : list (chan R) :=
  [mk_chan 0 [0;0]%R; mk_chan 4 [1;2]%R; mk_chan 4 [1;2]%R].
Definition val_three (n : nat) : list R := match n with 0 => [0;0]%R | _ => [1;2]%R end.

Example good_three : good_quantum 2 5 val_three three.
Proof.
  repeat split; simpl; try lia; intros; destruct H as [<-|[<-|[<-|[]]]]; simpl; try lia; reflexivity.
Qed.

(** ** C12: mixing matrices *)

(** [mix] to [m] channels never fails for 1 to 32 channels, yields exactly [m]
    channels and each frame is the one given by the Web Audio matrices.  The
    exception is four to five speakers, see [C12_quad_to_five_refuted]. *)
Theorem C12_mixing_follows_the_matrices :
  forall size s val q m i,
  good_quantum size s val q -> 1 <= m <= 32 ->
  exists s' q' val', mix Rsops size s q m i = Some (s', q') /\
    good_quantum size s' val' q' /\ length q' = m /\
    (~ (i = Speakers /\ length q = 4 /\ m = 5) ->
     forall t, t < size -> frame q' t = mix_frame i m (frame q t)).
Proof. exact main_mix. Qed.
Print Assumptions C12_mixing_follows_the_matrices.

(** other channel counts are refused *)
Theorem C12_invalid_counts_are_refused :
  forall size s (q : list (chan R)) m i, q <> [] ->
  (mix Rsops size s q m i = None <-> length q <> m /\ (m = 0 \/ 32 < m)).
Proof. exact main_mix_panics. Qed.
Print Assumptions C12_invalid_counts_are_refused.

(** up-mixing followed by down-mixing restores the signal *)
Theorem C12_round_trip :
  forall size s val q m i,
  good_quantum size s val q -> 1 <= m <= 32 ->
  (i = Speakers /\ In (length q, m) [(1, 2); (1, 6); (2, 6); (4, 6)]) \/
  (i = Discrete /\ length q <= m) ->
  exists s' q' s'' q'',
    mix Rsops size s q m i = Some (s', q') /\
    mix Rsops size s' q' (length q) i = Some (s'', q'') /\
    forall t, t < size -> frame q'' t = frame q t.
Proof. exact main_round_trip. Qed.
Print Assumptions C12_round_trip.

Definition quad : list (chan R) :=
  [mk_chan 1 [1]%R; mk_chan 1 [1]%R; mk_chan 2 [2]%R; mk_chan 2 [2]%R].
Definition val_quad (n : nat) : list R := match n with 0 => [0]%R | 1 => [1]%R | _ => [2]%R end.

Example good_quad : good_quantum 1 3 val_quad quad.
Proof.
  repeat split; simpl; try lia; intros; destruct H as [<-|[<-|[<-|[<-|[]]]]]; simpl; try lia; reflexivity.
Qed.

(** Five channels are not a speaker layout of the specification, so the
    channels should be kept in place; the code moves the last two. *)
Theorem C12_quad_to_five_refuted :
  exists size s val q s' q', good_quantum size s val q /\
    mix Rsops size s q 5 Speakers = Some (s', q') /\
    exists t, t < size /\ frame q' t <> mix_frame Speakers 5 (frame q t).
Proof.
  exists 1, 3, val_quad, quad, 3, (firstn 2 quad ++ [silence_chan Rsops 1] ++ skipn 2 quad).
  split; [exact good_quad|]. split; [reflexivity|]. exists 0. split; [lia|].
  unfold mix_frame; simpl. intros H. injection H as H. lra.
Qed.
Print Assumptions C12_quad_to_five_refuted.

(** ** C13: summing *)

(** Adding a signal to an input yields the prescribed number of channels, and
    each frame is the sum of the two mixed frames, unless all channels of both
    signals share a buffer and they are not equivalent to a mono signal. *)
Theorem C13_sum_of_mixed_signals_partial :
  forall size s val q1 q2 cfg,
  good_quantum size s val q1 -> good_quantum size s val q2 -> 1 <= cc_count cfg <= 32 ->
  let n := computed_channels cfg [length q1; length q2] in
  let i := cc_interp cfg in
  exists s' q val', add Rsops size s q1 q2 cfg = Some (s', q) /\
   good_quantum size s' val' q /\ length q = n /\
   (~ (i = Speakers /\ length q1 = 4 /\ n = 5) -> ~ (i = Speakers /\ length q2 = 4 /\ n = 5) ->
    (i = Speakers -> shared q1 -> shared q2 -> mono_like n q1 /\ mono_like n q2) ->
    forall t, t < size ->
      frame q t = sum_frames (mix_frame i n (frame q1 t)) (mix_frame i n (frame q2 t))).
Proof. exact main_add. Qed.
Print Assumptions C13_sum_of_mixed_signals_partial.

(** The input of a node with several connections: the number of channels is the
    computedNumberOfChannels of the specification and the samples are the sum of
    the individually mixed signals, for simple layouts. *)
Theorem C13_all_connections_partial :
  forall size qs s val cfg,
  (forall q, In q qs -> good_quantum size s val q) -> qs <> [] ->
  1 <= cc_count cfg <= 32 -> simple_inputs cfg qs ->
  let n := computed_channels cfg (map (@length _) qs) in
  exists s' q, add_all Rsops size s [silence_chan Rsops size] qs cfg = Some (s', q) /\ length q = n /\
    forall t, t < size ->
      frame q t = total_frame n (map (fun q => mix_frame (cc_interp cfg) n (frame q t)) qs).
Proof. exact main_add_all. Qed.
Print Assumptions C13_all_connections_partial.

Definition stereo : list (chan R) := [mk_chan 1 [1]%R; mk_chan 2 [2]%R].
Definition mono : list (chan R) := [mk_chan 1 [1]%R].

Example C13_example_inputs :
  (forall q, In q [mono; stereo; mono] -> good_quantum 1 3 val_quad q) /\
  simple_inputs (mk_config 2 Max Speakers) [mono; stereo; mono].
Proof.
  split.
  - intros q [<-|[<-|[<-|[]]]]; repeat split; simpl; try lia; intros; simpl in *;
    repeat match goal with H : _ \/ _ |- _ => destruct H as [<-|H] | H : False |- _ => destruct H end;
    simpl; try lia; reflexivity.
  - right. simpl. intros q [<-|[<-|[<-|[]]]]; simpl; lia.
Qed.

(** Six channels with the same content, as produced by a ChannelMerger whose
    inputs all come from one source, arrive as a signal on the centre channel
    only. *)
Definition merged : list (chan R) := repeat (mk_chan 1 [1]%R) 6.

Theorem C13_identical_channels_refuted :
  exists size s val q1 q2 cfg s' q, good_quantum size s val q1 /\ good_quantum size s val q2 /\
    1 <= cc_count cfg <= 32 /\ add Rsops size s q1 q2 cfg = Some (s', q) /\
    let n := computed_channels cfg [length q1; length q2] in
    exists t, t < size /\ frame q2 t = [1; 1; 1; 1; 1; 1]%R /\ frame q t = [0; 0; 1; 0; 0; 0]%R /\
    frame q t <> sum_frames (mix_frame Speakers n (frame q1 t)) (mix_frame Speakers n (frame q2 t)).
Proof.
  exists 1, 2, val_quad, [silence_chan Rsops 1], merged, (mk_config 2 Max Speakers), 2.
  eexists. split; [|split; [|split; [|split; [reflexivity|]]]].
  - repeat split; simpl; try lia; destruct H as [<-|[]]; simpl; try lia; reflexivity.
  - repeat split; simpl; try lia; simpl in H; intuition (subst; simpl; try lia; reflexivity).
  - simpl; lia.
  - exists 0. split; [lia|]. split; [reflexivity|]. split; [reflexivity|].
    unfold mix_frame; simpl. intros H. injection H as H. lra.
Qed.
Print Assumptions C13_identical_channels_refuted.

(** Two identical channels (an up-mixed mono signal) fed to a six-channel node. *)
Theorem C13_stereo_to_surround_refuted :
  exists size s val q1 q2 cfg s' q, good_quantum size s val q1 /\ good_quantum size s val q2 /\
    1 <= cc_count cfg <= 32 /\ add Rsops size s q1 q2 cfg = Some (s', q) /\
    length q2 = 2 /\
    exists t, t < size /\ frame q2 t = [1; 1]%R /\ frame q t = [0; 0; 1; 0; 0; 0]%R /\
    mix_frame Speakers 6 (frame q2 t) = [1; 1; 0; 0; 0; 0]%R.
Proof.
  exists 1, 2, val_quad, [silence_chan Rsops 1], [mk_chan 1 [1]%R; mk_chan 1 [1]%R], (mk_config 6 Explicit Speakers), 2.
  eexists. split; [|split; [|split; [|split; [reflexivity|split; [reflexivity|]]]]].
  - repeat split; simpl; try lia; destruct H as [<-|[]]; simpl; try lia; reflexivity.
  - repeat split; simpl; try lia; simpl in H; intuition (subst; simpl; try lia; reflexivity).
  - simpl; lia.
  - exists 0. split; [lia|]. split; [reflexivity|]. split; [reflexivity|].
    unfold mix_frame; simpl. repeat (apply f_equal2; [lra|]). reflexivity.
Qed.
Print Assumptions C13_stereo_to_surround_refuted.

(** The order of the connections matters: a mono signal added to a 5.1 signal
    goes to the centre, unless a stereo signal was added in between. *)
Definition surround : list (chan R) :=
  [mk_chan 3 [0]%R; mk_chan 0 [0]%R; mk_chan 0 [0]%R; mk_chan 0 [0]%R; mk_chan 0 [0]%R; mk_chan 0 [0]%R].
Definition stereo0 : list (chan R) := [mk_chan 0 [0]%R; mk_chan 3 [0]%R].
Definition val_order (n : nat) : list R := match n with 1 => [1]%R | _ => [0]%R end.

Theorem C13_order_of_connections_refuted :
  exists size s val a b c cfg s1 q1 s2 q2,
    good_quantum size s val a /\ good_quantum size s val b /\ good_quantum size s val c /\
    add_all Rsops size s [silence_chan Rsops size] [a; b; c] cfg = Some (s1, q1) /\
    add_all Rsops size s [silence_chan Rsops size] [c; b; a] cfg = Some (s2, q2) /\
    length q1 = 6 /\ length q2 = 6 /\
    exists t, t < size /\ nth 0 (frame q1 t) 0%R = 1%R /\ nth 2 (frame q1 t) 0%R = 0%R /\
                          nth 0 (frame q2 t) 0%R = 0%R /\ nth 2 (frame q2 t) 0%R = 1%R.
Proof.
  exists 1, 4, val_order, mono, stereo0, surround, (mk_config 2 Max Speakers).
  eexists _, _, _, _.
  split; [|split; [|split; [|split; [reflexivity|split; [reflexivity|split; [reflexivity|split; [reflexivity|]]]]]]].
  1-3: repeat split; simpl; try lia; simpl in *; intuition (subst; simpl; try lia; reflexivity).
  exists 0. simpl. repeat split; lra || lia.
Qed.
Print Assumptions C13_order_of_connections_refuted.
