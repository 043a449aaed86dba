(** C93: data handed to nodes is disposed of once, and off the render thread. *)
From Coq Require Import List Arith Bool Permutation.
From Verif Require Import Dispose_Model Dispose_Spec Dispose_Proofs.
Import ListNotations.

(** At every moment each piece of data that was handed over is in exactly one place: nothing is lost, nothing is
    dropped twice, and nothing is dropped while a node holds it. *)
Theorem C93_one_place (realtime : bool) (l : list action) (s : state) :
  acts (start realtime) l = Some s -> Permutation (handed_over l) (in_nodes s ++ in_messages s ++ in_garbage s ++ gone s).
Proof. exact (one_place realtime l s). Qed.
Print Assumptions C93_one_place.

(** When the render thread has gone and the garbage collector has ended, everything has been dropped, once. *)
Theorem C93_everything_is_dropped (realtime : bool) (l : list action) (s : state) :
  acts (start realtime) l = Some s -> alive s = false -> collector s = false -> Permutation (handed_over l) (gone s).
Proof. exact (all_dropped realtime l s). Qed.
Print Assumptions C93_everything_is_dropped.

(** And it does end once the render thread has gone: after as many rounds as there are items in its queue. *)
Theorem C93_collector_ends (l : list action) (s : state) :
  acts (start true) l = Some s -> alive s = false -> collector s = true ->
  exists s', acts s (repeat Collect (length (garbage s))) = Some s' /\ collector s' = false.
Proof. exact (collector_ends l s). Qed.
Print Assumptions C93_collector_ends.

(** In a realtime context, however often buffers, waves, convolvers and curves are replaced, the render thread drops
    none of them: the collector does.  Missing: panners and removed nodes, where this fails (see below). *)
Theorem C93_not_on_render_thread_partial (l : list action) (s : state) :
  Forall keeps_nodes l -> Forall no_panner l -> acts (start true) l = Some s -> Forall (fun d => fst d = Collector) (dropped s).
Proof. exact (not_on_render_thread l s). Qed.
Print Assumptions C93_not_on_render_thread_partial.

(** a convolver gets three buffers, an oscillator two waves; then the context ends *)
Example C93_case :
  let l := [Make Convolver (Some 1); Make Oscillator None; Post 0 (Some 2); Post 1 (Some 3); Handle; Handle; Collect; Post 0 (Some 4); Post 1 (Some 5); Handle; Collect; Handle; Collect; Collect] in
  (exists s, acts (start true) l = Some s /\ dropped s = [(Collector, 1); (Collector, 2); (Collector, 3)] /\ in_nodes s = [4; 5]) /\
  exists s, acts (start true) (l ++ [Post 0 (Some 6); Finish; Collect]) = Some s /\ alive s = false /\ collector s = false /\
    dropped s = [(Collector, 1); (Collector, 2); (Collector, 3); (Render, 4); (Render, 5); (Render, 6)].
Proof.
  cbv zeta. split; eexists; (split; [vm_compute; reflexivity|]); repeat split; vm_compute; reflexivity.
Qed.
(** in an offline context there is no collector *)
Example C93_offline_case :
  exists s, acts (start false) [Make Wave_shaper (Some 1); Post 0 (Some 2); Handle; Remove 0] = Some s /\ dropped s = [(Render, 1); (Render, 2)].
Proof. eexists. split; vm_compute; reflexivity. Qed.

(** Switching the panning model of a panner drops the impulse responses it used, with their buffers, on the render
    thread of a realtime context: [self.hrtf_state = value.take()] (panner.rs 916) overwrites the old state, where the other
    processors swap it into the message "to avoid deallocation in the render thread". *)
Theorem C93_panner_refuted :
  ~ forall (l : list action) (s : state), Forall keeps_nodes l -> acts (start true) l = Some s -> Forall (fun d => fst d = Collector) (dropped s).
Proof.
  intros H.
  assert (E : exists s, acts (start true) [Make Panner (Some 1); Post 0 None; Handle] = Some s /\ dropped s = [(Render, 1)]) by (eexists; split; vm_compute; reflexivity).
  destruct E as (s & R & D). assert (K : Forall keeps_nodes [Make Panner (Some 1); Post 0 None; Handle]) by (repeat constructor).
  specialize (H _ s K R). rewrite D in H. discriminate (Forall_inv H).
Qed.
Print Assumptions C93_panner_refuted.

(** A node that has ended is dropped by the render thread itself, with all it holds (graph.rs 551-560): a buffer that
    only the source still refers to is deallocated there.  The garbage collector gets messages only. *)
Theorem C93_removed_node_refuted :
  ~ forall (l : list action) (s : state), Forall no_panner l -> ~ In Finish l -> acts (start true) l = Some s -> Forall (fun d => fst d = Collector) (dropped s).
Proof.
  intros H.
  assert (E : exists s, acts (start true) [Make Buffer_source None; Post 0 (Some 1); Handle; Collect; Remove 0] = Some s /\ dropped s = [(Render, 1)]) by (eexists; split; vm_compute; reflexivity).
  destruct E as (s & R & D). assert (K : Forall no_panner [Make Buffer_source None; Post 0 (Some 1); Handle; Collect; Remove 0]) by (repeat constructor).
  assert (F : ~ In Finish [Make Buffer_source None; Post 0 (Some 1); Handle; Collect; Remove 0]) by (cbn [In]; intuition discriminate).
  specialize (H _ s K F R). rewrite D in H. discriminate (Forall_inv H).
Qed.
Print Assumptions C93_removed_node_refuted.
