(** C98: calls on a media recorder return. *)
From Coq Require Import List Arith Bool.
From Verif Require Import RecLock_Model RecLock_Spec RecLock_Proofs.
Import ListNotations.

(** Any number of threads use the recorder (the recording thread among them), each with any sequence of operations, with callbacks
    that make calls on the recorder themselves, with the care described: under every schedule all calls return, after a bounded
    number of steps.  Partial: for callbacks without that care see the refutations. *)
Theorem C98_calls_return_partial : forall os l s, Forall (Forall (careful Outside)) os -> steps (threads os) l = Some s ->
  length l <= list_sum (map (fun o => length (flat_map compile o)) os) /\ (stuck s -> all_returned s).
Proof. exact calls_return. Qed.
Print Assumptions C98_calls_return_partial.

(** a recording thread that meets an error, whose callback stops the recorder, and a user who stops it at the same time, with a callback
    for data that sets the callback for stop: the threads wait for each other, and come to an end *)
Example C98_calls_return_case : let data := [Set_callback On_stop] in
  let os := [[Write; Write; Flush data] ++ handle_error data (stop data []) []; stop data []; [Set_callback On_data; Set_callback On_error]] in
  Forall (Forall (careful Outside)) os /\
  exists s, steps (threads os) [0; 2; 2; 0; 1; 2; 1; 2; 1; 1; 1; 1; 1; 0; 0; 0; 1; 0; 0; 0; 0; 0; 0; 0; 0; 0; 0; 0; 0; 0; 0; 0; 0; 0; 0; 0; 0; 0; 0; 0] = Some s /\ all_returned s.
Proof.
  cbn zeta. split; [repeat (apply Forall_cons || apply Forall_nil); cbn; repeat split; auto|].
  eexists. split; [vm_compute; reflexivity|]. intros t [<-|[<-|[<-|[]]]]; reflexivity.
Qed.

(** Calling stop() in the callback for data, as to end the recording when there is enough, blocks for ever: the callback runs
    with recorded_data locked, which stop() wants to lock (media_recorder/mod.rs 99-122, 299-302).  Every later call of stop()
    blocks as well. *)
Theorem C98_stop_in_data_refuted : exists l s, steps (threads [[Write; Flush (stop [] [])]]) l = Some s /\ stuck s /\ ~ all_returned s.
Proof.
  exists [0; 0; 0; 0]. eexists. split; [vm_compute; reflexivity|]. split.
  - intros [|[|i]]; reflexivity.
  - intros A. discriminate (A _ (or_introl eq_refl)).
Qed.
Print Assumptions C98_stop_in_data_refuted.
(** Setting the callback for stop in the callback for stop, as for the next recording, blocks for ever (124-130, 228-230). *)
Theorem C98_set_in_stop_refuted : exists l s, steps (threads [stop [] [Set_callback On_stop]]) l = Some s /\ stuck s /\ ~ all_returned s.
Proof.
  exists [0; 0; 0; 0; 0]. eexists. split; [vm_compute; reflexivity|]. split.
  - intros [|[|i]]; reflexivity.
  - intros A. discriminate (A _ (or_introl eq_refl)).
Qed.
Print Assumptions C98_set_in_stop_refuted.
(** Two threads, whose callbacks never touch what they run under, block each other: the callback for data sets the callback for
    stop while the callback for stop sets the callback for data; each alone always returns. *)
Theorem C98_two_callbacks_refuted : let a := [Flush [Set_callback On_stop]] in let b := [Tell_stop [Set_callback On_data]] in
  (forall l s, steps (threads [a]) l = Some s -> stuck s -> all_returned s) /\
  (exists l s, steps (threads [b]) l = Some s /\ stuck s /\ all_returned s) /\
  exists l s, steps (threads [a; b]) l = Some s /\ stuck s /\ ~ all_returned s.
Proof.
  cbn zeta. split; [|split].
  - intros l s S. apply (C98_calls_return_partial [[Flush [Set_callback On_stop]]] l s); [repeat (apply Forall_cons || apply Forall_nil); cbn; repeat split; auto|exact S].
  - exists [0; 0; 0; 0]. eexists. split; [vm_compute; reflexivity|]. split; [intros [|[|i]]; reflexivity|]. intros t [<-|[]]; reflexivity.
  - exists [0; 0; 1]. eexists. split; [vm_compute; reflexivity|]. split; [intros [|[|[|i]]]; reflexivity|]. intros A. discriminate (A _ (or_introl eq_refl)).
Qed.
Print Assumptions C98_two_callbacks_refuted.
