(** Properties C61 and C62: media stream tracks and the media stream destination. *)
From Coq Require Import List Arith Bool Sorted Permutation Lia.
From Verif Require Import Track_Model Track_Spec Track_Proofs.
Import ListNotations.

(** * C61: what the consumers of a track receive *)

(** For every sequence of buffers, every number of consumers, every interleaving of their calls (and of close()):
    a consumer gets buffers of the source in the order of the source, then the end and nothing after it. *)
Theorem C61_in_order : forall X (items : list X) l s log i, acts (new_track items) l = Some (s, log) ->
  exists xs m, told i log = map Some xs ++ repeat None m /\ in_order items xs.
Proof. exact @all_in_order. Qed.
Print Assumptions C61_in_order.

(** Every call can always go on. *)
Theorem C61_never_stuck : forall X (items : list X) l s log, acts (new_track items) l = Some (s, log) ->
  forall i, i < length (t_listeners s) -> exists r, act s (Step i) = Some r.
Proof. exact @never_stuck. Qed.
Print Assumptions C61_never_stuck.

(** A single consumer of a track that is not closed gets every buffer exactly once, in order, then the end for ever;
    a call takes at most five steps. *)
Theorem C61_single : forall X (items : list X) n, exists s log m, acts (new_track items) (one_consumer n) = Some (s, log) /\
  told 0 log = firstn m (map Some items ++ repeat None m) /\ n <= 5 * m + 4.
Proof.
  intros X items n. destruct (one_run items n 0 (Nat.le_0_l _)) as (s & log & m & A & B & C). exists s, log, m. split; [|split; assumption].
  unfold one_consumer. change (acts (new_track items) (NewIter :: repeat (Step 0) n)) with (match acts (at_rest items 0 false) (repeat (Step 0) n) with Some (s'', o') => Some (s'', [] ++ o') | None => None end). rewrite A. reflexivity.
Qed.
Print Assumptions C61_single.

(** When no two calls overlap, no consumer gets a buffer twice ... (missing: overlapping calls, where it is false, see below) *)
Theorem C61_once_partial : forall X (items : list X) l s log i, acts (new_track items) l = Some (s, log) -> calm_acts (new_track items) l ->
  exists xs m, told i log = map Some xs ++ repeat None m /\ each_once items xs.
Proof. exact @sequential_once. Qed.
Print Assumptions C61_once_partial.

(** ... and every buffer reaches some consumer before the first one is told of the end. *)
Theorem C61_all_partial : forall X (items : list X) l s log i, acts (new_track items) l = Some (s, log) -> calm_acts (new_track items) l -> ~ In Close l ->
  In (i, None) log -> Forall (fun l => busy l = false) (t_listeners s) -> forall k x, nth_error items k = Some x -> exists j, In (j, Some x) log.
Proof. exact @sequential_all. Qed.
Print Assumptions C61_all_partial.

(** Finding: with overlapping calls of two consumers a buffer is lost to everybody and another is handed twice to the same consumer. *)
Theorem C61_overlap_refuted : exists l s log, acts (new_track [10; 20; 30]) l = Some (s, log) /\ ~ In Close l /\
  told 0 log = [Some 20; Some 20; Some 30; None] /\ told 1 log = [Some 20; Some 30] /\ ~ (exists j, In (j, Some 10) log) /\ ~ each_once [10; 20; 30] [20; 20; 30].
Proof.
  exists ([NewIter; NewIter; Step 0; Step 1; Step 0; Step 1; Step 0; Step 1; Step 0; Step 1; Step 0; Step 1] ++ repeat (Step 0) 3 ++ repeat (Step 0) 5 ++ repeat (Step 1) 3 ++ repeat (Step 0) 3).
  eexists _, _. split; [vm_compute; reflexivity|]. split; [cbn; intuition discriminate|]. split; [reflexivity|]. split; [reflexivity|]. split; [intros [j K]; cbn in K; intuition congruence|].
  intros (ps & S & F). inversion F as [|a x ps1 ? A F1]; subst. inversion F1 as [|b y ps2 ? B F2]; subst. inversion S as [|? ? _ L]; subst. apply Forall_inv in L.
  assert (K : forall k, nth_error [10; 20; 30] k = Some 20 -> k = 1) by (intros [|[|[|[|k]]]] K; cbn in K; congruence).
  rewrite (K _ A), (K _ B) in L. lia.
Qed.
Print Assumptions C61_overlap_refuted.

(** Finding: a consumer that got every buffer but the last one, and asks for the next after another consumer was told of the end, never gets the last one. *)
Theorem C61_last_buffer_refuted : exists l s log, acts (new_track [10; 20]) l = Some (s, log) /\ calm_acts (new_track [10; 20]) l /\ ~ In Close l /\
  told 0 log = [Some 10; Some 20; None] /\ told 1 log = [Some 10; None].
Proof.
  exists ([NewIter; NewIter] ++ repeat (Step 0) 5 ++ repeat (Step 1) 3 ++ repeat (Step 0) 5 ++ repeat (Step 0) 3 ++ [Step 1]).
  eexists _, _. split; [vm_compute; reflexivity|]. split; [vm_compute; repeat constructor|]. split; [cbn; intuition discriminate|]. split; reflexivity.
Qed.
Print Assumptions C61_last_buffer_refuted.

Example C61_hypotheses : exists s log, acts (new_track [10; 20]) ([NewIter; NewIter] ++ repeat (Step 0) 5 ++ repeat (Step 1) 8 ++ repeat (Step 0) 3 ++ repeat (Step 1) 3) = Some (s, log) /\
  calm_acts (new_track [10; 20]) ([NewIter; NewIter] ++ repeat (Step 0) 5 ++ repeat (Step 1) 8 ++ repeat (Step 0) 3 ++ repeat (Step 1) 3) /\
  told 0 log = [Some 10; Some 20] /\ told 1 log = [Some 10; Some 20; None] /\ In (1, None) log /\ Forall (fun l => busy l = false) (t_listeners s).
Proof. eexists _, _. split; [vm_compute; reflexivity|]. split; [vm_compute; repeat constructor|]. split; [reflexivity|]. split; [reflexivity|]. split; [cbn; tauto|repeat constructor]. Qed.

(** * C62: the stream of a media stream destination *)

(** For every interleaving of rendering and of calls of the consumer: the consumer gets rendered buffers in order, each at most once, an error only after the
    node is gone and then for ever; every rendered buffer is received, dropped or still on its way. *)
Theorem C62_received : forall X (l : list (dest_action X)) s, dest_steps dest0 l = Some s -> exists xs m, d_got s = map Some xs ++ repeat None m /\ (m > 0 -> d_gone s = true) /\
  each_once (rendered l) xs /\
  Permutation (xs ++ d_dropped s ++ match d_queue s with Some x => [x] | None => [] end ++ match d_emptied s with Some x => [x] | None => [] end) (rendered l).
Proof. exact @dest_received. Qed.
Print Assumptions C62_received.

(** What the consumer takes is the buffer of the newest quantum. *)
Theorem C62_newest : forall X (l : list (dest_action X)) s s' y, dest_steps dest0 l = Some s -> dest_step s Recv = Some s' -> d_got s' = d_got s ++ [Some y] ->
  exists r, rendered l = r ++ [y].
Proof. exact @dest_newest. Qed.
Print Assumptions C62_newest.

(** The render thread never waits for a consumer. *)
Theorem C62_never_waits : forall X (l : list (dest_action X)) s, dest_steps dest0 l = Some s -> d_emptied s <> None -> exists s', dest_step s Send = Some s'.
Proof. exact @dest_never_waits. Qed.
Print Assumptions C62_never_waits.

(** A consumer that takes a buffer between any two quanta gets all of them. *)
Theorem C62_paced : forall X (l : list (dest_action X)) s, paced false l -> dest_steps dest0 l = Some s ->
  d_dropped s = [] /\ exists n m, d_got s = map Some (firstn n (rendered l)) ++ repeat None m.
Proof. exact @dest_paced. Qed.
Print Assumptions C62_paced.

Example C62_hypotheses : exists s, paced false [Try 1; Send; Recv; Try 2; Send; Recv; Free; Recv] /\ dest_steps dest0 [Try 1; Send; Recv; Try 2; Send; Recv; Free; Recv] = Some s /\ d_got s = [Some 1; Some 2; None].
Proof. eexists. split; [cbn; tauto|]. split; reflexivity. Qed.
Example C62_dropping : exists s, dest_steps dest0 [Try 1; Send; Try 2; Send; Recv] = Some s /\ d_got s = [Some 2] /\ d_dropped s = [1].
Proof. eexists. repeat split. Qed.
