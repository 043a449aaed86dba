(** * Property C84: the calls of the cubeb backend and the thread that owns its stream *)
From Coq Require Import List Arith Bool Lia.
From Verif Require Import Owner_Model Owner_Spec Owner_Proofs.
Import ListNotations.

(** However the threads interleave: the calls return what a stream used by one caller would answer, the commands executed in the order in which they were
    made; calls behind a [Close] return the error that the owner has stopped.  They return in the order in which they were made. *)
Theorem C84_answers : forall D L R E (d_start d_stop : D -> D * option E) (d_latency : D -> R -> L + E) d ls w,
  run d_start d_stop d_latency (spawned d) ls = Some w ->
  length (w_calls w) = length (commands ls) /\
  (forall k a, nth_error (w_calls w) k = Some (Returned a) -> nth_error (answers d_start d_stop d_latency d (commands ls)) k = Some a) /\
  (forall j k a, j < k -> nth_error (w_calls w) k = Some (Returned a) -> exists b, nth_error (w_calls w) j = Some (Returned b)).
Proof.
  intros D L R E d_start d_stop d_latency d ls w H. destruct (answers_spec d_start d_stop d_latency d ls w H) as (Len & j & C). split; [exact Len|].
  assert (K : forall k a, nth_error (w_calls w) k = Some (Returned a) -> k < length (firstn j (answers d_start d_stop d_latency d (commands ls))) /\ nth_error (firstn j (answers d_start d_stop d_latency d (commands ls))) k = Some a).
  { intros k a X. rewrite C in X. destruct (Nat.lt_ge_cases k (length (firstn j (answers d_start d_stop d_latency d (commands ls))))) as [Lt|G].
    - split; [exact Lt|]. rewrite nth_error_app1 in X by (rewrite map_length; exact Lt). rewrite nth_error_map in X. destruct (nth_error _ k) as [b|]; [|discriminate]. cbn in X. congruence.
    - rewrite nth_error_app2 in X by (rewrite map_length; exact G). apply nth_error_In, repeat_spec in X. discriminate. }
  split.
  - intros k a X. destruct (K k a X) as [Lt Y]. rewrite <- (firstn_skipn j (answers d_start d_stop d_latency d (commands ls))). rewrite nth_error_app1 by exact Lt. exact Y.
  - intros i k a Lt X. destruct (K k a X) as [Lk _]. rewrite C. rewrite nth_error_app1 by (rewrite map_length; lia). rewrite nth_error_map.
    destruct (nth_error (firstn j (answers d_start d_stop d_latency d (commands ls))) i) as [b|] eqn:E0; [exists b; reflexivity|]. apply nth_error_None in E0. lia.
Qed.
Print Assumptions C84_answers.

(** A call returns once. *)
Theorem C84_once : forall D L R E (d_start d_stop : D -> D * option E) (d_latency : D -> R -> L + E) d ls w ls' w' k a,
  run d_start d_stop d_latency (spawned d) ls = Some w -> run d_start d_stop d_latency w ls' = Some w' ->
  nth_error (w_calls w) k = Some (Returned a) -> nth_error (w_calls w') k = Some (Returned a).
Proof. intros D L R E d_start d_stop d_latency d ls w ls' w' k a H H' X. eapply stays_spec; [eapply inv_run; exact H|exact H'|exact X]. Qed.
Print Assumptions C84_once.

(** No call waits forever: whatever has happened, while a call waits the owner can make a step, and after finitely many steps of the owner alone all calls have
    returned. *)
Theorem C84_returns : forall D L R E (d_start d_stop : D -> D * option E) (d_latency : D -> R -> L + E) d ls w,
  run d_start d_stop d_latency (spawned d) ls = Some w ->
  (In Waiting (w_calls w) -> exists l w', of_owner l /\ step d_start d_stop d_latency w l = Some w') /\
  (forall ls' w', Forall of_owner ls' -> run d_start d_stop d_latency w ls' = Some w' -> length ls' <= length (w_queue w) + 2) /\
  exists ls' w', Forall of_owner ls' /\ run d_start d_stop d_latency w ls' = Some w' /\ ~ In Waiting (w_calls w').
Proof.
  intros D L R E d_start d_stop d_latency d ls w H. pose proof (inv_run d_start d_stop d_latency d ls w H) as I. split; [|split].
  - intros X. apply (owner_can d_start d_stop d_latency d _ w I). apply existsb_exists. exists Waiting. auto.
  - intros ls' w' F R1. pose proof (owner_bound d_start d_stop d_latency ls' w w' F R1) as B. unfold measure in B. destruct (w_owner w); destruct (w_owner w'); lia.
  - destruct (returns_spec d_start d_stop d_latency d (measure w) _ w (le_n _) I) as (ls' & w' & F & R1 & X). exists ls', w'. split; [exact F|]. split; [exact R1|].
    intros Y. assert (existsb waiting (w_calls w') = true) by (apply existsb_exists; exists Waiting; auto). congruence.
Qed.
Print Assumptions C84_returns.

(** What happens to the stream: the operations of the commands executed so far, in order; the stream is dropped at the end of [Close], or when no handle is left. *)
Theorem C84_stream : forall D L R E (d_start d_stop : D -> D * option E) (d_latency : D -> R -> L + E) d ls w,
  run d_start d_stop d_latency (spawned d) ls = Some w ->
  (w_handles w = 0 /\ ~ In Close (commands ls) /\ w_acts w = acts (commands ls) ++ [Dropped]) \/
  (exists j, j <= length (commands ls) /\ w_acts w = acts (firstn j (commands ls)) /\
     forall i a, nth_error (w_calls w) i = Some (Returned a) -> i < j \/ In Close (firstn j (commands ls))).
Proof. exact @acts_spec. Qed.
Print Assumptions C84_stream.

(** When [Close] returns, the stream has been stopped and dropped, and nothing happens to it any more. *)
Theorem C84_closed : forall D L R E (d_start d_stop : D -> D * option E) (d_latency : D -> R -> L + E) d ls w k a,
  run d_start d_stop d_latency (spawned d) ls = Some w -> nth_error (commands ls) k = Some Close -> nth_error (w_calls w) k = Some (Returned a) ->
  (exists before, w_acts w = before ++ [Halted; Dropped]) /\
  forall ls' w', run d_start d_stop d_latency w ls' = Some w' -> w_acts w' = w_acts w.
Proof. exact @closed_spec. Qed.
Print Assumptions C84_closed.

(** When all handles are dropped the owner drops the stream. *)
Theorem C84_dropped : forall D L R E (d_start d_stop : D -> D * option E) (d_latency : D -> R -> L + E) d ls w,
  run d_start d_stop d_latency (spawned d) ls = Some w -> w_handles w = 0 ->
  exists ls' w', Forall of_owner ls' /\ run d_start d_stop d_latency w ls' = Some w' /\ exists before, w_acts w' = before ++ [Dropped].
Proof. exact @dropped_spec. Qed.
Print Assumptions C84_dropped.

(** A stream that counts its operations and cannot be started twice; six calls from several threads, two of them behind [Close], one after the end *)
Definition C84_start (d : nat) : nat * option nat := if Nat.even d then (S d, None) else (d, Some d).
Definition C84_stop (d : nat) : nat * option nat := (S d, None).
Definition C84_latency (d r : nat) : nat + nat := inl (d * r).
Definition C84_run : list (@label nat) :=
  [Clone; Call Resume; Call Resume; Serve; Call (Latency 7); Serve; Serve; Call Close; Call Suspend; Serve; Call Resume; Drop; End; Call Close].
Example C84_case : exists w, run C84_start C84_stop C84_latency (spawned 0) C84_run = Some w /\
  w_calls w = [Returned Done; Returned (Failed 1); Returned (Seconds 7); Returned Done; Returned Stopped; Returned Stopped; Returned Stopped] /\
  w_acts w = [Started; Started; Asked; Halted; Dropped] /\
  answers C84_start C84_stop C84_latency 0 (commands C84_run) = [Done; Failed 1; Seconds 7; Done; Stopped; Stopped; Stopped] /\
  exists w', run C84_start C84_stop C84_latency w [Drop] = Some w' /\ w_handles w' = 0.
Proof. eexists. split; [vm_compute; reflexivity|]. repeat (split; [reflexivity|]). eexists. split; reflexivity. Qed.
