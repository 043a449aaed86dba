(** Suspending and resuming a realtime context is gapless (C90). *)
From Coq Require Import List Arith Bool Lia.
From Verif Require Import Thread_Model Thread_Spec Thread_Proofs Thread_Props Pause_Spec Pause_Proofs.
Import ListNotations.
Local Open Scope nat_scope.

(** Whatever the callback sizes, and however often and whenever the context is suspended and resumed (also in the middle of a
    callback): the output, followed by the frames not yet delivered, is the sound of the context that was never suspended, with
    silence put in between; the clock counts the rendered quanta only; every buffer is filled. *)
Theorem C90_gapless : forall G M V T (GO : @graph_ops G M V) zero (conv : V -> T) RQ n bufs t rest bs t' outs rest' bs',
  0 < RQ -> graph_ok GO RQ -> 0 < n ->
  Forall (fun buf => exists m, length buf = m * n) bufs -> t_offset t = None -> Forall pause_or_resume (rest ++ concat bs) ->
  callbacks GO zero conv RQ n t bufs rest bs = Some (t', outs, rest', bs') ->
  exists k qs, quanta GO RQ k t = Some qs /\
    interrupted (conv zero) (concat (map (fun q => frames_from zero conv RQ n q 0) qs)) (concat outs ++ undelivered zero conv RQ n t') /\
    t_frames t' = t_frames t + k * RQ /\ map (@length T) outs = map (@length T) bufs.
Proof. intros. eapply gapless; eauto. Qed.
Print Assumptions C90_gapless.

(** quanta of 4 frames, callbacks of 6 frames; suspended and resumed in the first callback, suspended at the
    start of the second *)
Example C90_gapless_case :
  option_map (fun r => (concat (snd (fst (fst r))), t_frames (fst (fst (fst r)))))
    (callbacks counter 0 (fun x => x) 4 1 fresh (bufs_of 1 [6; 6; 6]) [] [[]; [SuspendMsg 1; ResumeMsg 2]; []; [SuspendMsg 3]; [ResumeMsg 4]]) =
    Some ([100; 101; 102; 103; 200; 201] ++ [202; 203; 0; 0; 0; 0] ++ [300; 301; 302; 303; 400; 401], 16) /\
  Forall (@pause_or_resume nat nat) (concat [[]; [SuspendMsg 1; ResumeMsg 2]; []; [SuspendMsg 3]; [ResumeMsg 4]]).
Proof. split; [reflexivity|]. cbn. repeat constructor. Qed.

(** While the context is suspended, and until it is resumed, the output is what was rendered before and not yet delivered
    (less than a quantum), then silence; the clock does not advance.  The graph may be changed meanwhile. *)
Theorem C90_silent_while_suspended : forall G M V T (GO : @graph_ops G M V) zero (conv : V -> T) RQ n bufs t rest bs t' outs rest' bs',
  0 < RQ -> graph_ok GO RQ -> 0 < n ->
  Forall (fun buf => exists m, length buf = m * n) bufs -> offset_ok RQ n t ->
  t_suspended t = true -> t_listening t = true -> no_recycle (rest ++ concat bs) -> Forall (fun m => ~ resumes m) (rest ++ concat bs) ->
  callbacks GO zero conv RQ n t bufs rest bs = Some (t', outs, rest', bs') ->
  concat outs = firstn (length (concat bufs)) (undelivered zero conv RQ n t ++ repeat (conv zero) (length (concat bufs))) /\
  undelivered zero conv RQ n t' = skipn (length (concat bufs)) (undelivered zero conv RQ n t) /\
  length (undelivered zero conv RQ n t) < RQ * n /\
  t_frames t' = t_frames t.
Proof.
  intros G M V T GO zero conv RQ n bufs t rest bs t' outs rest' bs' H1 H2 H3 H4 H5 H6 H7 H8 H9 H.
  apply Forall_app in H9. destruct H9 as [N1 N2].
  assert (P : paused t rest bs) by (split; [exact H7|]; split; [exact H8|]; split; [rewrite H6; apply pauses_stays; exact N1|exact N2]).
  destruct (paused_callbacks GO zero conv RQ H1 H2 n H3 bufs t rest bs t' outs rest' bs' H4 H5 P H) as (A & B & C & _).
  split; [exact A|]. split; [exact B|]. split; [apply undelivered_short; assumption|exact C].
Qed.
Print Assumptions C90_silent_while_suspended.

Definition paused_thread : @thread nat nat := mk_thread (Some 2) true Suspended 4 true (Some (1, [[100; 101; 102; 103]])) [] [] [].
Example C90_silent_while_suspended_case :
  option_map (fun r => (snd (fst (fst r)), t_frames (fst (fst (fst r))), t_graph (fst (fst (fst r)))))
    (callbacks counter 0 (fun x => x) 4 1 paused_thread (bufs_of 1 [2; 3]) [] [[GraphMsg 7]]) =
    Some ([[101; 102]; [103; 0; 0]], 4, Some 9) /\
  offset_ok 4 1 paused_thread /\ t_suspended paused_thread = true /\ t_listening paused_thread = true /\
  no_recycle (concat [[GraphMsg (G := nat) 7]]) /\ Forall (fun m => ~ resumes m) (concat [[GraphMsg (G := nat) 7]]).
Proof. split; [reflexivity|]. split; [cbn; repeat constructor|]. repeat split; repeat constructor; try discriminate. intros []. Qed.

(** A context plays during [bufs1], is suspended, stays so during [bufs2], is resumed, and plays during [bufs3].  What is heard is
    the uninterrupted sound up to the end of the quantum being played, then silence until the resumption, then the sound
    from exactly where it stopped; the clock stands still during the pause. *)
Theorem C90_suspend_then_resume : forall G M V T (GO : @graph_ops G M V) zero (conv : V -> T) RQ n bufs1 bufs2 bufs3 t a b
    t1 t2 t3 outs1 outs2 outs3 r1 r2 r3 b1 b2 b3,
  0 < RQ -> graph_ok GO RQ -> stays_active GO -> 0 < n -> live GO t -> t_offset t = None -> t_listening t = true ->
  Forall (fun buf => exists m, length buf = m * n) (bufs1 ++ bufs2 ++ bufs3) ->
  callbacks GO zero conv RQ n t bufs1 [] [] = Some (t1, outs1, r1, b1) ->
  callbacks GO zero conv RQ n t1 bufs2 (r1 ++ [SuspendMsg a]) [] = Some (t2, outs2, r2, b2) ->
  callbacks GO zero conv RQ n t2 bufs3 (r2 ++ [ResumeMsg b]) [] = Some (t3, outs3, r3, b3) ->
  let played := length (concat bufs1) in
  let h := still_heard (RQ * n) played (length (concat bufs2)) in
  t_frames t2 = t_frames t1 /\
  forall k qs, quanta GO RQ k t = Some qs -> played + h + length (concat bufs3) <= k * (RQ * n) ->
    let sound := concat (map (fun q => frames_from zero conv RQ n q 0) qs) in
    concat outs1 ++ concat outs2 ++ concat outs3 =
    firstn (played + h) sound ++ repeat (conv zero) (length (concat bufs2) - h) ++ firstn (length (concat bufs3)) (skipn (played + h) sound).
Proof. intros. eapply suspend_resume; eauto. Qed.
Print Assumptions C90_suspend_then_resume.

(** callbacks of 6 frames, then 5 suspended, then 6: frames 202 and 203 are still heard *)
Example C90_suspend_then_resume_case :
  exists t1 t2 t3 outs1 outs2 outs3,
    callbacks counter 0 (fun x => x) 4 1 fresh (bufs_of 1 [6]) [] [] = Some (t1, outs1, [], []) /\
    callbacks counter 0 (fun x => x) 4 1 t1 (bufs_of 1 [1; 4]) [SuspendMsg 1] [] = Some (t2, outs2, [], []) /\
    callbacks counter 0 (fun x => x) 4 1 t2 (bufs_of 1 [3; 3]) [ResumeMsg 2] [] = Some (t3, outs3, [], []) /\
    outs1 = [[100; 101; 102; 103; 200; 201]] /\ outs2 = [[202]; [203; 0; 0; 0]] /\ outs3 = [[300; 301; 302]; [303; 400; 401]] /\
    still_heard 4 6 5 = 2 /\ t_frames t2 = 8 /\ t_frames t3 = 16 /\ live counter fresh.
Proof.
  eexists _, _, _, _, _, _. do 3 (split; [vm_compute; reflexivity|]). do 6 (split; [reflexivity|]). split; [reflexivity|]. eexists. split; reflexivity.
Qed.

(** A pause shorter than what is left of the quantum is not heard at all. *)
Example C90_short_pause :
  option_map (fun r => concat (snd (fst (fst r))))
    (callbacks counter 0 (fun x => x) 4 1 fresh (bufs_of 1 [1; 1; 1; 3]) [] []) =
  option_map (fun r => concat (snd (fst (fst r))))
    (callbacks counter 0 (fun x => x) 4 1 fresh (bufs_of 1 [1; 1; 1; 3]) [] [[]; [SuspendMsg 1; ResumeMsg 2]]).
Proof. reflexivity. Qed.
