(** * Property C83: the life of an OfflineAudioContext *)
From Coq Require Import List Arith Bool Lia Sorting.Sorted.
From Verif Require Import Thread_Model Thread_Spec Thread_Props Offline_Model Offline_Spec Offline_Proofs Offline_LifeProofs Offline_SoundProofs Offline_ProgressProofs.
Import ListNotations.

(** ** Programs that wait for the suspensions *)

(** Whatever the order in which the tasks run: the changes of state, the quanta and the calls of the event handlers come in one order only, that of
    [life], determined by the quanta the suspensions were scheduled for.  In particular no quantum a suspension was scheduled for is rendered before the
    suspension was reported and the program has resumed. *)
Theorem C83_life : forall G M V (GO : @graph_ops G M V) zero RQ channels len g ls w, 0 < RQ -> 0 < len ->
  polite GO zero RQ channels len g ls -> run GO zero RQ len (new_context channels g) ls = Some w ->
  (exists rest, marks (w_log w) ++ rest = life (div_ceil len RQ) (scheduled ls)) /\
  (forall b, w_task w = T_done b -> marks (w_log w) = life (div_ceil len RQ) (scheduled ls)).
Proof. intros. apply (life_spec GO zero RQ channels len g); assumption. Qed.
Print Assumptions C83_life.

(** The buffer is the one that sequential rendering gives (Thread_Model.v, properties C15 and C16): the changes made before the start come first, those made
    during a suspension just before the quantum it was scheduled for, those of the event handlers after the quantum they follow. *)
Theorem C83_sound : forall G M V (GO : @graph_ops G M V) zero RQ channels len g ls w b,
  polite GO zero RQ channels len g ls -> run GO zero RQ len (new_context channels g) ls = Some w -> w_task w = T_done b ->
  exists qs, StronglySorted lt qs /\ (forall q, In q qs <-> In q (scheduled ls)) /\
  exists t' ran, render_audiobuffer GO zero RQ channels len new_thread (StartupMsg g :: map GraphMsg (hd [] (segments ls)))
    (combine qs (map (map GraphMsg) (tl (segments ls)))) (map (map GraphMsg) (handled ls)) = Some (t', b, ran).
Proof. exact @sound_spec. Qed.
Print Assumptions C83_sound.

(** Nothing is ever stuck: once started, the rendering has not panicked and can be brought to its end, the program going on to wait for the suspensions. *)
Theorem C83_progress : forall G M V (GO : @graph_ops G M V) zero RQ channels len g, 0 < channels -> never_panics GO -> forall ls w,
  polite GO zero RQ channels len g ls -> In Start ls -> run GO zero RQ len (new_context channels g) ls = Some w ->
  w_task w <> T_panicked /\
  exists ls' w' b, polite GO zero RQ channels len g (ls ++ ls') /\ run GO zero RQ len (new_context channels g) (ls ++ ls') = Some w' /\ w_task w' = T_done b.
Proof. intros. eapply progress_spec; eassumption. Qed.
Print Assumptions C83_progress.

(** ** Every program *)

(** Whatever the program does: the state is the one of the last event emitted (suspended at first); the quanta are rendered in order, none twice; the end is
    announced, and its handler called, at most once, exactly when [start_rendering] returns, after all quanta, and with the same buffer. *)
Theorem C83_every_program : forall G M V (GO : @graph_ops G M V) zero RQ channels len g ls w,
  run GO zero RQ len (new_context channels g) ls = Some w ->
  w_state w = last (changes (w_log w)) Suspended /\
  (exists k, k <= div_ceil len RQ /\ rendered (w_log w) = seq 0 k /\ (forall b, w_task w = T_done b -> k = div_ceil len RQ)) /\
  (forall b, w_task w = T_done b -> completions (w_log w) = [b] /\ endings (w_log w) = [b]) /\
  ((forall b, w_task w <> T_done b) -> completions (w_log w) = [] /\ endings (w_log w) = []).
Proof.
  intros G M V GO zero RQ channels len g ls w R. destruct (any_run GO zero RQ channels len g ls w R) as (A & B & C & D & E).
  split; [exact A|]. split; [|split].
  - exists (position w). split; [|split; [exact B|]].
    + unfold position in *. destruct (w_task w); decompose [and] D; lia.
    + intros b T. rewrite T in D. exact (proj1 D).
  - intros b T. rewrite T in D. exact (proj2 D).
  - intros N. destruct (w_task w); decompose [and] D; auto. destruct (N buffer eq_refl).
Qed.
Print Assumptions C83_every_program.

(** A second [start_rendering], and a [suspend] after the start, panic and change nothing. *)
Theorem C83_start_once : forall G M V (GO : @graph_ops G M V) zero RQ channels len g ls w, In Start ls ->
  run GO zero RQ len (new_context channels g) ls = Some w ->
  step GO zero RQ len w Start = Some (with_log w [Refused]) /\
  forall q, step GO zero RQ len w (Suspend q) = Some (with_log (with_futures w (w_futures w ++ [F_panicked])) [Refused]).
Proof.
  intros G M V GO zero RQ channels len g ls w I R.
  assert (N : w_renderer w = None).
  { apply in_split in I. destruct I as (a & b & ->). rewrite run_app in R. destruct (run GO zero RQ len (new_context channels g) a) as [w1|] eqn:R1; [|discriminate].
    cbn [run] in R. destruct (step GO zero RQ len w1 Start) as [w2|] eqn:S; [|discriminate].
    assert (N2 : w_renderer w2 = None).
    { cbn [step] in S. destruct (w_renderer w1) eqn:E; injection S as <-; [|exact E]. unfold change_state. destruct (cstate_eqb _ _); reflexivity. }
    assert (A2 : Any RQ len w2).
    { apply (any_run GO zero RQ channels len g (a ++ [Start])). rewrite run_app, R1. cbn [run]. rewrite S. reflexivity. }
    clear S R1 w1. revert w2 N2 A2 R. induction b as [|l b IH]; intros w2 N2 A2 R; cbn [run] in R; [injection R as <-; exact N2|].
    destruct (step GO zero RQ len w2 l) as [w3|] eqn:S; [|discriminate]. pose proof (any_step GO zero RQ len w2 l w3 A2 S) as A3. apply (IH w3); auto.
    destruct A3 as (_ & _ & _ & D3 & E3). destruct A2 as (_ & _ & _ & D2 & _).
    destruct (w_task w3) eqn:T3; try (decompose [and] D3; assumption).
    (* not started any more: impossible *)
    exfalso. destruct l as [q|i|i|ms| | | |evs|ms]; cbn [step] in S.
    - rewrite N2 in S. injection S as <-. cbn in T3. rewrite T3 in D2. destruct D2. congruence.
    - destruct (nth_error (w_futures w2) i) as [[]|]; try discriminate; injection S as <-;
        (assert (T2 : w_task w2 = T_none) by (revert T3; unfold change_state; try destruct (cstate_eqb _ _); exact (fun x => x))); rewrite T2 in D2; destruct D2; congruence.
    - destruct (nth_error (w_futures w2) i) as [[]|]; try discriminate; injection S as <-; cbn in T3; rewrite T3 in D2; destruct D2; congruence.
    - injection S as <-. cbn in T3. rewrite T3 in D2. destruct D2. congruence.
    - assert (T2 : w_task w2 = T_none).
      { revert S T3. unfold change_state. destruct (cstate_eqb _ _); destruct (listening w2); intros S T3; injection S as <-; exact T3. }
      rewrite T2 in D2. destruct D2. congruence.
    - rewrite N2 in S. injection S as <-. cbn in T3. rewrite T3 in D2. destruct D2. congruence.
    - destruct (w_task w2) eqn:T2; try discriminate; try (injection S as <-; unfold handle_messages in T3; destruct (handle_control_messages _ _ _) as [[? ?]|]; discriminate).
      + injection S as <-. unfold check_suspension in T3. destruct (Nat.eqb q (div_ceil len RQ)); [discriminate|]. destruct (w_left w2) as [|[q' i] l']; [discriminate|].
        destruct (Nat.eqb q' q); [|discriminate]. destruct (nth_error (w_futures w2) i) as [[]|]; discriminate.
      + destruct (w_tokens w2); [discriminate|]. injection S as <-. discriminate.
    - destruct (w_task w2); try discriminate. injection S as <-. unfold render in T3. destruct (render_quantum GO RQ (w_thread w2)) as [[? ?]|]; [|discriminate].
      destruct (extend_offline zero RQ len (w_buffer w2) l); discriminate.
    - destruct (w_task w2); try discriminate. destruct (w_events w2).
      + destruct ms; [|discriminate]. injection S as <-. discriminate.
      + assert (S' : w3 = handle_messages GO (handle_pending_events (with_chan w2 (w_chan w2 ++ map GraphMsg ms))) (T_check (Datatypes.S q))) by (injection S as <-; reflexivity).
        subst w3. unfold handle_messages in T3. destruct (handle_control_messages _ _ _) as [[? ?]|]; discriminate. }
  cbn [step]. rewrite N. split; reflexivity.
Qed.
Print Assumptions C83_start_once.

(** ** A concrete case *)

(** deciding [polite] *)
Fixpoint polite_check {G M V} (GO : @graph_ops G M V) zero RQ len (w : world) (started : bool) (ls : list (@label M)) : bool :=
  match ls with
  | [] => true
  | l :: ls' =>
      match l with
      | Send _ => cstate_eqb (w_state w) Suspended
      | Resume => cstate_eqb (w_state w) Suspended && started
      | Start => negb started
      | Drop _ => false
      | _ => true
      end &&
      match step GO zero RQ len w l with
      | None => false
      | Some w' => polite_check GO zero RQ len w' (started || match l with Start => true | _ => false end) ls'
      end
  end.
Lemma polite_check_ok : forall G M V (GO : @graph_ops G M V) zero RQ channels len g ls pre w started,
  polite GO zero RQ channels len g pre -> run GO zero RQ len (new_context channels g) pre = Some w -> (started = true <-> In Start pre) ->
  polite_check GO zero RQ len w started ls = true -> polite GO zero RQ channels len g (pre ++ ls).
Proof.
  intros G M V GO zero RQ channels len g. induction ls as [|l ls IH]; intros pre w started P R St H; [rewrite app_nil_r; exact P|].
  cbn [polite_check] in H. apply andb_true_iff in H. destruct H as [H1 H2].
  assert (Eq : forall a b, cstate_eqb a b = true -> a = b) by (intros [] []; cbn; congruence).
  assert (P1 : polite GO zero RQ channels len g (pre ++ [l])).
  { intros b x a w0 E R0. destruct a as [|y a] using rev_ind.
    - apply app_inj_tail in E. destruct E as [<- <-]. rewrite R in R0. injection R0 as <-. destruct l; auto; try discriminate.
      + apply andb_true_iff in H1. destruct H1 as [H1 H3]. split; [auto|apply St; exact H3].
      + intros X. apply St in X. rewrite X in H1. discriminate.
    - clear IHa. change (x :: a ++ [y]) with ((x :: a) ++ [y]) in E. rewrite app_assoc in E. apply app_inj_tail in E. destruct E as [-> _]. exact (P b x a w0 eq_refl R0). }
  destruct (step GO zero RQ len w l) as [w'|] eqn:S; [|discriminate]. change (l :: ls) with ([l] ++ ls). rewrite app_assoc. eapply IH; [exact P1| | |exact H2].
  - rewrite run_app, R. cbn [run]. rewrite S. reflexivity.
  - rewrite orb_true_iff, in_app_iff, St. cbn [In]. destruct l; intuition discriminate.
Qed.
Lemma polite_by : forall G M V (GO : @graph_ops G M V) zero RQ channels len g ls,
  polite_check GO zero RQ len (new_context channels g) false ls = true -> polite GO zero RQ channels len g ls.
Proof.
  intros G M V GO zero RQ channels len g ls H. apply (polite_check_ok _ _ _ GO zero RQ channels len g ls [] (new_context channels g) false); auto.
  - intros b x a w E. destruct b; discriminate.
  - cbn. split; [discriminate|tauto].
Qed.

(** 10 frames in quanta of 4; suspensions before the last quantum and before the first, scheduled in this order; the graph is changed before the start, in both
    suspensions and by a handler *)
Definition C83_program : list (@label nat) :=
  [Suspend 2; Send [1]; Suspend 0; Start; Work; Work; Poll 1; Send [5]; Resume; Work; Work; Quantum [7]; Events [2];
   Work; Quantum []; Events []; Work; Poll 0; Send [3]; Send [4]; Resume; Work; Work; Quantum []; Events []; Work].
Example C83_case :
  polite counter 0 4 1 10 0 C83_program /\
  option_map (fun w => w_task w) (run counter 0 4 10 (new_context 1 0) C83_program) = Some (T_done [[600; 601; 602; 603; 900; 901; 902; 903; 1700; 1701]]) /\
  scheduled C83_program = [2; 0] /\ segments C83_program = [[1]; [5]; [3; 4]; []] /\ handled C83_program = [[2]; []; []] /\
  never_panics counter /\
  life 3 [2; 0] =
    [Changes Running; Changes Running; Changes Suspended; Changes Running; Renders 0; Hears Running; Hears Running; Hears Suspended; Hears Running;
     Renders 1; Changes Suspended; Changes Running; Renders 2; Hears Suspended; Hears Running; Changes Closed; Completes; Hears Closed; Hears_end].
Proof.
  split; [apply polite_by; vm_compute; reflexivity|]. split; [vm_compute; reflexivity|]. repeat (split; [reflexivity|]). split; [split; discriminate|]. reflexivity.
Qed.

(** ** Findings *)

(** The start of the rendering emits two "statechange" events although the state changes once: [start_rendering] sets the state, and so does the renderer when it
    handles its first message. *)
Theorem C83_one_event_refuted : exists ls w, polite counter 0 4 1 10 0 ls /\ run counter 0 4 10 (new_context 1 0) ls = Some w /\
  changes (w_log w) = [Running; Running].
Proof.
  exists [Start; Work]. destruct (run counter 0 4 10 (new_context 1 0) [Start; Work]) as [w|] eqn:E; [|vm_compute in E; discriminate]. exists w.
  split; [apply polite_by; vm_compute; reflexivity|]. split; [reflexivity|]. vm_compute in E. injection E as <-. reflexivity.
Qed.
Print Assumptions C83_one_event_refuted.

(** [resume] called before the rendering has started does not panic, although the documentation says so: the context reports that it runs, and the first
    suspension does not take place: the quantum is rendered before the suspension is reported.  When the task that waits for the suspension goes on after the
    end of the rendering, the closed context becomes suspended. *)
Theorem C83_early_resume_refuted : exists ls w b, run counter 0 4 10 (new_context 1 0) ls = Some w /\
  ~ In Refused (w_log w) /\ scheduled ls = [1] /\ w_task w = T_done b /\ w_state w = Suspended /\
  marks (w_log w) = [Changes Running; Changes Running; Renders 0; Hears Running; Hears Running; Renders 1; Renders 2; Changes Closed; Completes; Hears Closed; Hears_end; Changes Suspended].
Proof.
  pose (ls := [Suspend 1; Resume; Start; Work; Work; Quantum []; Events []; Work; Work; Work; Quantum []; Events []; Work; Quantum []; Events []; Work; Poll 0] : list (@label nat)).
  exists ls. destruct (run counter 0 4 10 (new_context 1 0) ls) as [w|] eqn:E; [|vm_compute in E; discriminate]. vm_compute in E. injection E as <-.
  eexists _, _. split; [reflexivity|]. cbn [w_log w_task w_state]. split; [cbn [In]; intuition discriminate|]. repeat (split; [reflexivity|]). reflexivity.
Qed.
Print Assumptions C83_early_resume_refuted.

(** [resume] called after the end panics, but the closed context then reports that it runs. *)
Theorem C83_closed_for_good_refuted : exists ls w w', run counter 0 4 10 (new_context 1 0) ls = Some w /\ w_state w = Closed /\
  step counter 0 4 10 w Resume = Some w' /\ w_state w' = Running /\ last (w_log w') (Rendered 0) = Refused.
Proof.
  pose (ls := [Start; Work; Work; Quantum []; Events []; Work; Quantum []; Events []; Work; Quantum []; Events []; Work] : list (@label nat)).
  exists ls. destruct (run counter 0 4 10 (new_context 1 0) ls) as [w|] eqn:E; [|vm_compute in E; discriminate]. vm_compute in E. injection E as <-.
  eexists _, _. repeat (split; [reflexivity|]). reflexivity.
Qed.
Print Assumptions C83_closed_for_good_refuted.

(** The handler for changes of state is not called while the context is suspended: a program that resumes in this handler waits forever, since the rendering
    makes no step before [resume] is called. *)
Theorem C83_suspended_heard_refuted : exists ls w, polite counter 0 4 1 10 0 ls /\ run counter 0 4 10 (new_context 1 0) ls = Some w /\
  w_state w = Suspended /\ In Start ls /\ w_events w = [Changed Suspended] /\
  (forall l, (l = Work \/ (exists evs, l = Quantum evs) \/ (exists ms, l = Events ms) \/ (exists i, l = Poll i)) -> step counter 0 4 10 w l = None).
Proof.
  pose (ls := [Suspend 1; Start; Work; Work; Quantum []; Events []; Work; Poll 0] : list (@label nat)).
  exists ls. destruct (run counter 0 4 10 (new_context 1 0) ls) as [w|] eqn:E; [|vm_compute in E; discriminate].
  exists w. split; [apply polite_by; vm_compute; reflexivity|]. vm_compute in E. injection E as <-.
  split; [reflexivity|]. split; [reflexivity|]. split; [cbn; tauto|]. split; [reflexivity|].
  intros l [->|[(evs & ->)|[(ms & ->)|(i & ->)]]]; try reflexivity. destruct i as [|[|i]]; reflexivity.
Qed.
Print Assumptions C83_suspended_heard_refuted.

(** When the program drops a future of [suspend], the rendering panics at the quantum it was scheduled for. *)
Theorem C83_dropped_refuted : exists ls w, run counter 0 4 10 (new_context 1 0) ls = Some w /\ In (Drop 0) ls /\ w_task w = T_panicked.
Proof.
  pose (ls := [Suspend 1; Drop 0; Start; Work; Work; Quantum []; Events []; Work] : list (@label nat)).
  exists ls. destruct (run counter 0 4 10 (new_context 1 0) ls) as [w|] eqn:E; [|vm_compute in E; discriminate]. vm_compute in E. injection E as <-.
  eexists. split; [reflexivity|]. split; [cbn; tauto|reflexivity].
Qed.
Print Assumptions C83_dropped_refuted.

(** A suspension scheduled in the last quantum (rounded up to the end, see C16) does not take place, and the task that waits for it panics. *)
Theorem C83_reported_refuted : exists ls w, polite counter 0 4 1 10 0 ls /\ run counter 0 4 10 (new_context 1 0) ls = Some w /\
  scheduled ls = [3] /\ w_state w = Closed /\ nth_error (w_futures w) 0 = Some F_panicked.
Proof.
  pose (ls := [Suspend 3; Start; Work; Work; Quantum []; Events []; Work; Quantum []; Events []; Work; Quantum []; Events []; Work; Poll 0] : list (@label nat)).
  exists ls. destruct (run counter 0 4 10 (new_context 1 0) ls) as [w|] eqn:E; [|vm_compute in E; discriminate].
  exists w. split; [apply polite_by; vm_compute; reflexivity|]. vm_compute in E. injection E as <-. repeat (split; [reflexivity|]). reflexivity.
Qed.
Print Assumptions C83_reported_refuted.
