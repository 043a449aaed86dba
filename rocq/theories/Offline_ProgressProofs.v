(** The life of an OfflineAudioContext: a polite program can always bring the rendering to its end. *)
From Coq Require Import List Arith Bool Lia Sorting.Sorted.
From Verif Require Import Thread_Model Thread_Spec Thread_Proofs Thread_OfflineProofs Offline_Model Offline_Spec Offline_Proofs Offline_LifeProofs Offline_SoundProofs.
Import ListNotations.

Section Offline.
Context {G M V : Type}.
Variable GO : @graph_ops G M V.
Variable zero : V.
Variable RQ channels len : nat.
Variable g0 : G.
Hypothesis Hch : 0 < channels.
Hypothesis HG : never_panics GO.

Notation world := (@world G M V).
Notation label := (@label M).
Notation step := (step GO zero RQ len).
Notation run := (run GO zero RQ len).
Notation n := (div_ceil len RQ).
Notation new := (new_context channels g0).
Notation Inv := (Inv RQ len g0).
Notation fair_run := (fair_run GO zero RQ len).

Definition Safe (w : world) : Prop :=
  w_buffer w <> [] /\
  match w_task w with
  | T_none => t_graph (w_thread w) = None
  | T_init | T_done _ => True
  | T_panicked => False
  | _ => t_graph (w_thread w) <> None
  end.

Lemma handle_graph_some : forall ms t, t_graph t <> None -> exists t', handle_all GO t (map GraphMsg ms) = Some (t', []) /\ t_graph t' <> None.
Proof.
  induction ms as [|m ms IH]; intros t N; cbn [map handle_all]; [eauto|]. cbn [handle_control_message]. destruct (t_graph t) as [g|]; [|congruence].
  destruct (g_apply GO g m) as [g'|] eqn:E; [|destruct (proj2 HG g m E)]. apply IH. discriminate.
Qed.
Lemma messages_some : forall ms t, t_listening t = true -> t_graph t <> None -> exists t', handle_control_messages GO t (map GraphMsg ms) = Some (t', []) /\ t_graph t' <> None.
Proof. intros ms t L N. unfold handle_control_messages. rewrite L. apply handle_graph_some. exact N. Qed.
Lemma startup_some : forall ms t, t_listening t = true -> exists t', handle_control_messages GO t (StartupMsg g0 :: map GraphMsg ms) = Some (t', []) /\ t_graph t' <> None.
Proof. intros ms t L. unfold handle_control_messages. rewrite L. cbn [handle_all handle_control_message]. apply handle_graph_some. discriminate. Qed.

Lemma safe_step : forall w l w', Inv w -> Safe w -> fair w l -> step w l = Some w' -> Safe w'.
Proof.
  intros w l w' (R & L & P & Ph) (B & Sf) F H. unfold phase in Ph.
  destruct l as [q|i|i|ms| | | |evs|ms]; cbn [Offline_Model.step fair] in *.
  - rewrite R in H. injection H as <-. split; [exact B|]. fields. destruct (w_task w); exact Sf.
  - destruct (nth_error (w_futures w) i) as [[]|]; try discriminate; injection H as <-; [|split; assumption].
    unfold change_state. destruct (cstate_eqb _ _); split; assumption.
  - contradiction.
  - injection H as <-. split; assumption.
  - unfold change_state in H. destruct (cstate_eqb (w_state w) Running); destruct (listening w); injection H as <-; split; assumption.
  - congruence.
  - destruct (w_task w) eqn:T; try discriminate.
    + destruct Ph as (St & K & Q & (ms & C) & E0 & G0). injection H as <-. destruct (startup_some ms (w_thread w) L) as (t' & E & Gt).
      unfold handle_messages. rewrite C, E. split; [exact B|exact Gt].
    + injection H as <-. destruct Ph as (Le & St & K & Q & C). destruct (P ltac:(unfold listening; rewrite T; reflexivity)) as [P1 P2].
      unfold check_suspension. destruct (Nat.eqb q n).
      * unfold finish, change_state, cancel. fields. rewrite St. cbn [cstate_eqb]. fields. split; [exact B|exact I].
      * destruct (w_left w) as [|[q' i] left'] eqn:Lf; [split; assumption|]. destruct (Nat.eqb q' q); [|split; assumption].
        apply Forall_cons_iff in P2. destruct P2 as [Pi Pl]. cbn [snd] in Pi. rewrite Pi. split; assumption.
    + destruct (w_tokens w); [discriminate|]. injection H as <-. split; assumption.
    + destruct Ph as (Lt & St & K & Q & (ms & C)). injection H as <-. destruct (messages_some ms (w_thread w) L Sf) as (t' & E & Gt).
      unfold handle_messages. rewrite C, E. split; [exact B|exact Gt].
  - destruct (w_task w) eqn:T; try discriminate. injection H as <-. unfold render, render_quantum.
    destruct (t_graph (w_thread w)) as [g|]; [|congruence]. destruct (g_render GO g (t_frames (w_thread w))) as [[g' o]|] eqn:E; [|destruct (proj1 HG _ _ E)].
    unfold extend_offline. destruct (w_buffer w) as [|b0 bs] eqn:Eb; [congruence|]. split; [|discriminate]. cbn. discriminate.
  - destruct (w_task w) eqn:T; try discriminate. destruct Ph as (Lt & St & K & Q & C). destruct (w_events w) as [|e es] eqn:Ev.
    + destruct ms; [|discriminate]. injection H as <-. split; assumption.
    + assert (H' : w' = handle_messages GO (handle_pending_events (with_chan w (w_chan w ++ map GraphMsg ms))) (T_check (S q))) by (injection H as <-; reflexivity).
      clear H. subst w'. destruct (messages_some ms (w_thread w) L Sf) as (t' & E & Gt). unfold handle_messages. fields. rewrite C. cbn [app]. rewrite E. split; [exact B|exact Gt].
Qed.

Lemma safe_before : forall ls w l w', Before channels g0 ls w -> Safe w -> step w l = Some w' -> fair w l -> Safe w'.
Proof.
  intros ls w l w' (ps & ms & R & T & St & K & Ev & Lg & C & Th & Bu & O & ND & Pe & Fu & Sc) (B & Sf) H F.
  destruct l as [q|i|i|ms'| | | |evs|ms']; cbn [Offline_Model.step fair] in *; try (rewrite T in H; discriminate).
  - rewrite R in H. destruct (insert_suspension q (length (w_futures w)) ps); injection H as <-; split; assumption.
  - destruct (nth_error (w_futures w) i) as [[]|]; try discriminate; injection H as <-; [|split; assumption].
    unfold change_state. destruct (cstate_eqb _ _); split; assumption.
  - contradiction.
  - injection H as <-. split; assumption.
  - destruct F. congruence.
  - rewrite R in H. injection H as <-. unfold change_state. destruct (cstate_eqb _ _); split; try exact B; exact I.
Qed.

Lemma safe_run : forall ls w, polite GO zero RQ channels len g0 ls -> run new ls = Some w -> Safe w.
Proof.
  induction ls as [|l ls IH] using rev_ind; intros w P R.
  - injection R as <-. split; [|reflexivity]. cbn. destruct channels; [lia|discriminate].
  - rewrite run_app in R. destruct (run new ls) as [w1|] eqn:R1; [|discriminate]. cbn [Offline_Model.run] in R.
    destruct (step w1 l) as [w2|] eqn:S; [|discriminate]. injection R as <-. pose proof (IH w1 (prefix_polite _ _ _ _ _ _ _ _ P) eq_refl) as Sf.
    destruct (polite_run GO zero RQ channels len g0 ls w1 (prefix_polite _ _ _ _ _ _ _ _ P) R1) as [(NI & B)|(I & ps & O & Sc & B1 & B2)].
    + apply (safe_before ls w1 l); auto. apply (polite_fair GO zero RQ channels len g0 ls l w1 P R1). split; [contradiction|]. destruct B as (? & ? & R & _). congruence.
    + apply (safe_step w1 l); auto. apply (polite_fair GO zero RQ channels len g0 ls l w1 P R1). split; [|intros _; exact I]. intros _. exact (proj1 B1).
Qed.

Definition measure (w : world) : nat :=
  match w_task w with
  | T_none | T_panicked | T_done _ => 0
  | T_init => 8 * n + 8
  | T_check q => 8 * (n - q) + 7
  | T_waiting q => 8 * (n - q) + (if notified (w_futures w) then 6 else if cstate_eqb (w_state w) Suspended then 5 else 4)
  | T_resumed q => 8 * (n - q) + 3
  | T_quantum q => 8 * (n - q) + 2
  | T_events q => 8 * (n - q) + 1
  end.

Lemma some_step : forall w, Inv w -> Safe w -> (forall b, w_task w <> T_done b) ->
  exists l w', fair w l /\ step w l = Some w' /\ measure w' < measure w.
Proof.
  intros w (R & L & P & Ph) (B & Sf) ND. unfold phase in Ph. destruct (w_task w) eqn:T; try contradiction.
  - destruct Ph as (St & K & Q & (ms & C) & E0 & G0). destruct (startup_some ms (w_thread w) L) as (t' & E & Gt).
    exists Work. cbn [Offline_Model.step fair]. rewrite T. eexists. split; [exact I|]. split; [reflexivity|]. unfold handle_messages, measure. rewrite C, E, T. fields. lia.
  - destruct Ph as (Le & St & K & Q & C). destruct (P ltac:(unfold listening; rewrite T; reflexivity)) as [P1 P2].
    exists Work. cbn [Offline_Model.step fair]. rewrite T. eexists. split; [exact I|]. split; [reflexivity|].
    replace (measure w) with (8 * (n - q) + 7) by (unfold measure; rewrite T; reflexivity). unfold check_suspension. destruct (Nat.eqb_spec q n) as [->|NE].
    + unfold finish, change_state, cancel. fields. rewrite St. cbn [cstate_eqb]. unfold measure. fields. lia.
    + destruct (w_left w) as [|[q' i] left'] eqn:Lf; [unfold measure; fields; lia|]. destruct (Nat.eqb q' q); [|unfold measure; fields; lia].
      apply Forall_cons_iff in P2. destruct P2 as [Pi Pl]. cbn [snd] in Pi. rewrite Pi. unfold measure. fields.
      destruct (notified _); [lia|]. destruct (cstate_eqb _ _); lia.
  - destruct Ph as (Lt & C & [((i & I1 & I2) & St & K & C0)|[(Q & St & K)|(Q & St & K)]]).
    + exists (Poll i). cbn [Offline_Model.step fair]. rewrite I1. eexists. split; [exact I|]. split; [reflexivity|].
      assert (X : notified (w_futures w) = true) by (apply notified_spec; eauto).
      assert (Q : notified (set_nth i F_done (w_futures w)) = false).
      { apply quiet_spec. intros j. rewrite nth_set_nth. destruct (Nat.eqb_spec i j) as [->|NE]; [rewrite I1; discriminate|]. intros Y. apply I2 in Y. congruence. }
      unfold change_state. fields. rewrite St. cbn [cstate_eqb]. unfold measure. fields. rewrite T, X, Q. cbn [cstate_eqb]. lia.
    + exists Resume. cbn [Offline_Model.step fair]. assert (Li : listening w = true) by (unfold listening; rewrite T; reflexivity). rewrite Li. eexists.
      split; [split; assumption|]. split; [reflexivity|]. unfold change_state. rewrite St. cbn [cstate_eqb]. unfold measure. fields. rewrite T, St. apply quiet_spec in Q. rewrite Q. cbn [cstate_eqb]. lia.
    + exists Work. cbn [Offline_Model.step fair]. rewrite T, K. eexists. split; [exact I|]. split; [reflexivity|]. unfold measure. fields. rewrite T.
      destruct (notified _); [lia|]. destruct (cstate_eqb _ _); lia.
  - destruct Ph as (Lt & St & K & Q & (ms & C)). destruct (messages_some ms (w_thread w) L Sf) as (t' & E & Gt).
    exists Work. cbn [Offline_Model.step fair]. rewrite T. eexists. split; [exact I|]. split; [reflexivity|]. unfold handle_messages, measure. rewrite C, E, T. fields. lia.
  - exists (Quantum []). cbn [Offline_Model.step fair]. rewrite T. eexists. split; [exact I|]. split; [reflexivity|]. unfold render, render_quantum.
    destruct (t_graph (w_thread w)) as [g|]; [|congruence]. destruct (g_render GO g (t_frames (w_thread w))) as [[g' o]|] eqn:E; [|destruct (proj1 HG _ _ E)].
    unfold extend_offline. destruct (w_buffer w) as [|b0 bs] eqn:Eb; [congruence|]. unfold measure. fields. rewrite T. lia.
  - destruct Ph as (Lt & St & K & Q & C). exists (Events []). cbn [Offline_Model.step fair]. rewrite T. destruct (w_events w) as [|e es] eqn:Ev.
    + eexists. split; [exact I|]. split; [reflexivity|]. unfold measure. fields. rewrite T. lia.
    + eexists. split; [exact I|]. split; [reflexivity|]. destruct (messages_some [] (w_thread w) L Sf) as (t' & E & Gt). unfold handle_messages. fields. rewrite C. cbn [app map] in *. rewrite E.
      unfold measure. fields. rewrite T. lia.
  - destruct (ND buffer eq_refl).
Qed.

Lemma can_finish : forall k w, measure w <= k -> Inv w -> Safe w -> exists ls w' b, fair_run w ls /\ run w ls = Some w' /\ w_task w' = T_done b.
Proof.
  induction k as [|k IH]; intros w Hk I Sf.
  - assert (D : (exists b, w_task w = T_done b) \/ (forall b, w_task w <> T_done b)) by (destruct (w_task w); eauto; right; discriminate).
    destruct D as [(b & T)|ND]; [exists [], w, b; repeat split; exact T|]. destruct (some_step w I Sf ND) as (l & w' & _ & _ & Lt). lia.
  - assert (D : (exists b, w_task w = T_done b) \/ (forall b, w_task w <> T_done b)) by (destruct (w_task w); eauto; right; discriminate).
    destruct D as [(b & T)|ND]; [exists [], w, b; repeat split; exact T|]. destruct (some_step w I Sf ND) as (l & w1 & F & S & Lt).
    assert (I1 : Inv w1) by exact (proj1 (step_inv GO zero RQ len g0 w l w1 _ I F (ex_intro _ (todo RQ len w) (conj eq_refl (fun _ => eq_refl))) S)).
    destruct (IH w1 ltac:(lia) I1 (safe_step w l w1 I Sf F S)) as (ls & w' & b & Fr & R & T). exists (l :: ls), w', b. split; [|split; [|exact T]].
    + split; [exact F|]. intros w2 S2. rewrite S in S2. injection S2 as <-. exact Fr.
    + cbn [Offline_Model.run]. rewrite S. exact R.
Qed.

Theorem progress_spec : forall ls w, polite GO zero RQ channels len g0 ls -> In Start ls -> run new ls = Some w ->
  w_task w <> T_panicked /\ exists ls' w' b, polite GO zero RQ channels len g0 (ls ++ ls') /\ run new (ls ++ ls') = Some w' /\ w_task w' = T_done b.
Proof.
  intros ls w P I R. pose proof (safe_run ls w P R) as Sf. split.
  - intros T. destruct Sf as (_ & Sf). rewrite T in Sf. exact Sf.
  - destruct (polite_run GO zero RQ channels len g0 ls w P R) as [(N & _)|(_ & ps & _ & _ & B & _)]; [contradiction|].
    destruct (can_finish (measure w) w (le_n _) B Sf) as (ls' & w' & b & F & R' & T). exists ls', w', b. split; [|split; [|exact T]].
    + apply (fair_polite GO zero RQ channels len g0 ls' ls w P R I F).
    + rewrite run_app, R. exact R'.
Qed.

End Offline.
