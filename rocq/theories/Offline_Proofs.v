(** The life of an OfflineAudioContext: invariant of polite programs, order of events. *)
From Coq Require Import List Arith Bool Lia Sorting.Sorted.
From Verif Require Import Thread_Model Thread_Spec Thread_Proofs Offline_Model Offline_Spec.
Import ListNotations.

(** ** Lists *)
Lemma nth_set_nth : forall A (l : list A) i j x, nth_error (set_nth i x l) j = if Nat.eqb i j then option_map (fun _ => x) (nth_error l j) else nth_error l j.
Proof.
  induction l as [|y l IH]; intros i j x.
  - destruct i, j; cbn [set_nth nth_error option_map]; destruct (Nat.eqb _ _); reflexivity.
  - destruct i, j; cbn [set_nth nth_error option_map Nat.eqb]; try reflexivity. apply IH.
Qed.
Lemma length_set_nth : forall A (l : list A) i x, length (set_nth i x l) = length l.
Proof. induction l as [|y l IH]; intros [|i] x; cbn [set_nth length]; try reflexivity. rewrite IH. reflexivity. Qed.

Lemma marks_app : forall V (a b : list (@entry V)), marks (a ++ b) = marks a ++ marks b.
Proof. intros. apply flat_map_app. Qed.

Section Offline.
Context {G M V : Type}.
Variable GO : @graph_ops G M V.
Variable zero : V.
Variable RQ channels len : nat.
Variable g0 : G.

Notation world := (@world G M V).
Notation label := (@label M).
Notation step := (step GO zero RQ len).
Notation run := (run GO zero RQ len).
Notation n := (div_ceil len RQ).

Lemma run_app : forall ls1 ls2 (w : world), run w (ls1 ++ ls2) = match run w ls1 with None => None | Some w' => run w' ls2 end.
Proof. induction ls1 as [|l ls1 IH]; intros ls2 w; [reflexivity|]. cbn [app Offline_Model.run]. destruct (step w l); [apply IH|reflexivity]. Qed.

(** ** Messages for the graph *)
Lemma handle_graph : forall ms t t' rest, handle_all GO t (map GraphMsg ms) = Some (t', rest) ->
  rest = [] /\ t_events t' = t_events t /\ t_listening t' = t_listening t.
Proof.
  induction ms as [|m ms IH]; intros t t' rest H; cbn [map handle_all] in H.
  - injection H as <- <-. auto.
  - cbn [handle_control_message] in H. destruct (t_graph t) as [g|]; [|discriminate]. destruct (g_apply GO g m) as [g'|]; [|discriminate].
    destruct (IH _ _ _ H) as (A & B & C). cbn [set_graph t_events t_listening] in *. auto.
Qed.

Definition quiet (f : list fut) : Prop := forall i, nth_error f i <> Some F_notified.
Definition notified (f : list fut) : bool := existsb (fun x => match x with F_notified => true | _ => false end) f.
Lemma notified_spec : forall f, notified f = true <-> exists i, nth_error f i = Some F_notified.
Proof.
  intros f. unfold notified. rewrite existsb_exists. split.
  - intros (x & I & E). destruct x; try discriminate. apply In_nth_error. exact I.
  - intros (i & E). exists F_notified. split; [eapply nth_error_In; exact E|reflexivity].
Qed.
Lemma quiet_spec : forall f, quiet f <-> notified f = false.
Proof.
  intros f. split.
  - intros Q. destruct (notified f) eqn:E; [|reflexivity]. apply notified_spec in E. destruct E as (i & E). destruct (Q i E).
  - intros E i H. assert (notified f = true) by (apply notified_spec; eauto). congruence.
Qed.

Definition graph_only (c : list (@cmsg G M)) : Prop := exists ms, c = map GraphMsg ms.

Definition phase (w : world) : Prop :=
  match w_task w with
  | T_none => False
  | T_init => w_state w = Running /\ w_tokens w = 0 /\ quiet (w_futures w) /\ (exists ms, w_chan w = StartupMsg g0 :: map GraphMsg ms) /\ t_events (w_thread w) = [] /\ t_graph (w_thread w) = None
  | T_check q => q <= n /\ w_state w = Running /\ w_tokens w = 0 /\ quiet (w_futures w) /\ w_chan w = []
  | T_quantum q | T_events q => q < n /\ w_state w = Running /\ w_tokens w = 0 /\ quiet (w_futures w) /\ w_chan w = []
  | T_resumed q => q < n /\ w_state w = Running /\ w_tokens w = 0 /\ quiet (w_futures w) /\ graph_only (w_chan w)
  | T_waiting q => q < n /\ graph_only (w_chan w) /\
      ((exists i, nth_error (w_futures w) i = Some F_notified /\ (forall j, nth_error (w_futures w) j = Some F_notified -> j = i)) /\
         w_state w = Running /\ w_tokens w = 0 /\ w_chan w = [] \/
       quiet (w_futures w) /\ w_state w = Suspended /\ w_tokens w = 0 \/
       quiet (w_futures w) /\ w_state w = Running /\ w_tokens w = 1)
  | T_done _ | T_panicked => quiet (w_futures w) /\ w_state w <> Suspended
  end.

Definition Inv (w : world) : Prop :=
  w_renderer w = None /\ t_listening (w_thread w) = true /\
  (listening w = true -> NoDup (map snd (w_left w)) /\ Forall (fun p => nth_error (w_futures w) (snd p) = Some F_pending) (w_left w)) /\
  phase w.

Definition fair (w : world) (l : label) : Prop :=
  match l with
  | Send _ => w_state w = Suspended
  | Resume => w_state w = Suspended /\ w_renderer w = None
  | Start => w_renderer w <> None
  | Drop _ => False
  | _ => True
  end.

(** ** Cancelled promises *)
Lemma cancel_quiet : forall (l : list (nat * nat)) f, quiet f ->
  quiet (fold_left (fun f p => match nth_error f (snd p) with Some F_pending => set_nth (snd p) F_canceled f | _ => f end) l f).
Proof.
  induction l as [|p l IH]; intros f Q; cbn [fold_left]; [exact Q|]. apply IH.
  destruct (nth_error f (snd p)) as [[]|] eqn:E; try exact Q. intros i. rewrite nth_set_nth.
  destruct (Nat.eqb_spec (snd p) i) as [<-|]; [rewrite E; discriminate|apply Q].
Qed.
Lemma panicked_inv : forall w : world, w_renderer w = None -> t_listening (w_thread w) = true -> quiet (w_futures w) -> w_state w <> Suspended -> Inv (panicked w).
Proof.
  intros w R L Q S. unfold Inv, panicked, with_task, cancel, with_futures, phase, listening. cbn. repeat split; auto; try discriminate.
  apply cancel_quiet. exact Q.
Qed.

Lemma pending_set : forall f i x (l : list (nat * nat)), ~ In i (map snd l) ->
  Forall (fun p => nth_error f (snd p) = Some F_pending) l -> Forall (fun p => nth_error (set_nth i x f) (snd p) = Some F_pending) l.
Proof.
  intros f i x l NI F. rewrite Forall_forall in *. intros p I. rewrite nth_set_nth. destruct (Nat.eqb_spec i (snd p)) as [->|]; [|apply F; exact I].
  destruct NI. apply in_map. exact I.
Qed.
Lemma pending_app : forall f x (l : list (nat * nat)),
  Forall (fun p => nth_error f (snd p) = Some F_pending) l -> Forall (fun p => nth_error (f ++ [x]) (snd p) = Some F_pending) l.
Proof.
  intros f x l F. rewrite Forall_forall in *. intros p I. rewrite nth_error_app1; [apply F; exact I|].
  apply nth_error_Some. rewrite (F p I). discriminate.
Qed.
Lemma quiet_app : forall f x, quiet f -> x <> F_notified -> quiet (f ++ [x]).
Proof.
  intros f x Q N i H. destruct (Nat.lt_ge_cases i (length f)).
  - rewrite nth_error_app1 in H by assumption. exact (Q i H).
  - rewrite nth_error_app2 in H by assumption. destruct (i - length f) as [|k]; cbn in H; [congruence|destruct k; discriminate].
Qed.

(** ** Handling messages *)
Lemma handle_spec : forall (w : world) next ms, t_listening (w_thread w) = true -> w_chan w = map GraphMsg ms ->
  handle_messages GO w next = panicked w \/
  exists t', handle_control_messages GO (w_thread w) (w_chan w) = Some (t', []) /\ t_listening t' = true /\
    handle_messages GO w next = mk_world (w_state w) (w_renderer w) (w_futures w) next (w_left w) (w_tokens w) [] t' (w_buffer w) (w_events w) (w_log w).
Proof.
  intros w next ms L C. unfold handle_messages. destruct (handle_control_messages GO (w_thread w) (w_chan w)) as [[t' rest]|] eqn:E; [|left; reflexivity].
  right. unfold handle_control_messages in E. rewrite L, C in E. apply handle_graph in E. destruct E as (-> & E1 & E2). exists t'.
  rewrite E1. rewrite skipn_all. cbn [last map]. rewrite !app_nil_r. split; [reflexivity|]. split; [congruence|reflexivity].
Qed.
Lemma handle_init : forall (w : world) next ms, t_listening (w_thread w) = true -> w_chan w = StartupMsg g0 :: map GraphMsg ms -> t_events (w_thread w) = [] ->
  handle_messages GO w next = panicked w \/
  exists t', handle_control_messages GO (w_thread w) (w_chan w) = Some (t', []) /\ t_listening t' = true /\
    handle_messages GO w next = mk_world Running (w_renderer w) (w_futures w) next (w_left w) (w_tokens w) [] t' (w_buffer w)
      (w_events w ++ [Changed Running]) (w_log w ++ [Emit (Changed Running)]).
Proof.
  intros w next ms L C E0. unfold handle_messages. destruct (handle_control_messages GO (w_thread w) (w_chan w)) as [[t' rest]|] eqn:E; [|left; reflexivity].
  right. unfold handle_control_messages in E. rewrite L, C in E. cbn [handle_all handle_control_message] in E.
  apply handle_graph in E. destruct E as (-> & E1 & E2). exists t'. cbn [set_state set_graph t_events t_listening] in E1, E2. rewrite E0 in *. cbn [app length] in *.
  rewrite E1. cbn [skipn last map]. split; [reflexivity|]. split; [congruence|reflexivity].
Qed.

(** ** What is still to happen *)
Definition pending (es : list (@event V)) : list mark :=
  flat_map (fun e => match e with Changed s => [Hears s] | Complete _ => [Hears_end] | Node_event _ => [] end) es.
Fixpoint loop (k q : nat) (pend : list mark) (left : list (nat * nat)) : list mark :=
  match k with
  | O => pend ++ [Changes Closed; Completes; Hears Closed; Hears_end]
  | S k' =>
      match left with
      | (q', _) :: left' =>
          if Nat.eqb q' q then [Changes Suspended; Changes Running] ++ Renders q :: (pend ++ [Hears Suspended; Hears Running]) ++ loop k' (S q) [] left'
          else Renders q :: pend ++ loop k' (S q) [] left
      | [] => Renders q :: pend ++ loop k' (S q) [] left
      end
  end.
Definition todo (w : world) : list mark :=
  let p := pending (w_events w) in
  let after q := loop (n - S q) (S q) [] (w_left w) in
  match w_task w with
  | T_none | T_panicked => []
  | T_init => Changes Running :: loop n 0 (p ++ [Hears Running]) (w_left w)
  | T_check q => loop (n - q) q p (w_left w)
  | T_waiting q =>
      if notified (w_futures w) then [Changes Suspended; Changes Running] ++ Renders q :: (p ++ [Hears Suspended; Hears Running]) ++ after q
      else if cstate_eqb (w_state w) Suspended then [Changes Running] ++ Renders q :: (p ++ [Hears Running]) ++ after q
      else Renders q :: p ++ after q
  | T_resumed q | T_quantum q => Renders q :: p ++ after q
  | T_events q => p ++ after q
  | T_done _ => []
  end.

Definition follows (w : world) (E : list mark) : Prop :=
  exists rest, marks (w_log w) ++ rest = E /\ (w_task w <> T_panicked -> rest = todo w).

Lemma pending_app_ev : forall a b, pending (a ++ b) = pending a ++ pending b.
Proof. intros. apply flat_map_app. Qed.
Lemma pending_nodes : forall l, pending (map Node_event l) = [].
Proof. induction l; [reflexivity|]. exact IHl. Qed.
Lemma marks_heard : forall es, marks (V := V) (map Heard es) = pending es.
Proof. induction es as [|e es IH]; [reflexivity|]. cbn [map]. unfold marks in *. cbn [flat_map]. rewrite IH. destruct e; reflexivity. Qed.
Lemma marks_nodes : forall l, marks (V := V) (map (fun i => Emit (Node_event i)) l) = [].
Proof. induction l; [reflexivity|]. exact IHl. Qed.

Lemma follows_panicked : forall (w : world) E rest, marks (w_log w) ++ rest = E -> follows (panicked w) E.
Proof. intros w E rest H. exists rest. split; [exact H|]. intros N. destruct N. reflexivity. Qed.

Ltac fields := cbn [w_state w_renderer w_futures w_task w_left w_tokens w_chan w_thread w_buffer w_events w_log with_task with_futures with_left with_tokens with_chan with_renderer with_log send_event handle_pending_events] in *.

Lemma change_state_running : forall (w : world) s, w_state w = s -> change_state w s = w.
Proof. intros w s <-. unfold change_state. destruct (w_state w); reflexivity. Qed.

Definition same (w w' : world) : Prop := w_log w' = w_log w.

Theorem step_inv : forall w l w' E, Inv w -> fair w l -> follows w E -> step w l = Some w' -> Inv w' /\ follows w' E.
Proof.
  intros w l w' E (R & L & P & Ph) F (rest & Fl & Ft) H. destruct l as [q|i|i|ms| | | |evs|ms]; cbn [Offline_Model.step fair] in *.
  - (* Suspend *)
    rewrite R in H. injection H as <-. split.
    + split; [exact R|]. split; [exact L|]. split.
      * intros Li. destruct (P Li) as [P1 P2]. fields. split; [exact P1|]. apply pending_app. exact P2.
      * unfold phase in *. fields. destruct (w_task w); try exact Ph.
        -- destruct Ph as (? & ? & Q & ?). repeat split; try tauto. apply quiet_app; [exact Q|discriminate].
        -- destruct Ph as (? & ? & ? & Q & ?). repeat split; try tauto. apply quiet_app; [exact Q|discriminate].
        -- destruct Ph as (A & B & [((i & I1 & I2) & C)|[(Q & C)|(Q & C)]]).
           ++ split; [exact A|]. split; [exact B|]. left. split; [|exact C]. exists i. split.
              ** rewrite nth_error_app1; [exact I1|]. apply nth_error_Some. rewrite I1. discriminate.
              ** intros j J. apply I2. destruct (Nat.lt_ge_cases j (length (w_futures w))); [rewrite nth_error_app1 in J by assumption; exact J|].
                 rewrite nth_error_app2 in J by assumption. destruct (j - length (w_futures w)) as [|k]; cbn in J; [discriminate|destruct k; discriminate].
           ++ repeat split; auto. right. left. repeat split; try tauto. apply quiet_app; [exact Q|discriminate].
           ++ repeat split; auto. right. right. repeat split; try tauto. apply quiet_app; [exact Q|discriminate].
        -- destruct Ph as (? & ? & ? & Q & ?). repeat split; try tauto. apply quiet_app; [exact Q|discriminate].
        -- destruct Ph as (? & ? & ? & Q & ?). repeat split; try tauto. apply quiet_app; [exact Q|discriminate].
        -- destruct Ph as (? & ? & ? & Q & ?). repeat split; try tauto. apply quiet_app; [exact Q|discriminate].
        -- destruct Ph as (Q & ?). split; [|assumption]. apply quiet_app; [exact Q|discriminate].
        -- destruct Ph as (Q & ?). split; [|assumption]. apply quiet_app; [exact Q|discriminate].
    + exists rest. fields. split; [rewrite marks_app; cbn; rewrite app_nil_r; exact Fl|].
      intros N. rewrite (Ft N). unfold todo. fields.
      assert (X : notified (w_futures w ++ [F_panicked]) = notified (w_futures w)) by (unfold notified; rewrite existsb_app; cbn; apply orb_false_r).
      rewrite X. reflexivity.
  - (* Poll *)
    destruct (nth_error (w_futures w) i) as [f|] eqn:Ei; [|discriminate]. destruct f; try discriminate.
    + (* notified *)
      assert (W : exists q, w_task w = T_waiting q /\ q < n /\ (forall j, nth_error (w_futures w) j = Some F_notified -> j = i) /\ w_state w = Running /\ w_tokens w = 0 /\ w_chan w = []).
      { unfold phase in Ph. destruct (w_task w) eqn:T.
        1: contradiction.
        all: try (exfalso; decompose [and] Ph; match goal with Q : quiet _ |- _ => exact (Q i Ei) end).
        destruct Ph as (A & B & [((j & I1 & I2) & C)|[(Q & C)|(Q & C)]]); try (destruct (Q i Ei)).
        exists q. assert (i = j) by (apply I2; exact Ei). subst j. tauto. }
      destruct W as (q & T & Lt & U & St & K & C). injection H as <-.
      assert (CS : change_state (with_futures w (set_nth i F_done (w_futures w))) Suspended =
        send_event (mk_world Suspended (w_renderer w) (set_nth i F_done (w_futures w)) (w_task w) (w_left w) (w_tokens w) (w_chan w) (w_thread w) (w_buffer w) (w_events w) (w_log w)) (Changed Suspended)).
      { unfold change_state. fields. rewrite St. reflexivity. }
      rewrite CS.
      assert (Q : quiet (set_nth i F_done (w_futures w))).
      { intros j. rewrite nth_set_nth. destruct (Nat.eqb_spec i j) as [->|NE]; [rewrite Ei; discriminate|]. intros X. apply U in X. congruence. }
      assert (Li : listening w = true) by (unfold listening; rewrite T; reflexivity). destruct (P Li) as [P1 P2].
      split.
      * split; [exact R|]. split; [exact L|]. split.
        -- intros _. fields. split; [exact P1|]. apply pending_set; [|exact P2].
           intros X. apply in_map_iff in X. destruct X as (p & E1 & E2). rewrite Forall_forall in P2. specialize (P2 p E2). congruence.
        -- unfold phase. fields. rewrite T. split; [exact Lt|]. split; [exists []; exact C|]. right. left. auto.
      * exists (Changes Running :: Renders q :: (pending (w_events w) ++ [Hears Suspended] ++ [Hears Running]) ++ loop (n - S q) (S q) [] (w_left w)).
        fields. split.
        -- rewrite marks_app. cbn [marks flat_map mark_of app]. rewrite <- Fl, (Ft ltac:(rewrite T; discriminate)). unfold todo. rewrite T.
           assert (X : notified (w_futures w) = true) by (apply notified_spec; eauto). rewrite X. rewrite <- app_assoc. reflexivity.
        -- intros _. unfold todo. fields. rewrite T. apply quiet_spec in Q. rewrite Q. cbn [cstate_eqb]. rewrite pending_app_ev.
           cbn [pending flat_map app]. rewrite <- !app_assoc. reflexivity.
    + (* canceled *)
      injection H as <-.
      assert (Q : quiet (w_futures w) -> quiet (set_nth i F_panicked (w_futures w))).
      { intros Q j. rewrite nth_set_nth. destruct (Nat.eqb_spec i j) as [->|NE]; [rewrite Ei; discriminate|]. apply Q. }
      assert (NN : notified (set_nth i F_panicked (w_futures w)) = notified (w_futures w)).
      { destruct (notified (w_futures w)) eqn:X.
        - apply notified_spec in X. destruct X as (j & X). apply notified_spec. exists j. rewrite nth_set_nth. destruct (Nat.eqb_spec i j) as [->|]; [congruence|exact X].
        - apply quiet_spec. apply Q. apply quiet_spec. exact X. }
      split.
      * split; [exact R|]. split; [exact L|]. split.
        -- intros Li. destruct (P Li) as [P1 P2]. fields. split; [exact P1|]. apply pending_set; [|exact P2].
           intros X. apply in_map_iff in X. destruct X as (p & E1 & E2). rewrite Forall_forall in P2. specialize (P2 p E2). congruence.
        -- unfold phase in *. fields. destruct (w_task w); try exact Ph.
           7, 8 : destruct Ph as (Q1 & ?); split; auto.
           3 : { destruct Ph as (A & B & [((j & I1 & I2) & C)|[(Q1 & C)|(Q1 & C)]]); split; auto; split; auto.
                 left. split; [|exact C]. exists j. split.
                 - rewrite nth_set_nth. destruct (Nat.eqb_spec i j) as [->|]; [congruence|exact I1].
                 - intros k. rewrite nth_set_nth. destruct (Nat.eqb_spec i k) as [->|]; [rewrite Ei; discriminate|]. apply I2. }
           all: decompose [and] Ph; repeat split; auto.
      * exists rest. fields. split; [rewrite marks_app; cbn; rewrite app_nil_r; exact Fl|]. intros N. rewrite (Ft N). unfold todo. fields. rewrite NN. reflexivity.
  - contradiction.
  - (* Send *)
    injection H as <-. split.
    + split; [exact R|]. split; [exact L|]. split; [exact P|]. unfold phase in *. fields. rewrite F in *.
      destruct (w_task w); try (decompose [and] Ph; congruence).
      destruct Ph as (A & (ms0 & B) & [(X & C)|[(Q & C)|(Q & C)]]); try (decompose [and] C; congruence).
      split; [exact A|]. split; [exists (ms0 ++ ms); rewrite map_app, B; reflexivity|]. right. left. tauto.
    + exists rest. fields. split; [exact Fl|]. intros N. rewrite (Ft N). reflexivity.
  - (* Resume *)
    destruct F as (F & _).
    assert (W : exists q, w_task w = T_waiting q /\ q < n /\ quiet (w_futures w) /\ w_tokens w = 0 /\ graph_only (w_chan w)).
    { unfold phase in Ph. rewrite F in Ph. destruct (w_task w) eqn:T; try (exfalso; decompose [and] Ph; congruence).
      exists q. destruct Ph as (A & B & [(X & C)|[(Q & C)|(Q & C)]]); try (exfalso; decompose [and] C; congruence). tauto. }
    destruct W as (q & T & Lt & Q & K & C). assert (Li : listening w = true) by (unfold listening; rewrite T; reflexivity). rewrite Li in H.
    unfold change_state in H. rewrite F in H. cbn [cstate_eqb] in H. fields. rewrite K in H. injection H as <-. split.
    + split; [exact R|]. split; [exact L|]. split; [intros _; exact (P Li)|]. unfold phase. fields. rewrite T. split; [exact Lt|]. split; [exact C|]. right. right. auto.
    + exists (Renders q :: (pending (w_events w) ++ [Hears Running]) ++ loop (n - S q) (S q) [] (w_left w)). fields. split.
      * rewrite marks_app. cbn [marks flat_map mark_of app]. rewrite <- Fl, (Ft ltac:(rewrite T; discriminate)). unfold todo. rewrite T.
        apply quiet_spec in Q. rewrite Q, F. cbn [cstate_eqb app]. rewrite <- app_assoc. reflexivity.
      * intros _. unfold todo. fields. rewrite T. apply quiet_spec in Q. rewrite Q. cbn [cstate_eqb]. rewrite pending_app_ev. reflexivity.
  - congruence.
  - (* Work *)
    unfold phase in Ph. destruct (w_task w) eqn:T; try discriminate.
    + (* init *)
      destruct Ph as (S & K & Q & (ms & C) & E0 & G0). injection H as <-. destruct (P ltac:(unfold listening; rewrite T; reflexivity)) as [P1 P2].
      destruct (handle_init w (T_check 0) ms L C E0) as [->|(t' & H1 & H2 & ->)].
      * split; [apply panicked_inv; auto; congruence|]. eapply follows_panicked. exact Fl.
      * split.
        -- split; [exact R|]. split; [exact H2|]. split; [intros _; fields; auto|]. unfold phase. fields. repeat split; auto. lia.
        -- exists (loop n 0 (pending (w_events w) ++ [Hears Running]) (w_left w)). fields. split.
           ++ rewrite marks_app, <- app_assoc. rewrite <- Fl, (Ft ltac:(discriminate)). unfold todo. rewrite T. reflexivity.
           ++ intros _. unfold todo. fields. rewrite Nat.sub_0_r, pending_app_ev. reflexivity.
    + (* check *)
      destruct Ph as (Le & St & K & Q & C). injection H as <-. destruct (P ltac:(unfold listening; rewrite T; reflexivity)) as [P1 P2].
      unfold check_suspension. destruct (Nat.eqb_spec q n) as [->|NE].
      * unfold finish. unfold change_state. unfold cancel. fields. rewrite St. cbn [cstate_eqb]. fields. split.
        -- split; [exact R|]. split; [exact L|]. split; [unfold listening; fields; discriminate|]. unfold phase. fields. split; [|discriminate]. apply cancel_quiet. exact Q.
        -- exists []. fields. split; [|reflexivity]. rewrite <- Fl, (Ft ltac:(discriminate)), app_nil_r. unfold todo. rewrite T, Nat.sub_diag. cbn [loop].
           rewrite !marks_app, marks_heard. cbn [app map marks flat_map mark_of]. rewrite <- !app_assoc. reflexivity.
      * assert (Lt : q < n) by lia. destruct (w_left w) as [|[q' i] left'] eqn:Lf.
        -- split.
           ++ split; [exact R|]. split; [exact L|]. split; [intros _; fields; rewrite Lf; auto|]. unfold phase. fields. auto.
           ++ exists rest. fields. split; [exact Fl|]. intros _. rewrite (Ft ltac:(discriminate)). unfold todo. fields. rewrite T, Lf.
              destruct (n - q) as [|k] eqn:K1; [lia|]. cbn [loop]. replace (n - S q) with k by lia. reflexivity.
        -- destruct (Nat.eqb_spec q' q) as [->|NQ].
           ++ cbn [map snd] in P1. apply NoDup_cons_iff in P1. destruct P1 as [NI ND]. apply Forall_cons_iff in P2. destruct P2 as [Pi Pl]. cbn [snd] in Pi. rewrite Pi. split.
              ** split; [exact R|]. split; [exact L|]. split; [intros _; fields; split; [exact ND|]; apply pending_set; assumption|].
                 unfold phase. fields. split; [exact Lt|]. split; [exists []; exact C|]. left. split; [|auto]. exists i. rewrite nth_set_nth, Nat.eqb_refl, Pi. split; [reflexivity|].
                 intros j. rewrite nth_set_nth. destruct (Nat.eqb_spec i j) as [->|]; [reflexivity|]. intros X. destruct (Q j X).
              ** exists rest. fields. split; [exact Fl|]. intros _. rewrite (Ft ltac:(discriminate)). unfold todo. fields. rewrite T, Lf.
                 assert (X : notified (set_nth i F_notified (w_futures w)) = true) by (apply notified_spec; exists i; rewrite nth_set_nth, Nat.eqb_refl, Pi; reflexivity).
                 rewrite X. destruct (n - q) as [|k] eqn:K1; [lia|]. cbn [loop]. rewrite Nat.eqb_refl. replace (n - S q) with k by lia. reflexivity.
           ++ split.
              ** split; [exact R|]. split; [exact L|]. split; [intros _; fields; rewrite Lf; auto|]. unfold phase. fields. auto.
              ** exists rest. fields. split; [exact Fl|]. intros _. rewrite (Ft ltac:(discriminate)). unfold todo. fields. rewrite T, Lf.
                 destruct (n - q) as [|k] eqn:K1; [lia|]. cbn [loop]. apply Nat.eqb_neq in NQ. rewrite NQ. replace (n - S q) with k by lia. reflexivity.
    + (* waiting *)
      destruct (w_tokens w) as [|k] eqn:K; [discriminate|]. injection H as <-.
      destruct Ph as (Lt & C & [(X & ? & ? & ?)|[(Q & ? & ?)|(Q & St & K1)]]); try discriminate. injection K1 as ->.
      destruct (P ltac:(unfold listening; rewrite T; reflexivity)) as [P1 P2]. split.
      * split; [exact R|]. split; [exact L|]. split; [intros _; auto|]. unfold phase. fields. auto.
      * exists rest. fields. split; [exact Fl|]. intros _. rewrite (Ft ltac:(discriminate)). unfold todo. fields. rewrite T. apply quiet_spec in Q. rewrite Q, St. reflexivity.
    + (* resumed *)
      destruct Ph as (Lt & St & K & Q & (ms & C)). injection H as <-. destruct (P ltac:(unfold listening; rewrite T; reflexivity)) as [P1 P2].
      destruct (handle_spec w (T_quantum q) ms L C) as [->|(t' & H1 & H2 & ->)].
      * split; [apply panicked_inv; auto; congruence|]. eapply follows_panicked. exact Fl.
      * split.
        -- split; [exact R|]. split; [exact H2|]. split; [intros _; auto|]. unfold phase. fields. repeat split; auto.
        -- exists rest. fields. split; [exact Fl|]. intros _. rewrite (Ft ltac:(discriminate)). unfold todo. fields. rewrite T. reflexivity.
  - (* Quantum *)
    unfold phase in Ph. destruct (w_task w) eqn:T; try discriminate. injection H as <-. destruct Ph as (Lt & St & K & Q & C).
    destruct (P ltac:(unfold listening; rewrite T; reflexivity)) as [P1 P2]. unfold render.
    destruct (render_quantum GO RQ (w_thread w)) as [[t' out]|] eqn:Er; [|split; [apply panicked_inv; auto; congruence|eapply follows_panicked; exact Fl]].
    destruct (extend_offline zero RQ len (w_buffer w) out) as [b'|]; [|split; [apply panicked_inv; auto; congruence|eapply follows_panicked; exact Fl]].
    assert (L' : t_listening t' = true).
    { unfold render_quantum in Er. destruct (t_graph (w_thread w)) as [g|]; [|discriminate]. destruct (g_render GO g (t_frames (w_thread w))) as [[g' o]|]; [|discriminate].
      injection Er as <- _. exact L. }
    split.
    + split; [exact R|]. split; [exact L'|]. split; [intros _; auto|]. unfold phase. fields. repeat split; auto.
    + exists (pending (w_events w) ++ loop (n - S q) (S q) [] (w_left w)). fields. split.
      * rewrite marks_app. change (marks (Rendered q :: map (fun i => Emit (Node_event i)) evs)) with (Renders q :: marks (V := V) (map (fun i => Emit (Node_event i)) evs)).
        rewrite marks_nodes, <- app_assoc. rewrite <- Fl, (Ft ltac:(discriminate)). unfold todo. rewrite T. reflexivity.
      * intros _. unfold todo. fields. rewrite pending_app_ev, pending_nodes, app_nil_r. reflexivity.
  - (* Events *)
    unfold phase in Ph. destruct (w_task w) eqn:T; try discriminate. destruct Ph as (Lt & St & K & Q & C).
    destruct (P ltac:(unfold listening; rewrite T; reflexivity)) as [P1 P2].
    destruct (w_events w) as [|e es] eqn:Ev.
    + destruct ms; [|discriminate]. injection H as <-. split.
      * split; [exact R|]. split; [exact L|]. split; [intros _; auto|]. unfold phase. fields. repeat split; auto.
      * exists rest. fields. split; [exact Fl|]. intros _. rewrite (Ft ltac:(discriminate)). unfold todo. fields. rewrite T, Ev. reflexivity.
    + remember (handle_pending_events (with_chan w (w_chan w ++ map GraphMsg ms))) as w1 eqn:E1.
      assert (C1 : w_chan w1 = map GraphMsg ms) by (subst w1; fields; rewrite C; reflexivity).
      assert (L1 : t_listening (w_thread w1) = true) by (subst w1; exact L).
      assert (Lg : marks (w_log w1) ++ loop (n - S q) (S q) [] (w_left w1) = E).
      { subst w1. fields. rewrite marks_app, marks_heard, <- app_assoc, <- Fl, (Ft ltac:(discriminate)). unfold todo. rewrite T. reflexivity. }
      assert (H' : w' = handle_messages GO w1 (T_check (S q))) by (injection H as <-; reflexivity). clear H. subst w'.
      destruct (handle_spec w1 (T_check (S q)) ms L1 C1) as [->|(t' & H1 & H2 & ->)].
      * split; [subst w1; apply panicked_inv; fields; auto; congruence|]. eapply follows_panicked. exact Lg.
      * split.
        -- subst w1. split; [exact R|]. split; [exact H2|]. split; [intros _; auto|]. unfold phase. fields. repeat split; auto.
        -- exists (loop (n - S q) (S q) [] (w_left w1)). fields. split; [exact Lg|]. intros _. subst w1. reflexivity.
Qed.

End Offline.
