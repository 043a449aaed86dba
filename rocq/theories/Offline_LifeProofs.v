(** The life of an OfflineAudioContext: runs of polite programs; what holds for every program. *)
From Coq Require Import List Arith Bool Lia Sorting.Sorted.
From Verif Require Import Thread_Model Thread_Spec Thread_Proofs Thread_OfflineProofs Offline_Model Offline_Spec Offline_Proofs.
Import ListNotations.

Ltac fields := cbn [w_state w_renderer w_futures w_task w_left w_tokens w_chan w_thread w_buffer w_events w_log with_task with_futures with_left with_tokens with_chan with_renderer with_log send_event handle_pending_events] in *.

(** ** The order of events, from the promises *)
Lemma loop_later : forall susp k q ps, ordered ps -> Forall (fun p => q <= fst p) ps -> 0 < q ->
  (forall x, q <= x -> (In x (map fst ps) <-> In x susp)) ->
  loop k q [] ps = flat_map (quantum_life susp) (seq q k) ++ [Changes Closed; Completes; Hears Closed; Hears_end].
Proof.
  intros susp. induction k as [|k IH]; intros q ps O F Pos HI; [reflexivity|]. cbn [loop seq flat_map].
  assert (Q0 : Nat.eqb q 0 = false) by (apply Nat.eqb_neq; lia).
  destruct ps as [|[q' i] ps'].
  - cbn [map] in HI. unfold quantum_life at 1. rewrite Q0.
    assert (X : existsb (Nat.eqb q) susp = false).
    { destruct (existsb (Nat.eqb q) susp) eqn:X; [|reflexivity]. apply existsb_exists in X. destruct X as (x & I & E). apply Nat.eqb_eq in E. subst x.
      apply (proj2 (HI q (le_n q))) in I. destruct I. }
    rewrite X. cbn [map app]. f_equal. apply IH; [exact O|constructor|lia|]. intros x Hx. apply HI. lia.
  - apply Forall_cons_iff in F. destruct F as [F1 F2]. cbn [fst] in F1. unfold ordered in O. cbn [map fst] in O. apply StronglySorted_inv in O. destruct O as [O1 O2].
    rewrite Forall_forall in O2. unfold quantum_life at 1. rewrite Q0. destruct (Nat.eqb_spec q' q) as [->|NE].
    + assert (X : existsb (Nat.eqb q) susp = true).
      { apply existsb_exists. exists q. split; [|apply Nat.eqb_refl]. apply (HI q (le_n q)). left. reflexivity. }
      rewrite X. cbn [map app]. do 5 f_equal. apply IH; [exact O1| |lia|].
      * apply Forall_forall. intros p I. apply (in_map fst) in I. apply O2 in I. lia.
      * intros x Hx. rewrite <- (HI x) by lia. cbn [map fst In]. split; [auto|]. intros [->|I]; [lia|exact I].
    + assert (X : existsb (Nat.eqb q) susp = false).
      { destruct (existsb (Nat.eqb q) susp) eqn:X; [|reflexivity]. apply existsb_exists in X. destruct X as (x & I & E). apply Nat.eqb_eq in E. subst x.
        apply (proj2 (HI q (le_n q))) in I. cbn [map fst In] in I. destruct I as [I|I]; [congruence|]. apply O2 in I. lia. }
      rewrite X. cbn [map app]. f_equal. apply IH; [unfold ordered; cbn [map fst]; constructor; [exact O1|apply Forall_forall; exact O2]| |lia|].
      * constructor; [cbn; lia|]. rewrite Forall_forall in F2. apply Forall_forall. intros p I. pose proof (in_map fst _ _ I) as I'. apply O2 in I'. lia.
      * intros x Hx. apply HI. lia.
Qed.
Lemma loop_life : forall susp k ps, 0 < k -> ordered ps -> (forall x, In x (map fst ps) <-> In x susp) ->
  [Changes Running; Changes Running] ++ loop k 0 [Hears Running; Hears Running] ps = life k susp.
Proof.
  intros susp [|k] ps Pos O HI; [lia|]. unfold life. cbn [loop seq flat_map]. do 2 f_equal. cbn [app].
  destruct ps as [|[q' i] ps'].
  - unfold quantum_life at 1.
    assert (X : existsb (Nat.eqb 0) susp = false).
    { destruct (existsb (Nat.eqb 0) susp) eqn:X; [|reflexivity]. apply existsb_exists in X. destruct X as (x & I & E). apply HI in I. destruct I. }
    rewrite X. cbn [map app Nat.eqb]. do 4 f_equal. apply loop_later; [exact O|constructor|lia|]. intros x _. apply HI.
  - unfold ordered in O. cbn [map fst] in O. apply StronglySorted_inv in O. destruct O as [O1 O2]. rewrite Forall_forall in O2.
    assert (F2 : Forall (fun p => 1 <= fst p) ps') by (apply Forall_forall; intros p I; apply (in_map fst) in I; apply O2 in I; lia).
    unfold quantum_life at 1. destruct q' as [|q'].
    + assert (X : existsb (Nat.eqb 0) susp = true) by (apply existsb_exists; exists 0; split; [apply HI; left; reflexivity|reflexivity]).
      rewrite X. cbn [map app Nat.eqb]. do 8 f_equal. apply loop_later; [exact O1|exact F2|lia|].
      intros x Hx. rewrite <- (HI x). cbn [map fst In]. split; [auto|]. intros [<-|I]; [lia|exact I].
    + assert (X : existsb (Nat.eqb 0) susp = false).
      { destruct (existsb (Nat.eqb 0) susp) eqn:X; [|reflexivity]. apply existsb_exists in X. destruct X as (x & I & E). apply Nat.eqb_eq in E. subst x.
        apply HI in I. cbn [map fst In] in I. destruct I as [I|I]; [congruence|]. apply O2 in I. lia. }
      rewrite X. cbn [map app Nat.eqb]. do 4 f_equal. apply loop_later; [unfold ordered; cbn [map fst]; constructor; [exact O1|apply Forall_forall; exact O2]| |lia|].
      * constructor; [cbn; lia|exact F2].
      * intros x _. apply HI.
Qed.

Section Offline.
Context {G M V : Type}.
Variable GO : @graph_ops G M V.
Variable zero : V.
Variable RQ channels len : nat.
Variable g0 : G.

Notation world := (@world G M V).
Notation label := (@label M).
Notation step := (step GO zero RQ len).
Notation run := (run GO zero RQ len).
Notation n := (div_ceil len RQ).
Notation new := (new_context channels g0).

(** ** Before the rendering *)
Definition Before (ls : list label) (w : world) : Prop :=
  exists ps ms, w_renderer w = Some ps /\ w_task w = T_none /\ w_state w = Suspended /\ w_tokens w = 0 /\ w_events w = [] /\ marks (w_log w) = [] /\
    w_chan w = StartupMsg g0 :: map GraphMsg ms /\ w_thread w = new_thread /\ w_buffer w = repeat [] channels /\
    ordered ps /\ NoDup (map snd ps) /\ Forall (fun p => nth_error (w_futures w) (snd p) = Some F_pending) ps /\
    Forall (fun f => f = F_pending \/ f = F_panicked) (w_futures w) /\
    (forall q, In q (map fst ps) <-> In q (scheduled ls)).

Definition began (w : world) (ps : list (nat * nat)) : Prop :=
  Inv RQ len g0 w /\ follows RQ len w ([Changes Running; Changes Running] ++ loop n 0 [Hears Running; Hears Running] ps).

Lemma scheduled_app : forall a b : list label, ~ In Start a -> scheduled (a ++ b) = scheduled a ++ scheduled b.
Proof.
  induction a as [|l a IH]; intros b N; [reflexivity|]. cbn [app scheduled]. assert (N' : ~ In Start a) by (intros X; apply N; right; exact X).
  destruct l; try (apply IH; exact N'); [cbn [app]; f_equal; apply IH; exact N'|]. destruct N. left. reflexivity.
Qed.
Lemma scheduled_started : forall a b : list label, In Start a -> scheduled (a ++ b) = scheduled a.
Proof.
  induction a as [|l a IH]; intros b I; [destruct I|]. cbn [app scheduled]. destruct l; try reflexivity; try (apply (f_equal (cons q))); apply IH; (destruct I as [I|I]; [discriminate|exact I]).
Qed.
Lemma calm : forall f, Forall (fun f => f = F_pending \/ f = F_panicked) f -> quiet f.
Proof. intros f F i X. apply nth_error_In in X. rewrite Forall_forall in F. destruct (F _ X); discriminate. Qed.

Lemma insert_snd : forall A q (a : A) l l', insert_suspension q a l = Some l' -> forall x, In x (map snd l') <-> x = a \/ In x (map snd l).
Proof.
  induction l as [|[q' a'] l IH]; intros l' H x; cbn [insert_suspension] in H.
  - injection H as <-. cbn. intuition.
  - destruct (Nat.ltb q q'); [injection H as <-; cbn; intuition|]. destruct (Nat.eqb q q'); [discriminate|].
    destruct (insert_suspension q a l) as [l1|] eqn:E; [|discriminate]. injection H as <-. cbn [map snd In]. rewrite (IH _ eq_refl). intuition.
Qed.
Lemma insert_nodup : forall A q (a : A) l l', insert_suspension q a l = Some l' -> NoDup (map snd l) -> ~ In a (map snd l) -> NoDup (map snd l').
Proof.
  induction l as [|[q' a'] l IH]; intros l' H N I; cbn [insert_suspension] in H.
  - injection H as <-. cbn. constructor; [auto|constructor].
  - destruct (Nat.ltb q q'); [injection H as <-; constructor; assumption|]. destruct (Nat.eqb q q'); [discriminate|].
    destruct (insert_suspension q a l) as [l1|] eqn:E; [|discriminate]. injection H as <-. cbn [map snd] in *. apply NoDup_cons_iff in N. destruct N as [N1 N2]. constructor.
    + rewrite (insert_snd _ _ _ _ _ E). intros [->|X]; [apply I; left; reflexivity|contradiction].
    + apply IH; auto. intros X. apply I. right. exact X.
Qed.

Lemma before_step : forall ls w l w', Before ls w -> ~ In Start ls -> fair w l -> step w l = Some w' ->
  (l <> Start -> Before (ls ++ [l]) w') /\ (l = Start -> exists ps, ordered ps /\ (forall q, In q (map fst ps) <-> In q (scheduled ls)) /\ began w' ps).
Proof.
  intros ls w l w' (ps & ms & R & T & St & K & Ev & Lg & C & Th & Bu & O & ND & Pe & Fu & Sc) NS F H.
  assert (Sc' : forall l' : label, scheduled (ls ++ [l']) = scheduled ls ++ scheduled [l']) by (intros; apply scheduled_app; exact NS).
  destruct l as [q|i|i|ms'| | | |evs|ms']; cbn [Offline_Model.step fair] in *; try (rewrite T in H; discriminate).
  - (* Suspend *) split; [|discriminate]. intros _. rewrite R in H. destruct (insert_spec q (length (w_futures w)) ps O) as [I1 I2].
    destruct (insert_suspension q (length (w_futures w)) ps) as [ps'|] eqn:Ei; injection H as <-.
    + destruct (I2 _ eq_refl) as [O' I3]. exists ps', ms. fields. repeat (split; [assumption || reflexivity|]).
      assert (NI : ~ In (length (w_futures w)) (map snd ps)).
      { intros X. apply in_map_iff in X. destruct X as (p & E1 & E2). rewrite Forall_forall in Pe. specialize (Pe p E2). rewrite E1 in Pe.
        assert (length (w_futures w) < length (w_futures w)) by (apply nth_error_Some; rewrite Pe; discriminate). lia. }
      split; [eapply insert_nodup; eassumption|]. split; [|split].
      * apply Forall_forall. intros p I. apply I3 in I. destruct I as [->|I].
        -- cbn [snd]. rewrite nth_error_app2 by lia. rewrite Nat.sub_diag. reflexivity.
        -- exact (proj1 (Forall_forall _ _) (pending_app _ F_pending _ Pe) p I).
      * apply Forall_app. split; [exact Fu|]. constructor; [left; reflexivity|constructor].
      * intros x. rewrite Sc', in_app_iff. cbn [scheduled In]. rewrite <- Sc. split.
        -- intros X. apply in_map_iff in X. destruct X as (p & <- & E2). apply I3 in E2. destruct E2 as [->|E2]; [right; left; reflexivity|left; apply in_map; exact E2].
        -- intros [X|[<-|[]]].
           ++ apply in_map_iff in X. destruct X as (p & <- & E2). apply in_map. apply I3. right. exact E2.
           ++ apply (in_map fst ps' (q, length (w_futures w))). apply I3. left. reflexivity.
    + exists ps, ms. fields. rewrite marks_app, Lg. repeat (split; [assumption || reflexivity|]). split; [apply pending_app; exact Pe|]. split.
      * apply Forall_app. split; [exact Fu|]. constructor; [right; reflexivity|constructor].
      * intros x. rewrite Sc', in_app_iff. cbn [scheduled In]. rewrite <- Sc. split; [auto|]. intros [X|[<-|[]]]; [exact X|].
        destruct (proj1 I1 eq_refl) as (a & Ia). apply (in_map fst) in Ia. exact Ia.
  - (* Poll *) exfalso. destruct (nth_error (w_futures w) i) as [f|] eqn:E; [|discriminate]. apply nth_error_In in E. rewrite Forall_forall in Fu.
    destruct (Fu _ E); subst f; discriminate.
  - contradiction.
  - (* Send *) split; [|discriminate]. intros _. injection H as <-. exists ps, (ms ++ ms'). fields. rewrite C, map_app. repeat (split; [assumption || reflexivity|]).
    intros x. rewrite Sc'. cbn [scheduled]. rewrite app_nil_r. apply Sc.
  - (* Resume *) destruct F. congruence.
  - (* Start *) split; [congruence|]. intros _. rewrite R in H. injection H as <-. exists ps. split; [exact O|]. split; [exact Sc|].
    unfold change_state. fields. rewrite St. cbn [cstate_eqb]. fields. split.
    + split; [reflexivity|]. fields. rewrite Th. split; [reflexivity|]. split; [intros _; auto|]. unfold phase. fields. repeat split; auto.
      * apply calm. exact Fu.
      * exists ms. exact C.
    + exists (Changes Running :: loop n 0 [Hears Running; Hears Running] ps). fields. rewrite marks_app, Lg. split; [reflexivity|]. intros _. unfold todo. cbn. rewrite Ev. reflexivity.
Qed.

Lemma before_new : Before [] new.
Proof.
  exists [], []. cbn. repeat split; try constructor; try tauto.
Qed.

Lemma prefix_polite : forall ls l, polite GO zero RQ channels len g0 (ls ++ [l]) -> polite GO zero RQ channels len g0 ls.
Proof.
  intros ls l P b x a w E R. apply (P b x (a ++ [l]) w); [|exact R]. rewrite E, <- app_assoc. reflexivity.
Qed.
Lemma polite_fair : forall ls l w, polite GO zero RQ channels len g0 (ls ++ [l]) -> run new ls = Some w ->
  (In Start ls <-> w_renderer w = None) -> fair w l.
Proof.
  intros ls l w P R I. specialize (P ls l [] w eq_refl R). destruct l; cbn [fair]; try exact P.
  - rewrite <- I. exact P.
  - intros X. apply P. apply I. exact X.
Qed.

Theorem polite_run : forall ls w, polite GO zero RQ channels len g0 ls -> run new ls = Some w ->
  (~ In Start ls /\ Before ls w) \/
  (In Start ls /\ exists ps, ordered ps /\ (forall q, In q (map fst ps) <-> In q (scheduled ls)) /\ began w ps).
Proof.
  induction ls as [|l ls IH] using rev_ind; intros w P R.
  - injection R as <-. left. split; [auto|]. apply before_new.
  - rewrite run_app in R. destruct (run new ls) as [w1|] eqn:R1; [|discriminate]. cbn [Offline_Model.run] in R.
    destruct (step w1 l) as [w2|] eqn:S; [|discriminate]. injection R as <-. destruct (IH w1 (prefix_polite _ _ P) eq_refl) as [(NI & B)|(I & ps & O & Sc & B1 & B2)].
    + assert (F : fair w1 l).
      { apply (polite_fair ls l w1 P R1). split; [contradiction|]. destruct B as (? & ? & R & _). congruence. }
      destruct (before_step ls w1 l w2 B NI F S) as [A1 A2]. assert (D : l = Start \/ l <> Start) by (destruct l; (left; reflexivity) || (right; discriminate)).
      destruct D as [->|D].
      * right. split; [apply in_or_app; right; left; reflexivity|]. destruct (A2 eq_refl) as (ps & O & Sc & B'). exists ps. split; [exact O|]. split; [|exact B'].
        intros q. rewrite scheduled_app by exact NI. cbn [scheduled]. rewrite app_nil_r. apply Sc.
      * left. split; [|exact (A1 D)]. rewrite in_app_iff. intros [X|[X|[]]]; [contradiction|congruence].
    + assert (F : fair w1 l).
      { apply (polite_fair ls l w1 P R1). split; [|intros _; exact I]. intros _. exact (proj1 B1). }
      destruct (step_inv GO zero RQ len g0 w1 l w2 _ B1 F B2 S) as [C1 C2].
      right. split; [apply in_or_app; left; exact I|]. exists ps. split; [exact O|]. split; [|split; assumption].
      intros q. rewrite scheduled_started by exact I. apply Sc.
Qed.

Hypothesis HRQ : 0 < RQ.
Hypothesis Hlen : 0 < len.
Lemma n_pos : 0 < n.
Proof. unfold div_ceil. apply Nat.div_str_pos. lia. Qed.

Theorem life_spec : forall ls w, polite GO zero RQ channels len g0 ls -> run new ls = Some w ->
  (exists rest, marks (w_log w) ++ rest = life n (scheduled ls)) /\
  (forall b, w_task w = T_done b -> marks (w_log w) = life n (scheduled ls)).
Proof.
  intros ls w P R. destruct (polite_run ls w P R) as [(NI & ps & ms & _ & T & _ & _ & _ & Lg & _)|(I & ps & O & Sc & B1 & (rest & F1 & F2))].
  - rewrite Lg, T. split; [eexists; reflexivity|discriminate].
  - rewrite (loop_life (scheduled ls) n ps n_pos O Sc) in F1. split; [eauto|]. intros b T. rewrite T in F2. rewrite <- F1, (F2 ltac:(discriminate)).
    unfold todo. rewrite T, app_nil_r. reflexivity.
Qed.

End Offline.

(** ** Every program *)
Section All.
Context {G M V : Type}.
Variable GO : @graph_ops G M V.
Variable zero : V.
Variable RQ channels len : nat.
Variable g0 : G.

Notation world := (@world G M V).
Notation step := (step GO zero RQ len).
Notation run := (run GO zero RQ len).
Notation n := (div_ceil len RQ).
Notation new := (new_context channels g0).


Lemma changes_app : forall a b : list (@entry V), changes (a ++ b) = changes a ++ changes b.
Proof. intros. apply flat_map_app. Qed.
Lemma rendered_app : forall a b : list (@entry V), rendered (a ++ b) = rendered a ++ rendered b.
Proof. intros. apply flat_map_app. Qed.
Lemma completions_app : forall a b : list (@entry V), completions (a ++ b) = completions a ++ completions b.
Proof. intros. apply flat_map_app. Qed.
Lemma endings_app : forall a b : list (@entry V), endings (a ++ b) = endings a ++ endings b.
Proof. intros. apply flat_map_app. Qed.

Definition completing (es : list (@event V)) : list (list (list V)) := flat_map (fun e => match e with Complete b => [b] | _ => [] end) es.

(** position of the rendering *)
Definition position (w : world) : nat :=
  match w_task w with
  | T_none | T_init => 0
  | T_check q | T_waiting q | T_resumed q | T_quantum q => q
  | T_events q => S q
  | T_done _ | T_panicked => length (rendered (w_log w))
  end.
Definition Any (w : world) : Prop :=
  w_state w = last (changes (w_log w)) Suspended /\
  rendered (w_log w) = seq 0 (position w) /\
  completing (w_events w) = [] /\
  (match w_task w with
   | T_done b => position w = n /\ completions (w_log w) = [b] /\ endings (w_log w) = [b]
   | T_none => w_renderer w <> None /\ completions (w_log w) = [] /\ endings (w_log w) = []
   | T_panicked => w_renderer w = None /\ completions (w_log w) = [] /\ endings (w_log w) = [] /\ position w <= n
   | T_check q => w_renderer w = None /\ completions (w_log w) = [] /\ endings (w_log w) = [] /\ q <= n
   | T_init => w_renderer w = None /\ completions (w_log w) = [] /\ endings (w_log w) = []
   | T_waiting q | T_resumed q | T_quantum q | T_events q => w_renderer w = None /\ completions (w_log w) = [] /\ endings (w_log w) = [] /\ q < n
   end) /\ (match w_task w with T_done _ => w_renderer w = None | _ => True end).

Lemma last_snoc : forall A (l : list A) x d, last (l ++ [x]) d = x.
Proof. intros. apply last_last. Qed.
Lemma last_app2 : forall A (l m : list A) d, last (l ++ m) d = last m (last l d).
Proof.
  intros A l m. induction m as [|y m IH] using rev_ind; intros d; [rewrite app_nil_r; reflexivity|]. rewrite app_assoc, !last_snoc. reflexivity.
Qed.

Lemma any_change : forall w s, Any w -> Any (change_state w s).
Proof.
  intros w s (A & B & C & D & E). unfold change_state. destruct (cstate_eqb (w_state w) s); [repeat split; assumption|].
  unfold Any, send_event, position in *. fields. rewrite changes_app, rendered_app, completions_app, endings_app. cbn [changes rendered completions endings flat_map app]. rewrite last_snoc, !app_nil_r.
  split; [reflexivity|]. split; [exact B|]. split; [|split; assumption].
  unfold completing in *. rewrite flat_map_app, C. reflexivity.
Qed.

Ltac records := rewrite ?changes_app, ?rendered_app, ?completions_app, ?endings_app; cbn [changes rendered completions endings flat_map app map]; rewrite ?app_nil_r.

Lemma any_futures : forall w f, Any w -> Any (with_futures w f).
Proof. intros w f A. exact A. Qed.
Lemma any_refused : forall w, Any w -> Any (with_log w [Refused]).
Proof.
  intros w (A & B & C & D & E). unfold Any, position in *. fields. records. exact (conj A (conj B (conj C (conj D E)))).
Qed.

Lemma any_panicked : forall w, Any w -> (match w_task w with T_done _ | T_none | T_init => False | _ => True end) -> Any (panicked w).
Proof.
  intros w (A & B & C & D & E) N. unfold Any, panicked, cancel, position in *. fields.
  assert (L : length (rendered (w_log w)) = match w_task w with T_none | T_init => 0 | T_check q | T_waiting q | T_resumed q | T_quantum q => q | T_events q => S q | _ => length (rendered (w_log w)) end).
  { rewrite B at 1. rewrite seq_length. reflexivity. }
  split; [exact A|]. split; [etransitivity; [exact B|]; f_equal; symmetry; exact L|]. split; [exact C|]. split; [|exact I].
  destruct (w_task w); try contradiction; decompose [and] D; repeat split; try assumption; lia.
Qed.

Lemma any_panicked_init : forall w, Any w -> w_task w = T_init -> Any (panicked w).
Proof.
  intros w (A & B & C & D & E) T. unfold Any, panicked, cancel, position in *. fields. rewrite T in *. cbn [seq] in B. rewrite B. cbn [length seq].
  destruct D as (D1 & D2 & D3). repeat (split; [assumption || reflexivity|]). split; [|exact I]. repeat split; auto. lia.
Qed.

Lemma completing_changed : forall l, completing (map Changed l) = [].
Proof. induction l; [reflexivity|]. exact IHl. Qed.
Lemma completing_nodes : forall l, completing (map Node_event l) = [].
Proof. induction l; [reflexivity|]. exact IHl. Qed.
Lemma endings_heard : forall es, endings (map Heard es) = completing es.
Proof. induction es as [|e es IH]; [reflexivity|]. cbn [map]. unfold endings, completing in *. cbn [flat_map]. rewrite IH. destruct e; reflexivity. Qed.
Lemma emit_changed : forall l : list cstate, changes (V := V) (map (fun s => Emit (Changed s)) l) = l /\ rendered (V := V) (map (fun s => Emit (Changed s)) l) = [] /\
  completions (V := V) (map (fun s => Emit (Changed s)) l) = [] /\ endings (V := V) (map (fun s => Emit (Changed s)) l) = [].
Proof.
  induction l as [|s l (A & B & C & D)]; [repeat split|]. cbn [map]. unfold changes, rendered, completions, endings in *. cbn [flat_map app]. rewrite A. auto.
Qed.
Lemma emit_nodes : forall l : list nat, changes (V := V) (map (fun s => Emit (Node_event s)) l) = [] /\ rendered (V := V) (map (fun s => Emit (Node_event s)) l) = [] /\
  completions (V := V) (map (fun s => Emit (Node_event s)) l) = [] /\ endings (V := V) (map (fun s => Emit (Node_event s)) l) = [].
Proof.
  induction l as [|s l (A & B & C & D)]; [repeat split|]. cbn [map]. unfold changes, rendered, completions, endings in *. cbn [flat_map app]. auto.
Qed.
Lemma heard_rest : forall es : list (@event V), changes (map Heard es) = [] /\ rendered (map Heard es) = [] /\ completions (map Heard es) = [].
Proof.
  induction es as [|s l (A & B & C)]; [repeat split|]. cbn [map]. unfold changes, rendered, completions in *. cbn [flat_map app]. auto.
Qed.

(** a step that handles messages *)
Lemma any_handle : forall w next, Any w -> (match w_task w with T_done _ | T_none => False | _ => True end) ->
  Any (with_task w next) -> Any (handle_messages GO w next).
Proof.
  intros w next A N A'. unfold handle_messages. destruct (handle_control_messages GO (w_thread w) (w_chan w)) as [[t' rest]|].
  - destruct A' as (A1 & B1 & C1 & D1 & E1). unfold Any, position in *. fields.
    destruct (emit_changed (skipn (length (t_events (w_thread w))) (t_events t'))) as (H1 & H2 & H3 & H4).
    rewrite changes_app, rendered_app, completions_app, endings_app, H1, H2, H3, H4, !app_nil_r, last_app2, <- A1.
    split; [reflexivity|]. split; [exact B1|]. split; [|split; assumption]. unfold completing in *. rewrite flat_map_app, C1. apply completing_changed.
  - destruct (w_task w) eqn:T; try contradiction; first [apply any_panicked_init; assumption | apply any_panicked; [exact A|rewrite T; exact I]].
Qed.

Theorem any_step : forall w l w', Any w -> step w l = Some w' -> Any w'.
Proof.
  intros w l w' A H. destruct l as [q|i|i|ms| | | |evs|ms]; cbn [Offline_Model.step] in H.
  - destruct (w_renderer w) as [ps|] eqn:R.
    + destruct (insert_suspension q (length (w_futures w)) ps) as [ps'|]; injection H as <-; [|apply any_refused; exact A].
      destruct A as (A1 & B & C & D & E). unfold Any, position in *. fields. repeat (split; [assumption|]).
      destruct (w_task w); split; try tauto; try congruence; try (decompose [and] D; congruence).
      destruct D as (_ & D). split; [discriminate|exact D].
    + injection H as <-. apply any_refused. exact A.
  - destruct (nth_error (w_futures w) i) as [[]|]; try discriminate; injection H as <-; [apply any_change; exact A|apply any_refused; exact A].
  - destruct (nth_error (w_futures w) i) as [[]|]; try discriminate; injection H as <-; exact A.
  - injection H as <-. exact A.
  - apply (any_change w Running) in A. destruct (listening w); injection H as <-; [exact A|apply any_refused; exact A].
  - destruct (w_renderer w) as [ps|] eqn:R; injection H as <-; [|apply any_refused; exact A]. apply any_change.
    destruct A as (A1 & B & C & D & E). unfold Any, position in *. fields.
    destruct (w_task w); try congruence; try (decompose [and] D; congruence). destruct D as (_ & D). repeat (split; [assumption|]). split; [|exact I]. split; [reflexivity|exact D].
  - destruct (w_task w) eqn:T; try discriminate.
    + injection H as <-. apply any_handle; [exact A|rewrite T; exact I|]. destruct A as (A1 & B & C & D & E). unfold Any, position in *. fields. rewrite T in *.
      repeat (split; [assumption|]). split; [|exact I]. decompose [and] D. repeat split; auto. lia.
    + injection H as <-. unfold check_suspension. destruct (Nat.eqb_spec q n) as [->|NE].
      * unfold finish.
        assert (A2 : Any (cancel (handle_pending_events w))).
        { destruct A as (A1 & B & C & D & E). unfold Any, position, cancel in *. fields. rewrite T in *. destruct (heard_rest (w_events w)) as (H1 & H2 & H3).
          rewrite changes_app, rendered_app, completions_app, endings_app, endings_heard, H1, H2, H3, C, !app_nil_r. repeat (split; [assumption || reflexivity|]). exact I. }
        apply (any_change _ Closed) in A2.
        assert (T2 : w_task (change_state (cancel (handle_pending_events w)) Closed) = T_check n) by (unfold change_state; destruct (cstate_eqb _ _); exact T).
        remember (change_state (cancel (handle_pending_events w)) Closed) as w2 eqn:Ew2. clear Ew2.
        destruct A2 as (A1 & B & C & D & E). unfold Any, position in *. fields. rewrite T2 in *. destruct D as (D1 & D2 & D3 & D4).
        destruct (heard_rest (w_events w2 ++ [Complete (w_buffer w)])) as (H1 & H2 & H3).
        rewrite !changes_app, !rendered_app, !completions_app, !endings_app, endings_heard, H1, H2, H3, D2, D3. cbn [changes rendered completions endings flat_map app].
        rewrite !app_nil_r. unfold completing. rewrite flat_map_app. unfold completing in C. rewrite C, B, seq_length. cbn. auto 10.
      * destruct (w_left w) as [|[q' i] left'].
        -- destruct A as (A1 & B & C & D & E). unfold Any, position in *. fields. rewrite T in *. repeat (split; [assumption|]). split; [|exact I]. decompose [and] D. repeat split; auto. lia.
        -- destruct (Nat.eqb q' q).
           ++ destruct (nth_error (w_futures w) i) as [[]|];
                try (apply any_panicked; [exact A|fields; rewrite T; exact I]).
              destruct A as (A1 & B & C & D & E). unfold Any, position in *. fields. rewrite T in *. repeat (split; [assumption|]). split; [|exact I]. decompose [and] D. repeat split; auto. lia.
           ++ destruct A as (A1 & B & C & D & E). unfold Any, position in *. fields. rewrite T in *. repeat (split; [assumption|]). split; [|exact I]. decompose [and] D. repeat split; auto. lia.
    + destruct (w_tokens w); [discriminate|]. injection H as <-. destruct A as (A1 & B & C & D & E). unfold Any, position in *. fields. rewrite T in *. auto 10.
    + injection H as <-. apply any_handle; [exact A|rewrite T; exact I|]. destruct A as (A1 & B & C & D & E). unfold Any, position in *. fields. rewrite T in *. auto 10.
  - destruct (w_task w) eqn:T; try discriminate. injection H as <-. unfold render.
    destruct (render_quantum GO RQ (w_thread w)) as [[t' out]|]; [|apply any_panicked; [exact A|rewrite T; exact I]].
    destruct (extend_offline zero RQ len (w_buffer w) out) as [b'|]; [|apply any_panicked; [exact A|rewrite T; exact I]].
    destruct A as (A1 & B & C & D & E). unfold Any, position in *. fields. rewrite T in *. destruct (emit_nodes evs) as (H1 & H2 & H3 & H4).
    change (Rendered q :: map (fun i => Emit (Node_event i)) evs) with ([Rendered q] ++ map (fun i => Emit (V := V) (Node_event i)) evs).
    rewrite !changes_app, !rendered_app, !completions_app, !endings_app, H1, H2, H3, H4. cbn [changes rendered completions endings flat_map app]. rewrite !app_nil_r.
    split; [exact A1|]. split; [|split; [|split; [exact D|exact I]]].
    + rewrite (B : rendered (w_log w) = seq 0 q). rewrite seq_S. reflexivity.
    + unfold completing in *. rewrite flat_map_app, C. apply completing_nodes.
  - destruct (w_task w) eqn:T; try discriminate. destruct (w_events w) as [|e es] eqn:Ev.
    + destruct ms; [|discriminate]. injection H as <-. destruct A as (A1 & B & C & D & E). unfold Any, position in *. fields. rewrite T in *. rewrite Ev in *. auto 10.
    + assert (H' : w' = handle_messages GO (handle_pending_events (with_chan w (w_chan w ++ map GraphMsg ms))) (T_check (S q))) by (injection H as <-; reflexivity).
      clear H. subst w'.
      assert (A2 : Any (handle_pending_events (with_chan w (w_chan w ++ map GraphMsg ms)))).
      { destruct A as (A1 & B & C & D & E). unfold Any, position in *. fields. rewrite T in *. destruct (heard_rest (w_events w)) as (H1 & H2 & H3).
        rewrite changes_app, rendered_app, completions_app, endings_app, endings_heard, H1, H2, H3, C, !app_nil_r. repeat (split; [assumption || reflexivity|]). exact I. }
      apply any_handle; [exact A2|fields; rewrite T; exact I|].
      destruct A2 as (A1 & B & C & D & E). unfold Any, position in *. fields. rewrite T in *. auto 10.
Qed.

Theorem any_run : forall ls w, run new ls = Some w -> Any w.
Proof.
  intros ls w. assert (A0 : Any new) by (unfold Any, position; cbn; repeat split; discriminate). revert A0. generalize (new : world).
  induction ls as [|l ls IH]; intros w0 A0 H; cbn [Offline_Model.run] in H; [injection H as <-; exact A0|].
  destruct (step w0 l) as [w1|] eqn:S; [|discriminate]. eapply IH; [|exact H]. eapply any_step; eassumption.
Qed.

End All.
