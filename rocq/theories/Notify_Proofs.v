(** Events and callbacks: proofs. *)
From Coq Require Import List Arith Bool Lia.
From Verif Require Import Common_Model Notify_Model Notify_Spec.
Import ListNotations.

Lemma topic_eqb_eq a b : topic_eqb a b = true <-> a = b.
Proof. destruct a, b; cbn [topic_eqb]; rewrite ?Nat.eqb_eq; split; congruence. Qed.
Lemma handler_in t l h : handler_of t l = Some h -> In (t, h) l.
Proof.
  unfold handler_of. destruct (find (fun p => topic_eqb (fst p) t) l) as [[t' h']|] eqn:F; [|discriminate]. intros E. injection E as <-.
  apply find_some in F. destruct F as [I E]. cbn in E. apply topic_eqb_eq in E. subst. exact I.
Qed.
Lemma without_in t l x : In x (without t l) -> In x l.
Proof. unfold without. intros I. apply filter_In in I. apply I. Qed.
Lemma topic_dispatch f e : topic_of f = fst (dispatch e) -> f = asks_for e.
Proof. destruct f, e; cbn; congruence. Qed.
Lemma unpack_told e : let p := snd (dispatch e) in unpack (asks_for e) (match p with P_state Closed => P_none | _ => p end) = Ok (told e).
Proof. destruct e as [n| |[]| | | | | |]; reflexivity. Qed.

Section Run.
Variable installed : setter -> nat -> Prop.
Lemma answers_skip cs a b : answers installed cs b -> answers installed cs (a ++ b).
Proof. intros A. induction a as [|x a IH]; [exact A|]. apply skipped. exact IH. Qed.
Lemma answers_snoc cs es cb e : answers installed cs es -> installed (asks_for e) cb -> answers installed (cs ++ [(cb, told e)]) (es ++ [e]).
Proof.
  intros A I. induction A as [es|cs x es A IH|cb' cs x es I' A IH]; cbn [app].
  - apply answers_skip. apply called; [exact I|apply no_more].
  - apply skipped. exact IH.
  - apply called; [exact I'|exact IH].
Qed.
Lemma answers_more cs es e : answers installed cs es -> answers installed cs (es ++ [e]).
Proof. intros A. induction A; cbn [app]; [apply no_more|apply skipped; assumption|apply called; assumption]. Qed.

(** [l]: the news so far; those before the queue have been taken *)
Record inv (s : state) (l : list news) : Prop := {
  i_table : forall t f cb, In (t, (f, cb)) (table s) -> t = topic_of f /\ installed f cb;
  i_running : forall t f cb, running s = Some (t, (f, cb)) -> t = topic_of f /\ installed f cb;
  i_calls : exists past rest, l = past ++ rest /\ queue s = map dispatch rest /\ answers installed (calls s) past;
  i_fine : unreachable s = false }.
Lemma inv_act s a s' l : inv s l -> (forall f cb, a = Install f cb -> installed f cb) -> act s a = Some s' -> inv s' (l ++ happened [a]).
Proof.
  intros [T R (past & rest & L & Q & C) F] I S. unfold act in S. destruct a as [f cb|f|e| |]; cbn [happened flat_map app]; rewrite ?app_nil_r.
  - injection S as <-. split; cbn [table queue running calls unreachable]; try assumption.
    + intros t g c [E|X]; [injection E as <- <- <-; split; [reflexivity|exact (I f cb eq_refl)]|exact (T t g c (without_in _ _ _ X))].
    + exists past, rest. auto.
  - injection S as <-. split; cbn [table queue running calls unreachable]; try assumption.
    + intros t g c X. exact (T t g c (without_in _ _ _ X)).
    + exists past, rest. auto.
  - injection S as <-. split; cbn [table queue running calls unreachable]; try assumption.
    exists past, (rest ++ [e]). rewrite L, Q, map_app, app_assoc. auto.
  - destruct (running s) as [x|] eqn:Rn; [discriminate|]. destruct (stopped s); [discriminate|]. destruct (queue s) as [|[t p] q] eqn:Qe; [discriminate|].
    destruct rest as [|e rest]; [discriminate Q|]. cbn [map] in Q. injection Q as D Q'.
    assert (L' : l = (past ++ [e]) ++ rest) by (rewrite L, <- app_assoc; reflexivity).
    assert (P : exists stop, match p with P_state Closed => (P_none, true) | _ => (p, false) end = (match p with P_state Closed => P_none | _ => p end, stop)) by (destruct p as [| | | | |[]| |]; eexists; reflexivity).
    destruct P as [stop P]. rewrite P in S. destruct (handler_of t (table s)) as [[f cb]|] eqn:H.
    + destruct (T _ _ _ (handler_in _ _ _ H)) as [Tf Ti]. assert (Ef : f = asks_for e) by (apply topic_dispatch; rewrite <- D; symmetry; exact Tf).
      pose proof (unpack_told e) as U. cbn zeta in U. rewrite <- D in U. cbn [snd] in U. rewrite Ef, U in S. injection S as <-. rewrite <- Ef.
      split; cbn [table queue running calls unreachable]; try assumption.
      * intros t' g c X. exact (T t' g c (without_in _ _ _ X)).
      * intros t' g c X. injection X as <- <- <-. split; [exact Tf|exact Ti].
      * exists (past ++ [e]), rest. split; [exact L'|]. split; [exact Q'|]. apply answers_snoc; [exact C|]. rewrite <- Ef. exact Ti.
    + injection S as <-. split; cbn [table queue running calls unreachable]; try assumption.
      exists (past ++ [e]), rest. split; [exact L'|]. split; [exact Q'|]. apply answers_more. exact C.
  - destruct (running s) as [[t [f cb]]|] eqn:Rn; [|discriminate]. injection S as <-. split; cbn [table queue running calls unreachable]; try assumption; [|discriminate|exists past, rest; auto].
    intros t' g c X. destruct (is_once f); [exact (T _ _ _ X)|]. destruct X as [X|X]; [injection X as <- <- <-; exact (R _ _ _ eq_refl)|exact (T _ _ _ (without_in _ _ _ X))].
Qed.
Lemma inv_acts l : forall s s' n, (forall f cb, In (Install f cb) l -> installed f cb) -> inv s n -> acts s l = Some s' -> inv s' (n ++ happened l).
Proof.
  induction l as [|a l IH]; intros s s' n I V S; cbn [acts] in S; [injection S as <-; cbn; rewrite app_nil_r; exact V|]. destruct (act s a) as [s1|] eqn:A; [|discriminate].
  change (happened (a :: l)) with (happened ([a] ++ l)). unfold happened. rewrite flat_map_app, app_assoc. apply (IH s1); [intros f cb X; apply I; right; exact X| |exact S].
  apply (inv_act s a s1 n V); [|exact A]. intros f cb ->. apply I. left. reflexivity.
Qed.
End Run.
Lemma inv_start installed : inv installed start [].
Proof. split; [intros t f cb []|discriminate| |reflexivity]. exists [], []. split; [reflexivity|]. split; [reflexivity|apply no_more]. Qed.
Lemma answers_prefix installed cs a b : answers installed cs a -> answers installed cs (a ++ b).
Proof. intros A. induction A; cbn [app]; [apply no_more|apply skipped; assumption|apply called; assumption]. Qed.
Lemma right_calls l s : acts start l = Some s -> unreachable s = false /\ answers (fun f cb => In (Install f cb) l) (calls s) (happened l).
Proof.
  intros S. destruct (inv_acts (fun f cb => In (Install f cb) l) l start s [] ltac:(auto) (inv_start _) S) as [_ _ (past & rest & L & _ & C) F]. split; [exact F|].
  cbn [app] in L. rewrite L. apply answers_prefix. exact C.
Qed.

Lemma stopped_acts l : forall s s', acts s l = Some s' -> stopped s = false -> ~ In (T_state_change, P_state Closed) (queue s) -> ~ In (State_changed Closed) (happened l) ->
  forall n, inv (fun _ _ => True) s n -> stopped s' = false.
Proof.
  induction l as [|a l IH]; intros s s' S St Q H; cbn [acts] in S; [injection S as <-; auto|]. destruct (act s a) as [s1|] eqn:A; [|discriminate].
  assert (H' : ~ In (State_changed Closed) (happened l)) by (intros X; apply H; unfold happened; cbn [flat_map]; apply in_or_app; right; exact X).
  assert (Q1 : ~ In (T_state_change, P_state Closed) (queue s1)).
  { unfold act in A. destruct a as [f cb|f|e| |].
    - injection A as <-. exact Q.
    - injection A as <-. exact Q.
    - injection A as <-. cbn [queue]. intros X. apply in_app_or in X. destruct X as [X|[X|[]]]; [exact (Q X)|]. apply H. left. destruct e; try discriminate X. injection X as ->. reflexivity.
    - destruct (running s); [discriminate|]. destruct (stopped s); [discriminate|]. destruct (queue s) as [|[t p] q]; [discriminate|]. assert (Z : ~ In (T_state_change, P_state Closed) q) by (intros X; apply Q; right; exact X).
      destruct (match p with P_state Closed => (P_none, true) | _ => (p, false) end) as [p' st]. destruct (handler_of t (table s)) as [[f cb]|]; [destruct (unpack f p')|]; injection A as <-; exact Z.
    - destruct (running s) as [[t [f cb]]|]; [|discriminate]. injection A as <-. exact Q. }
  intros n V. assert (V1 : inv (fun _ _ => True) s1 (n ++ happened [a])) by (apply (inv_act _ s a s1 n V); [auto|exact A]).
  assert (S1 : stopped s1 = false).
  { pose proof (i_fine _ _ _ V1) as U. destruct V as [_ _ (past & rest & _ & Qr & _) _]. unfold act in A. destruct a as [f cb|f|e| |].
    - injection A as <-. exact St.
    - injection A as <-. exact St.
    - injection A as <-. exact St.
    - destruct (running s); [discriminate|]. rewrite St in A. destruct (queue s) as [|[t p] q] eqn:Qe; [discriminate|].
      assert (P : match p with P_state Closed => (P_none, true) | _ => (p, false) end = (p, false)).
      { destruct p as [| | | | |[]| |]; try reflexivity. exfalso. apply Q. left. destruct rest as [|e rest]; [discriminate Qr|]. cbn [map] in Qr. destruct e; cbn [dispatch] in Qr; try discriminate Qr. injection Qr as -> -> _. reflexivity. }
      rewrite P in A. destruct (handler_of t (table s)) as [[f cb]|]; [destruct (unpack f p)|]; injection A as <-; cbn [stopped unreachable] in *; try reflexivity; discriminate U.
    - destruct (running s) as [[t [f cb]]|]; [|discriminate]. injection A as <-. exact St. }
  exact (IH s1 s' S S1 Q1 H' _ V1).
Qed.
Lemma until_closed l s : acts start l = Some s -> ~ In (State_changed Closed) (happened l) -> stopped s = false /\ (running s = None -> queue s <> [] -> exists s', act s Take = Some s').
Proof.
  intros S H. pose proof (stopped_acts l start s S eq_refl ltac:(intros []) H [] (inv_start _)) as G. split; [exact G|]. intros R Q. unfold act. rewrite R, G.
  destruct (queue s) as [|[t p] q]; [contradiction|]. destruct (match p with P_state Closed => (P_none, true) | _ => (p, false) end) as [p' st]. destruct (handler_of t (table s)) as [[f cb]|]; [destruct (unpack f p')|]; eexists; reflexivity.
Qed.
