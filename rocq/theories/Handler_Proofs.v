(** The event handlers of the nodes: proofs. *)
From Coq Require Import List Arith Bool Lia.
From Verif Require Import Handler_Model Handler_Spec.
From Verif Require Event_Model.
Import ListNotations.

Lemma code_lt k : code k < 4. Proof. destruct k; cbn; lia. Qed.
Lemma names_id id k : names id k -> id = k / 4.
Proof.
  intros [kd ->]. unfold key_of. rewrite (Nat.mul_comm 4 id), Nat.add_comm, Nat.div_add by lia.
  rewrite (Nat.div_small (code kd) 4 (code_lt kd)). reflexivity.
Qed.
Lemma names_total k : names (k / 4) k.
Proof.
  pose proof (Nat.div_mod k 4 ltac:(lia)) as E. pose proof (Nat.mod_upper_bound k 4 ltac:(lia)) as B. unfold names, key_of.
  destruct (k mod 4) as [|[|[|[|r]]]]; [exists Ended|exists Processor_error|exists Message|exists Audio_processing|lia]; cbn [code]; lia.
Qed.
Lemma names_key kd id : names id (key_of kd id). Proof. exists kd. reflexivity. Qed.
Lemma key_div kd id : key_of kd id / 4 = id. Proof. symmetry. apply names_id, names_key. Qed.

(** the last node that was given an id *)
Definition holder (ids : list nat) (id n : nat) : Prop := nth_error ids n = Some id /\ forall m, nth_error ids m = Some id -> m <= n.
Lemma holder_unique ids id n m : holder ids id n -> holder ids id m -> n = m.
Proof. intros [A1 A2] [B1 B2]. specialize (A2 m B1). specialize (B2 n A1). lia. Qed.
Lemma holder_app ids id j n : holder ids id n -> j <> id -> holder (ids ++ [j]) id n.
Proof.
  intros [A B] N. split; [rewrite nth_error_app1; [exact A|apply nth_error_Some; congruence]|]. intros m E.
  destruct (Nat.lt_ge_cases m (length ids)) as [L|L]; [rewrite nth_error_app1 in E by exact L; auto|].
  rewrite nth_error_app2 in E by exact L. destruct (m - length ids) as [|[|x]]; cbn in E; congruence.
Qed.
Lemma holder_new ids id : holder (ids ++ [id]) id (length ids).
Proof.
  split; [rewrite nth_error_app2, Nat.sub_diag by lia; reflexivity|]. intros m E.
  assert (m < length (ids ++ [id])) by (apply nth_error_Some; congruence). rewrite app_length in H. cbn in H. lia.
Qed.

Definition ids_of (w : world) : list nat := map n_id (w_nodes w).
Definition alive (d : node) : Prop := n_held d = true \/ n_stage d <> Gone.
Record inv (w : world) : Prop := {
  i_alive : forall n d, nth_error (w_nodes w) n = Some d -> alive d -> holder (ids_of w) (n_id d) n;
  i_handlers : forall k h, In (k, h) (Event_Model.handlers (w_loop w)) -> holder (ids_of w) (k / 4) (made_by h);
  i_queue : forall e, In e (Event_Model.queue (w_loop w)) -> holder (ids_of w) (Event_Model.e_key e / 4) (sent_by e);
  i_running : forall e h, Event_Model.running (w_loop w) = Some (e, h) ->
      holder (ids_of w) (Event_Model.e_key e / 4) (made_by h) /\ holder (ids_of w) (Event_Model.e_key e / 4) (sent_by e);
  i_calls : own_events_only w }.

Lemma inv_new : inv new_world.
Proof.
  split.
  - intros n d E. destruct n; discriminate.
  - intros k h [].
  - intros e [].
  - intros e h E. discriminate.
  - intros h e [].
Qed.

Lemma in_remove k j h t : In (j, h) (Event_Model.remove k t) -> In (j, h) t.
Proof. unfold Event_Model.remove. intros H. apply filter_In in H. apply H. Qed.
Lemma lookup_in k h t : Event_Model.lookup k t = Some h -> In (k, h) t.
Proof.
  unfold Event_Model.lookup. destruct (find (fun p => fst p =? k) t) as [[j g]|] eqn:F; [|discriminate]. intros E. injection E as ->.
  apply find_some in F. destruct F as [F1 F2]. cbn in F2. apply Nat.eqb_eq in F2. subst. exact F1.
Qed.

Lemma nth_set (l : list node) n d d' m : nth_error l n = Some d ->
  nth_error (firstn n l ++ d' :: skipn (S n) l) m = if m =? n then Some d' else nth_error l m.
Proof.
  revert n m. induction l as [|x l IH]; intros [|n] m E; try discriminate.
  - destruct m as [|m]; reflexivity.
  - destruct m as [|m]; [reflexivity|]. exact (IH n m E).
Qed.
Lemma map_set (l : list node) n d d' : nth_error l n = Some d -> n_id d' = n_id d -> map n_id (firstn n l ++ d' :: skipn (S n) l) = map n_id l.
Proof.
  revert n. induction l as [|x l IH]; intros [|n] E I; try discriminate.
  - injection E as ->. cbn [firstn app map]. rewrite I. reflexivity.
  - cbn [firstn app map]. f_equal. apply (IH n E I).
Qed.

Section Keep.
Variable capacity : nat.
(** a step of the loop with keys that belong to the node which makes the step *)
Lemma inv_set w n d k once : inv w -> nth_error (w_nodes w) n = Some d -> n_held d = true ->
  forall w', loop_step capacity w (Event_Model.Set_handler (key_of k (n_id d)) (handler_of once n)) = Some w' -> inv w'.
Proof.
  intros [A H Q R C] E F w' S. unfold loop_step in S. cbn [Event_Model.step] in S. injection S as <-. split; try assumption.
  intros j h [I|I]; [|apply in_remove in I; exact (H j h I)]. injection I as <- <-. rewrite key_div.
  replace (made_by (handler_of once n)) with n by (destruct once; reflexivity). apply (A n d E). left. exact F.
Qed.
Lemma inv_clear w k : inv w -> forall w', loop_step capacity w (Event_Model.Clear_handler k) = Some w' -> inv w'.
Proof.
  intros [A H Q R C] w' S. unfold loop_step in S. cbn [Event_Model.step] in S. injection S as <-. split; try assumption.
  intros j h I. apply in_remove in I. exact (H j h I).
Qed.
Lemma inv_send w n d k : inv w -> nth_error (w_nodes w) n = Some d -> n_stage d <> Gone ->
  forall w', loop_step capacity w (Event_Model.Try_send (event_of k (n_id d) n)) = Some w' -> inv w'.
Proof.
  intros [A H Q R C] E F w' S. unfold loop_step in S. cbn [Event_Model.step] in S.
  destruct (length (Event_Model.queue (w_loop w)) <? capacity); injection S as <-; split; try assumption.
  intros e I. cbn [with_loop w_loop Event_Model.queue] in I. apply in_app_or in I. destruct I as [I|[<-|[]]]; [exact (Q e I)|].
  cbn [event_of Event_Model.e_key sent_by Event_Model.e_id]. rewrite key_div. apply (A n d E). right. exact F.
Qed.
Lemma inv_take w : inv w -> forall w', loop_step capacity w Event_Model.Take = Some w' -> inv w'.
Proof.
  intros [A H Q R C] w' S. unfold loop_step in S. cbn [Event_Model.step] in S.
  destruct (Event_Model.running (w_loop w)) as [r|] eqn:Er; [discriminate|]. destruct (Event_Model.stopped (w_loop w)); [discriminate|].
  destruct (Event_Model.queue (w_loop w)) as [|e q] eqn:Eq; [discriminate|].
  assert (Qe := Q e (or_introl eq_refl)).
  destruct (Event_Model.lookup (Event_Model.e_key e) (Event_Model.handlers (w_loop w))) as [h|] eqn:L; injection S as <-; split; cbn [with_loop w_loop w_nodes Event_Model.handlers Event_Model.queue Event_Model.running Event_Model.calls]; try assumption.
  - intros j g I. apply in_remove in I. exact (H j g I).
  - intros e' I. exact (Q e' (or_intror I)).
  - intros e' h' X. injection X as <- <-. split; [apply H, lookup_in; exact L|exact Qe].
  - intros h' e' I. cbn [with_loop w_loop Event_Model.calls] in I. apply in_app_or in I. destruct I as [I|[I|[]]]; [exact (C h' e' I)|].
    injection I as <- <-. exact (holder_unique _ _ _ _ (H _ _ (lookup_in _ _ _ L)) Qe).
  - intros e' I. exact (Q e' (or_intror I)).
Qed.
Lemma inv_return w : inv w -> forall w', loop_step capacity w Event_Model.Return = Some w' -> inv w'.
Proof.
  intros [A H Q R C] w' S. unfold loop_step in S. cbn [Event_Model.step] in S.
  destruct (Event_Model.running (w_loop w)) as [[e [h|h]]|] eqn:Er; [| |discriminate]; injection S as <-; split;
    cbn [with_loop w_loop w_nodes Event_Model.handlers Event_Model.queue Event_Model.running Event_Model.calls]; try assumption; try (intros e' h' X; discriminate X).
  intros j g [I|I]; [|apply in_remove in I; exact (H j g I)]. injection I as <- <-. exact (proj1 (R e _ eq_refl)).
Qed.

Lemma inv_node w n d d' free : inv w -> nth_error (w_nodes w) n = Some d -> n_id d' = n_id d -> (alive d' -> alive d) ->
  inv (mk_world (w_loop w) (w_next w) free (set_node w n d')).
Proof.
  intros [A H Q R C] E I L.
  assert (Ids : ids_of (mk_world (w_loop w) (w_next w) free (set_node w n d')) = ids_of w) by (unfold ids_of, set_node; cbn [w_nodes]; exact (map_set _ _ _ _ E I)).
  split; try (rewrite Ids); try assumption.
  intros m c Em V. cbn [w_nodes] in Em. unfold set_node in Em. rewrite (nth_set _ n d d' m E) in Em.
  destruct (Nat.eqb_spec m n) as [->|N]; [|exact (A m c Em V)]. injection Em as <-. rewrite I. apply (A n d E). auto.
Qed.

Lemma inv_made w next free : inv w -> no_trace (next_id w) w ->
  inv (mk_world (w_loop w) next free (w_nodes w ++ [mk_node (next_id w) true Playing])).
Proof.
  intros [A H Q R C] [N1 N2 N3 N4].
  assert (Ids : ids_of (mk_world (w_loop w) next free (w_nodes w ++ [mk_node (next_id w) true Playing])) = ids_of w ++ [next_id w]) by (unfold ids_of; cbn [w_nodes]; rewrite map_app; reflexivity).
  split; try (rewrite Ids); try assumption; cbn [w_loop w_nodes].
  - intros n d E V. destruct (Nat.lt_ge_cases n (length (w_nodes w))) as [L|L].
    + rewrite nth_error_app1 in E by exact L. apply holder_app; [exact (A n d E V)|]. intros X.
      destruct (N1 d (nth_error_In _ _ E) (eq_sym X)) as [F G]. destruct V as [V|V]; [congruence|exact (V G)].
    + rewrite nth_error_app2 in E by exact L. destruct (n - length (w_nodes w)) as [|[|x]] eqn:D; cbn in E; try discriminate. injection E as <-.
      cbn [n_id]. replace n with (length (ids_of w)) by (unfold ids_of; rewrite map_length; lia). apply holder_new.
  - intros k h I. apply holder_app; [exact (H k h I)|]. intros X. apply (N2 k h I). rewrite X. apply names_total.
  - intros e I. apply holder_app; [exact (Q e I)|]. intros X. apply (N3 e I). rewrite X. apply names_total.
  - intros e h I. assert (next_id w <> Event_Model.e_key e / 4) as X by (intros X; apply (N4 e h I); rewrite X; apply names_total).
    destruct (R e h I) as [R1 R2]. split; apply holder_app; assumption.
Qed.

Lemma inv_act w a w' : inv w -> (a = New -> no_trace (next_id w) w) -> act capacity w a = Some w' -> inv w'.
Proof.
  intros V T S. destruct a as [|n k once|n k|n|n k|n|n| |]; cbn [act] in S.
  - specialize (T eq_refl). destruct (w_free w) as [|i r] eqn:F; injection S as <-; apply inv_made; assumption.
  - destruct (nth_error (w_nodes w) n) as [d|] eqn:E; [|discriminate]. destruct (n_held d) eqn:F; [|discriminate]. exact (inv_set w n d k once V E F w' S).
  - destruct (nth_error (w_nodes w) n) as [d|] eqn:E; [|discriminate]. destruct (n_held d) eqn:F; [|discriminate]. exact (inv_clear w _ V w' S).
  - destruct (nth_error (w_nodes w) n) as [d|] eqn:E; [|discriminate]. destruct (n_held d) eqn:F; [|discriminate]. injection S as <-.
    apply (inv_node w n d _ _ V E); [reflexivity|]. intros [X|X]; [discriminate X|right; exact X].
  - destruct (nth_error (w_nodes w) n) as [d|] eqn:E; [|discriminate].
    destruct (n_stage d) eqn:F; [| |discriminate]; refine (inv_send w n d k V E _ w' S); congruence.
  - destruct (nth_error (w_nodes w) n) as [d|] eqn:E; [|discriminate]. destruct (n_stage d) eqn:F; try discriminate. injection S as <-.
    apply (inv_node w n d _ _ V E); [reflexivity|]. intros _. right. congruence.
  - destruct (nth_error (w_nodes w) n) as [d|] eqn:E; [|discriminate]. destruct (n_stage d) eqn:F; try discriminate. injection S as <-.
    apply (inv_node w n d _ _ V E); [reflexivity|]. intros _. right. congruence.
  - exact (inv_take w V w' S).
  - exact (inv_return w V w' S).
Qed.

Lemma inv_acts l : forall w w', inv w -> tidy capacity w l -> acts capacity w l = Some w' -> inv w'.
Proof.
  induction l as [|a l IH]; intros w w' V T S; cbn [acts] in S; [injection S as <-; exact V|].
  destruct (act capacity w a) as [w1|] eqn:E; [|discriminate]. destruct T as [T1 T2]. apply (IH w1 w'); [|auto|exact S].
  exact (inv_act w a w1 V T1 E).
Qed.
Lemma tidy_own l w : tidy capacity new_world l -> acts capacity new_world l = Some w -> own_events_only w.
Proof. intros T S. exact (i_calls _ (inv_acts l _ _ inv_new T S)). Qed.

(** as long as no node has left the graph *)
Record fresh (w : world) : Prop := {
  f_free : w_free w = [];
  f_nodes : forall d, In d (w_nodes w) -> n_id d < w_next w;
  f_handlers : forall k h, In (k, h) (Event_Model.handlers (w_loop w)) -> k / 4 < w_next w;
  f_queue : forall e, In e (Event_Model.queue (w_loop w)) -> Event_Model.e_key e / 4 < w_next w;
  f_running : forall e h, Event_Model.running (w_loop w) = Some (e, h) -> Event_Model.e_key e / 4 < w_next w }.
Lemma fresh_no_trace w : fresh w -> no_trace (next_id w) w.
Proof.
  intros [F N H Q R]. unfold next_id. rewrite F. split.
  - intros d I E. specialize (N d I). lia.
  - intros k h I X. apply names_id in X. specialize (H k h I). lia.
  - intros e I X. apply names_id in X. specialize (Q e I). lia.
  - intros e h I X. apply names_id in X. specialize (R e h I). lia.
Qed.
Lemma in_set w n d' c : In c (set_node w n d') -> c = d' \/ In c (w_nodes w).
Proof.
  unfold set_node. intros I. apply in_app_or in I. destruct I as [I|[I|I]]; [right|left; congruence|right].
  - rewrite <- (firstn_skipn n (w_nodes w)). apply in_or_app. left. exact I.
  - rewrite <- (firstn_skipn (S n) (w_nodes w)). apply in_or_app. right. exact I.
Qed.
Lemma fresh_act w a w' : fresh w -> (forall n, a <> Free n) -> act capacity w a = Some w' -> fresh w'.
Proof.
  intros [F N H Q R] NF S. destruct a as [|n k once|n k|n|n k|n|n| |]; cbn [act] in S; try (exfalso; exact (NF n eq_refl)).
  - unfold next_id in S. rewrite F in S. injection S as <-. split; cbn [w_free w_nodes w_next w_loop]; [reflexivity| | | |].
    + intros d I. apply in_app_or in I. destruct I as [I|[<-|[]]]; [specialize (N d I); lia|cbn [n_id]; lia].
    + intros k h I. specialize (H k h I). lia.
    + intros e I. specialize (Q e I). lia.
    + intros e h I. specialize (R e h I). lia.
  - destruct (nth_error (w_nodes w) n) as [d|] eqn:E; [|discriminate]. destruct (n_held d); [|discriminate]. injection S as <-. split; try assumption.
    intros j h [I|I]; [|apply in_remove in I; exact (H j h I)]. injection I as <- <-. rewrite key_div. apply N. apply nth_error_In with n. exact E.
  - destruct (nth_error (w_nodes w) n) as [d|] eqn:E; [|discriminate]. destruct (n_held d); [|discriminate]. injection S as <-. split; try assumption.
    intros j h I. apply in_remove in I. exact (H j h I).
  - destruct (nth_error (w_nodes w) n) as [d|] eqn:E; [|discriminate]. destruct (n_held d); [|discriminate]. injection S as <-. split; try assumption.
    intros c I. cbn [w_nodes] in I. apply in_set in I. destruct I as [->|I]; [cbn [n_id]; apply N, nth_error_In with n; exact E|exact (N c I)].
  - destruct (nth_error (w_nodes w) n) as [d|] eqn:E; [|discriminate]. assert (X : loop_step capacity w (Event_Model.Try_send (event_of k (n_id d) n)) = Some w') by (destruct (n_stage d); [exact S|exact S|discriminate]).
    clear S. unfold loop_step in X. cbn [Event_Model.step] in X. destruct (length (Event_Model.queue (w_loop w)) <? capacity); injection X as <-; split; try assumption.
    intros e I. cbn [with_loop w_loop Event_Model.queue] in I. apply in_app_or in I. destruct I as [I|[<-|[]]]; [exact (Q e I)|]. cbn [event_of Event_Model.e_key]. rewrite key_div. apply N, nth_error_In with n. exact E.
  - destruct (nth_error (w_nodes w) n) as [d|] eqn:E; [|discriminate]. destruct (n_stage d); try discriminate. injection S as <-. split; try assumption.
    intros c I. cbn [w_nodes] in I. apply in_set in I. destruct I as [->|I]; [cbn [n_id]; apply N, nth_error_In with n; exact E|exact (N c I)].
  - unfold loop_step in S. cbn [Event_Model.step] in S.
    destruct (Event_Model.running (w_loop w)) as [r|] eqn:Er; [discriminate|]. destruct (Event_Model.stopped (w_loop w)); [discriminate|].
    destruct (Event_Model.queue (w_loop w)) as [|e q] eqn:Eq; [discriminate|].
    destruct (Event_Model.lookup (Event_Model.e_key e) (Event_Model.handlers (w_loop w))) as [h|] eqn:L; injection S as <-; split; try assumption;
      cbn [with_loop w_loop w_next w_nodes Event_Model.handlers Event_Model.queue Event_Model.running].
    + intros j g I. apply in_remove in I. exact (H j g I).
    + intros e' I. exact (Q e' (or_intror I)).
    + intros e' h' X. injection X as <- <-. exact (Q e (or_introl eq_refl)).
    + intros e' I. exact (Q e' (or_intror I)).
  - unfold loop_step in S. cbn [Event_Model.step] in S.
    destruct (Event_Model.running (w_loop w)) as [[e [h|h]]|] eqn:Er; [| |discriminate]; injection S as <-; split; try assumption;
      cbn [with_loop w_loop w_next w_nodes Event_Model.handlers Event_Model.queue Event_Model.running]; try (intros e' h' X; discriminate X).
    intros j g [I|I]; [|apply in_remove in I; exact (H j g I)]. injection I as <- <-. exact (R e _ eq_refl).
Qed.
Lemma fresh_tidy l : forall w, fresh w -> (forall n, ~ In (Free n) l) -> tidy capacity w l.
Proof.
  induction l as [|a l IH]; intros w F N; [exact I|]. split; [intros _; apply fresh_no_trace, F|]. intros w' S. apply IH.
  - apply (fresh_act w a w' F); [|exact S]. intros n E. apply (N n). left. exact E.
  - intros n X. apply (N n). right. exact X.
Qed.
Lemma fresh_new : fresh new_world.
Proof. split; [reflexivity|intros d []|intros k h []|intros e []|intros e h E; discriminate]. Qed.
Lemma no_free_own l w : (forall n, ~ In (Free n) l) -> acts capacity new_world l = Some w -> own_events_only w.
Proof. intros N. apply tidy_own, fresh_tidy; [exact fresh_new|exact N]. Qed.
End Keep.
