From Coq Require Import List Arith Bool Lia.
From Verif Require Import Event_Model Event_Spec.
Import ListNotations.

Lemma lookup_remove k j t : lookup j (remove k t) = if j =? k then None else lookup j t.
Proof.
  unfold lookup, remove. induction t as [|[k' h] t IH]; [destruct (j =? k); reflexivity|]. cbn [filter fst find].
  destruct (Nat.eqb_spec k' k) as [E|E]; cbn [negb].
  - rewrite IH. destruct (Nat.eqb_spec j k) as [F|F]; [reflexivity|]. destruct (Nat.eqb_spec k' j); [congruence|reflexivity].
  - cbn [find fst]. destruct (Nat.eqb_spec k' j) as [G|G]; [|exact IH]. destruct (Nat.eqb_spec j k); [congruence|reflexivity].
Qed.
Lemma lookup_insert k j h t : lookup j (insert k h t) = if j =? k then Some h else lookup j t.
Proof.
  unfold insert. unfold lookup at 1. cbn [find fst]. destruct (Nat.eqb_spec k j) as [E|E].
  - subst. rewrite Nat.eqb_refl. reflexivity.
  - fold (lookup j (remove k t)). rewrite lookup_remove. destruct (Nat.eqb_spec j k); [congruence|reflexivity].
Qed.
Lemma run_app capacity thread a b : forall s, run capacity thread s (a ++ b) = match run capacity thread s a with Some s' => run capacity thread s' b | None => None end.
Proof. induction a as [|l a IH]; intros s; [reflexivity|]. cbn [run app]. destruct (step capacity thread s l); [apply IH|reflexivity]. Qed.

(** ** Subsequences *)
Lemma sub_refl {X} (l : list X) : subsequence l l.
Proof. induction l; constructor; assumption. Qed.
Lemma sub_app_r {X} (a b c : list X) : subsequence a b -> subsequence a (b ++ c).
Proof. induction 1; cbn; constructor; assumption. Qed.
Lemma sub_app {X} (a b c d : list X) : subsequence a b -> subsequence c d -> subsequence (a ++ c) (b ++ d).
Proof.
  induction 1 as [b|x a b H IH|x a b H IH]; intros S; cbn; [|constructor; auto|constructor; auto].
  induction b as [|y b IHb]; [exact S|]. cbn. constructor. exact IHb.
Qed.
Lemma sub_nil_inv {X} (a : list X) : subsequence a [] -> a = [].
Proof. inversion 1. reflexivity. Qed.
Lemma sub_trans {X} (a b c : list X) : subsequence a b -> subsequence b c -> subsequence a c.
Proof.
  intros H1 H2. revert a H1. induction H2 as [c|x b c H IH|x b c H IH]; intros a H1.
  - apply sub_nil_inv in H1. subst. constructor.
  - inversion H1; subst; [constructor|constructor; auto|constructor; auto].
  - constructor. auto.
Qed.
Lemma sub_drop {X} (a c : list X) x : subsequence (a ++ c) (a ++ x :: c).
Proof. apply sub_app; [apply sub_refl|]. constructor. apply sub_refl. Qed.

(** ** Events in order, once each *)
Section Loop.
Variables (capacity : nat) (thread : bool).
Notation step := (step capacity thread).
Notation run := (run capacity thread).
Lemma order_inv : forall ls s s' past, run s ls = Some s' -> subsequence (map snd (calls s) ++ queue s) past -> subsequence (map snd (calls s') ++ queue s') (past ++ emitted ls).
Proof.
  induction ls as [|l ls IH]; intros s s' past R H; cbn [run emitted flat_map] in *; [injection R as <-; rewrite app_nil_r; exact H|].
  destruct (step s l) as [s1|] eqn:E; [|discriminate]. fold (emitted ls). rewrite app_assoc. apply (IH s1 s' _ R).
  assert (A : forall e, subsequence (map snd (calls s) ++ queue s ++ [e]) (past ++ [e])) by (intros e; rewrite app_assoc; apply sub_app; [exact H|apply sub_refl]).
  destruct l; cbn [step] in E.
  - injection E as <-. cbn [calls queue]. rewrite app_nil_r. exact H.
  - injection E as <-. cbn [calls queue]. rewrite app_nil_r. exact H.
  - destruct (_ <? _); [|discriminate]. injection E as <-. apply A.
  - injection E as <-. destruct (_ <? _); [apply A|]. apply sub_app_r. exact H.
  - rewrite app_nil_r. unfold Event_Model.step in E. destruct (running s); [discriminate|]. destruct (stopped s); [discriminate|]. destruct (queue s) as [|e q] eqn:Q; [discriminate|].
    destruct (lookup _ _) as [h|]; injection E as <-; cbn [calls queue].
    + rewrite map_app, <- app_assoc. exact H.
    + eapply sub_trans; [apply sub_drop|exact H].
  - rewrite app_nil_r. unfold Event_Model.step in E. destruct (running s) as [[e [h|h]]|]; [| |discriminate]; injection E as <-; exact H.
  - rewrite app_nil_r. unfold Event_Model.step in E. destruct (running s); [|discriminate]. injection E as <-. exact H.
Qed.
Lemma order ls s : run new_loop ls = Some s -> subsequence (map snd (calls s) ++ queue s) (emitted ls).
Proof. intros R. apply (order_inv ls new_loop s [] R). constructor. Qed.

(** ** One-shot handlers *)
Definition present (h : handler) (t : table) : nat := length (filter (fun p => same_handler h (snd p)) t).
Lemma present_remove h k t : present h (remove k t) <= present h t.
Proof.
  unfold present, remove. induction t as [|[j g] t IH]; [reflexivity|]. cbn [filter fst snd]. destruct (negb (j =? k)); cbn [filter snd]; destruct (same_handler h g); cbn [length]; lia.
Qed.
Lemma same_handler_refl h : same_handler h h = true.
Proof. destruct h; cbn; apply Nat.eqb_refl. Qed.
Lemma same_handler_eq h g : same_handler h g = true -> h = g.
Proof. destruct h, g; cbn; try discriminate; intros E; apply Nat.eqb_eq in E; congruence. Qed.
Lemma present_lookup h k t : lookup k t = Some h -> present h (remove k t) + 1 <= present h t.
Proof.
  unfold lookup. destruct (find (fun p => fst p =? k) t) as [[j g]|] eqn:F; [|discriminate]. intros E. injection E as ->. revert F. unfold present, remove. induction t as [|[i g] t IH]; [discriminate|]. cbn [find filter fst snd].
  destruct (Nat.eqb_spec i k) as [Ei|Ei]; cbn [negb]; intros F.
  - injection F as -> ->. rewrite same_handler_refl. cbn [length]. pose proof (present_remove h k t) as P. unfold present, remove in P. lia.
  - specialize (IH F). cbn [filter snd]. destruct (same_handler h g); cbn [length]; lia.
Qed.
Lemma once_inv h : forall ls s s' n, run s ls = Some s' -> calls_of (Once h) (calls s) + present (Once h) (handlers s) <= n -> calls_of (Once h) (calls s') + present (Once h) (handlers s') <= n + installations (Once h) ls.
Proof.
  induction ls as [|l ls IH]; intros s s' n R H; cbn [run] in *; [injection R as <-; cbn; lia|].
  destruct (step s l) as [s1|] eqn:E; [|discriminate].
  assert (G : calls_of (Once h) (calls s1) + present (Once h) (handlers s1) <= n + installations (Once h) [l]).
  { destruct l; unfold Event_Model.step in E; unfold installations; cbn [filter].
    - injection E as <-. cbn [calls handlers insert]. pose proof (present_remove (Once h) k (handlers s)) as P. unfold insert. unfold present in *. cbn [filter snd]. destruct (same_handler (Once h) h0); cbn [length] in *; lia.
    - injection E as <-. cbn [calls handlers]. pose proof (present_remove (Once h) k (handlers s)). cbn [length]. lia.
    - destruct (_ <? _); [|discriminate]. injection E as <-. cbn [calls handlers length]. lia.
    - injection E as <-. destruct (_ <? _); cbn [calls handlers length]; lia.
    - destruct (running s); [discriminate|]. destruct (stopped s); [discriminate|]. destruct (queue s) as [|e q]; [discriminate|].
      destruct (lookup _ _) as [g|] eqn:L; injection E as <-; cbn [calls handlers length]; [|lia].
      unfold calls_of. rewrite filter_app, app_length. cbn [filter fst]. fold (calls_of (Once h) (calls s)). destruct (same_handler (Once h) g) eqn:Q; cbn [length].
      + apply same_handler_eq in Q. subst g. pose proof (present_lookup (Once h) _ _ L). lia.
      + pose proof (present_remove (Once h) (e_key e) (handlers s)). lia.
    - destruct (running s) as [[e [g|g]]|]; [| |discriminate]; injection E as <-; cbn [calls handlers length]; [lia|].
      pose proof (present_remove (Once h) (e_key e) (handlers s)) as P. change (present (Once h) (insert (e_key e) (Multiple g) (handlers s))) with (present (Once h) (remove (e_key e) (handlers s))). lia.
    - destruct (running s); [|discriminate]. injection E as <-. cbn [calls handlers length]. lia. }
  specialize (IH s1 s' _ R G). unfold installations in *. cbn [filter length] in *. destruct (match l with Set_handler _ g => _ | _ => _ end); cbn [length] in *; lia.
Qed.
(** ** Calls go to handlers installed for that type *)
Lemma lookup_in k h t : lookup k t = Some h -> In (k, h) t.
Proof.
  unfold lookup. destruct (find (fun p => fst p =? k) t) as [[j g]|] eqn:F; [|discriminate]. intros E. injection E as ->. apply find_some in F. destruct F as [F1 F2]. cbn in F2. apply Nat.eqb_eq in F2. subst. exact F1.
Qed.
Lemma in_remove k j h t : In (j, h) (remove k t) -> In (j, h) t.
Proof. unfold remove. intros H. apply filter_In in H. apply H. Qed.
Definition entitled (ok : key -> handler -> Prop) (s : loop) : Prop :=
  (forall k h, In (k, h) (handlers s) -> ok k h) /\ (forall e h, running s = Some (e, h) -> ok (e_key e) h) /\ (forall h e, In (h, e) (calls s) -> ok (e_key e) h).
Lemma entitled_run ok : forall ls s s', run s ls = Some s' -> entitled ok s -> (forall k h, In (Set_handler k h) ls -> ok k h) -> entitled ok s'.
Proof.
  induction ls as [|l ls IH]; intros s s' R H L; cbn [run] in *; [injection R as <-; exact H|].
  destruct (step s l) as [s1|] eqn:E; [|discriminate]. apply (IH s1 s' R); [|intros; apply L; right; assumption].
  destruct H as (H1 & H2 & H3). destruct l; unfold Event_Model.step in E.
  - injection E as <-. split; [|split; assumption]. intros j g [I|I]; [injection I as <- <-; apply L; left; reflexivity|]. apply in_remove in I. auto.
  - injection E as <-. split; [|split; assumption]. intros j g I. apply in_remove in I. auto.
  - destruct (_ <? _); [|discriminate]. injection E as <-. split; [exact H1|split; [exact H2|exact H3]].
  - injection E as <-. destruct (_ <? _); (split; [exact H1|split; [exact H2|exact H3]]).
  - destruct (running s); [discriminate|]. destruct (stopped s); [discriminate|]. destruct (queue s) as [|e q]; [discriminate|].
    destruct (lookup _ _) as [g|] eqn:Lk; injection E as <-; cbn; [|split; [exact H1|split; [discriminate|exact H3]]]. apply lookup_in in Lk.
    split; [intros j f I; apply in_remove in I; auto|]. split; [intros e' h' Q; injection Q as <- <-; auto|]. intros f e' I. apply in_app_or in I. destruct I as [I|[I|[]]]; [auto|]. injection I as <- <-. auto.
  - destruct (running s) as [[e [g|g]]|] eqn:Rn; [| |discriminate]; injection E as <-; cbn; (split; [|split; [discriminate|exact H3]]); [exact H1|].
    intros j f [I|I]; [injection I as <- <-; exact (H2 e (Multiple g) eq_refl)|]. apply in_remove in I. auto.
  - destruct (running s); [|discriminate]. injection E as <-. split; [exact H1|split; [discriminate|exact H3]].
Qed.

(** ** Calm runs are ideal *)
Record agree (s : loop) (i : ideal) : Prop := {
  ag_queue : i_queue i = queue s;
  ag_calls : i_calls i = calls s;
  ag_registry : forall k, i_registry i k = match running s with Some (e, Multiple h) => if k =? e_key e then Some (Multiple h) else lookup k (handlers s) | _ => lookup k (handlers s) end }.
Lemma calm_run : forall ls s s' i, run s ls = Some s' -> calm capacity thread s ls = true -> agree s i -> agree s' (fold_left ideal_step ls i).
Proof.
  induction ls as [|l ls IH]; intros s s' i R C [Q K G]; cbn [run calm fold_left] in *; [injection R as <-; split; assumption|].
  destruct (step s l) as [s1|] eqn:E; [|discriminate]. apply andb_prop in C. destruct C as [C1 C2]. apply (IH s1 s' _ R C2).
  destruct l; unfold Event_Model.step in E.
  - injection E as <-. split; cbn [ideal_step i_queue i_calls i_registry queue calls running handlers]; [exact Q|exact K|]. intros j. unfold put. rewrite lookup_insert, G. unfold busy in C1.
    destruct (running s) as [[e [g|g]]|]; [reflexivity| |reflexivity]. apply negb_true_iff in C1. destruct (Nat.eqb_spec j k) as [->|N]; [|reflexivity]. rewrite Nat.eqb_sym in C1. rewrite C1. reflexivity.
  - injection E as <-. split; cbn [ideal_step i_queue i_calls i_registry queue calls running handlers]; [exact Q|exact K|]. intros j. unfold put. rewrite lookup_remove, G. unfold busy in C1.
    destruct (running s) as [[e [g|g]]|]; [reflexivity| |reflexivity]. apply negb_true_iff in C1. destruct (Nat.eqb_spec j k) as [->|N]; [|reflexivity]. rewrite Nat.eqb_sym in C1. rewrite C1. reflexivity.
  - destruct (_ <? _); [|discriminate]. injection E as <-. split; cbn; [rewrite Q; reflexivity|exact K|exact G].
  - rewrite C1 in E. injection E as <-. split; cbn; [rewrite Q; reflexivity|exact K|exact G].
  - destruct (running s) eqn:Rn; [discriminate|]. destruct (stopped s); [discriminate|]. cbn [ideal_step]. rewrite Q. destruct (queue s) as [|e q]; [discriminate|].
    rewrite (G (e_key e)). destruct (lookup (e_key e) (handlers s)) as [[h|h]|] eqn:L; injection E as <-; split; cbn [i_queue i_calls i_registry queue calls running handlers]; try reflexivity; try (rewrite K; reflexivity).
    + intros j. unfold put. rewrite lookup_remove, G. reflexivity.
    + intros j. rewrite lookup_remove, G. destruct (Nat.eqb_spec j (e_key e)) as [->|]; [exact L|reflexivity].
    + exact G.
  - destruct (running s) as [[e [h|h]]|] eqn:Rn; [| |discriminate]; injection E as <-; split; cbn [ideal_step i_queue i_calls i_registry queue calls running handlers]; try assumption. intros j. rewrite lookup_insert, G. reflexivity.
  - discriminate.
Qed.
Lemma agree_new : agree new_loop ideal_new.
Proof. split; reflexivity. Qed.

(** ** After the last event *)
Lemma stopped_run : forall ls s s', stopped s = true -> run s ls = Some s' -> stopped s' = true /\ calls s' = calls s.
Proof.
  induction ls as [|l ls IH]; intros s s' S R; cbn [run] in R; [injection R as <-; split; [exact S|reflexivity]|].
  destruct (step s l) as [s1|] eqn:E; [|discriminate].
  assert (G : stopped s1 = true /\ calls s1 = calls s).
  { destruct l; unfold Event_Model.step in E.
    - injection E as <-. split; [exact S|reflexivity].
    - injection E as <-. split; [exact S|reflexivity].
    - destruct (_ <? _); [|discriminate]. injection E as <-. split; [exact S|reflexivity].
    - injection E as <-. destruct (_ <? _); (split; [exact S|reflexivity]).
    - rewrite S in E. destruct (running s); discriminate.
    - destruct (running s) as [[e [h|h]]|]; [| |discriminate]; injection E as <-; (split; [exact S|reflexivity]).
    - destruct (running s); [|discriminate]. injection E as <-. split; reflexivity. }
  destruct G as [G1 G2]. destruct (IH s1 s' G1 R) as [H1 H2]. split; [exact H1|congruence].
Qed.
(** the ideal registry: a cleared type is not called until a handler is installed *)
Lemma ideal_cleared k : forall ls i, i_registry i k = None -> (forall h, ~ In (Set_handler k h) ls) ->
  i_registry (fold_left ideal_step ls i) k = None /\ filter (fun c => e_key (snd c) =? k) (i_calls (fold_left ideal_step ls i)) = filter (fun c => e_key (snd c) =? k) (i_calls i).
Proof.
  induction ls as [|l ls IH]; intros i H N; cbn [fold_left]; [split; [exact H|reflexivity]|].
  assert (G : i_registry (ideal_step i l) k = None /\ filter (fun c => e_key (snd c) =? k) (i_calls (ideal_step i l)) = filter (fun c => e_key (snd c) =? k) (i_calls i)).
  { destruct l; cbn [ideal_step]; try (split; [exact H|reflexivity]).
    - cbn [i_registry i_calls]. split; [|reflexivity]. unfold put. destruct (Nat.eqb_spec k k0) as [->|]; [|exact H]. exfalso. apply (N h). left. reflexivity.
    - cbn [i_registry i_calls]. split; [|reflexivity]. unfold put. destruct (k =? k0); [reflexivity|exact H].
    - destruct (i_queue i) as [|e q]; [split; [exact H|reflexivity]|]. destruct (Nat.eqb_spec (e_key e) k) as [Ek|Ek].
      + rewrite Ek, H. split; [exact H|reflexivity].
      + destruct (i_registry i (e_key e)) as [[h|h]|]; cbn [i_registry i_calls]; [| |split; [exact H|reflexivity]]; rewrite filter_app; cbn [filter snd]; apply Nat.eqb_neq in Ek; rewrite Ek, app_nil_r; (split; [|reflexivity]); [|exact H].
        unfold put. rewrite Nat.eqb_sym, Ek. exact H. }
  destruct G as [G1 G2]. destruct (IH _ G1 ltac:(intros h I; apply (N h); right; exact I)) as [H1 H2]. split; [exact H1|congruence].
Qed.
(** a repeating handler in place gets every event of its type *)
Lemma ideal_kept k h : forall ls i, i_registry i k = Some (Multiple h) -> (forall l, In l ls -> match l with Set_handler j _ | Clear_handler j => j <> k | _ => True end) ->
  i_registry (fold_left ideal_step ls i) k = Some (Multiple h) /\
  exists taken, i_queue i ++ emitted ls = taken ++ i_queue (fold_left ideal_step ls i) /\
    filter (fun c => e_key (snd c) =? k) (i_calls (fold_left ideal_step ls i)) = filter (fun c => e_key (snd c) =? k) (i_calls i) ++ map (fun e => (Multiple h, e)) (filter (fun e => e_key e =? k) taken).
Proof.
  induction ls as [|l ls IH]; intros i H N; cbn [fold_left]; [split; [exact H|]; exists []; cbn; rewrite !app_nil_r; split; reflexivity|].
  assert (Nl := N l (or_introl eq_refl)). assert (Nr : forall l', In l' ls -> match l' with Set_handler j _ | Clear_handler j => j <> k | _ => True end) by (intros; apply N; right; assumption).
  cbn [emitted flat_map]. fold (emitted ls).
  destruct l as [j g|j|e|e| | |]; cbn [ideal_step].
  - destruct (IH (mk_ideal (put (i_registry i) j (Some g)) (i_queue i) (i_calls i))) as [H1 H2]; [cbn; unfold put; destruct (Nat.eqb_spec k j); [congruence|exact H]|exact Nr|]. split; [exact H1|exact H2].
  - destruct (IH (mk_ideal (put (i_registry i) j None) (i_queue i) (i_calls i))) as [H1 H2]; [cbn; unfold put; destruct (Nat.eqb_spec k j); [congruence|exact H]|exact Nr|]. split; [exact H1|exact H2].
  - destruct (IH (mk_ideal (i_registry i) (i_queue i ++ [e]) (i_calls i)) H Nr) as [H1 (taken & T1 & T2)]. split; [exact H1|]. exists taken. cbn [i_queue i_calls] in *. rewrite <- app_assoc in T1. split; assumption.
  - destruct (IH (mk_ideal (i_registry i) (i_queue i ++ [e]) (i_calls i)) H Nr) as [H1 (taken & T1 & T2)]. split; [exact H1|]. exists taken. cbn [i_queue i_calls] in *. rewrite <- app_assoc in T1. split; assumption.
  - cbn [app]. destruct (i_queue i) as [|e q] eqn:Q.
    { destruct (IH i H Nr) as [H1 (taken & T1 & T2)]. split; [exact H1|]. exists taken. rewrite Q in T1. split; assumption. }
    destruct (Nat.eqb_spec (e_key e) k) as [Ek|Ek].
    + rewrite Ek, H. destruct (IH (mk_ideal (i_registry i) q (i_calls i ++ [(Multiple h, e)])) H Nr) as [H1 (taken & T1 & T2)]. split; [exact H1|]. exists (e :: taken). cbn [i_queue i_calls] in *.
      split; [cbn; rewrite T1; reflexivity|]. rewrite T2, filter_app. cbn [filter snd]. rewrite (proj2 (Nat.eqb_eq _ _) Ek). cbn [map]. rewrite <- app_assoc. reflexivity.
    + assert (Ek' := proj2 (Nat.eqb_neq _ _) Ek). destruct (i_registry i (e_key e)) as [[g|g]|] eqn:Rg.
      * destruct (IH (mk_ideal (put (i_registry i) (e_key e) None) q (i_calls i ++ [(Once g, e)]))) as [H1 (taken & T1 & T2)]; [cbn; unfold put; rewrite Nat.eqb_sym, Ek'; exact H|exact Nr|]. split; [exact H1|]. exists (e :: taken). cbn [i_queue i_calls] in *.
        split; [cbn; rewrite T1; reflexivity|]. rewrite T2, filter_app. cbn [filter snd]. rewrite Ek'. rewrite app_nil_r. reflexivity.
      * destruct (IH (mk_ideal (i_registry i) q (i_calls i ++ [(Multiple g, e)])) H Nr) as [H1 (taken & T1 & T2)]. split; [exact H1|]. exists (e :: taken). cbn [i_queue i_calls] in *.
        split; [cbn; rewrite T1; reflexivity|]. rewrite T2, filter_app. cbn [filter snd]. rewrite Ek'. rewrite app_nil_r. reflexivity.
      * destruct (IH (mk_ideal (i_registry i) q (i_calls i)) H Nr) as [H1 (taken & T1 & T2)]. split; [exact H1|]. exists (e :: taken). cbn [i_queue i_calls] in *.
        split; [cbn; rewrite T1; reflexivity|]. rewrite T2. cbn [filter]. rewrite Ek'. reflexivity.
  - apply IH; assumption.
  - apply IH; assumption.
Qed.
End Loop.
