(** Proofs about media stream tracks and the media stream destination. *)
From Coq Require Import List Arith Bool Sorted Permutation Lia.
From Verif Require Import Track_Model Track_Spec.
Import ListNotations.

Section Proofs.
Context {X : Type}.
Variable items : list X.

Definition somes (log : list (nat * option X)) : list X := flat_map (fun e => match snd e with Some x => [x] | None => [] end) log.

Lemma nth_put : forall (L : list listener) i l j, i < length L ->
  nth_error (put L i l) j = if j =? i then Some l else nth_error L j.
Proof.
  unfold put. induction L as [|a L IH]; intros [|i] l j H; cbn in H; try lia.
  - destruct j; reflexivity.
  - destruct j as [|j]; [reflexivity|]. cbn [firstn app nth_error]. change (skipn (S (S i)) (a :: L)) with (skipn (S i) L). rewrite IH by lia. reflexivity.
Qed.

(** every listener of the new list is [l] or an old one *)
Lemma in_put : forall (L : list listener) i l x, In x (put L i l) -> x = l \/ In x L.
Proof.
  intros L i l x H. unfold put in H. apply in_app_or in H. destruct H as [H|[H|H]]; auto; right.
  - rewrite <- (firstn_skipn i L). apply in_or_app. auto.
  - rewrite <- (firstn_skipn (S i) L). apply in_or_app. auto.
Qed.

Lemma skipn_tl : forall n (l : list X), skipn (S n) l = tl (skipn n l).
Proof. induction n as [|n IH]; intros [|x l]; try reflexivity. cbn [skipn]. rewrite <- IH. reflexivity. Qed.

Definition pulled_now (l : listener) : bool := match l_at l with Pulled _ => true | _ => false end.
Definition count (f : listener -> bool) (L : list listener) : nat := length (filter f L).
Lemma count_put : forall f (L : list listener) i l l0, nth_error L i = Some l0 ->
  count f (put L i l) + (if f l0 then 1 else 0) = count f L + (if f l then 1 else 0).
Proof.
  unfold count, put. induction L as [|a L IH]; intros [|i] l l0 H; cbn in H; try discriminate.
  - injection H as ->. cbn. destruct (f l0), (f l); cbn; lia.
  - specialize (IH i l l0 H). change (skipn (S (S i)) (a :: L)) with (skipn (S i) L). cbn [firstn app filter]. destruct (f a); cbn [length]; lia.
Qed.

Definition sane (pos : nat) (l : listener) : Prop :=
  l_pos l <= pos /\ match l_at l with Idle | Checked => True | Pull p | Pulled p => p <= pos | Ready p => 1 <= p <= pos end.

(** The log with the places of the items. *)
Definition same_entry (e : nat * option X) (g : nat * option nat) : Prop :=
  fst e = fst g /\ match snd e, snd g with None, None => True | Some x, Some k => nth_error items k = Some x | _, _ => False end.
Definition places (g : list (nat * option nat)) : list nat := flat_map (fun e => match snd e with Some k => [k] | None => [] end) g.
Definition own (i : nat) (g : list (nat * option nat)) : list (nat * option nat) := filter (fun e => fst e =? i) g.

Record inv (n : nat) (s : track X) (g : list (nat * option nat)) : Prop := mk_inv {
  inv_provider : t_provider s = skipn n items \/ t_provider s = [];
  inv_bound : n <= length items;
  inv_data : t_data s = match n with 0 => None | S m => nth_error items m end;
  inv_count : t_position s + count pulled_now (t_listeners s) = n;
  inv_sane : Forall (sane (t_position s)) (t_listeners s);
  inv_sorted : StronglySorted le (places g);
  inv_below : Forall (fun k => k < n) (places g);
  inv_none : forall i, In (i, None) g -> t_ended s = true /\ exists p, nth_error (t_listeners s) i = Some (mk_listener p Idle);
  inv_final : forall i, exists ks m, map snd (own i g) = map Some ks ++ repeat None m;
  inv_known : forall i r, In (i, r) g -> i < length (t_listeners s)
}.

Lemma sorted_snoc : forall l (k : nat), StronglySorted le l -> Forall (fun x => x <= k) l -> StronglySorted le (l ++ [k]).
Proof.
  induction l as [|a l IH]; intros k S F; [repeat constructor|]. inversion S; subst. inversion F; subst. cbn. constructor; [apply IH; assumption|].
  apply Forall_app. split; [assumption|]. repeat constructor; assumption.
Qed.
Lemma sorted_lt_snoc : forall l (k : nat), StronglySorted lt l -> Forall (fun x => x < k) l -> StronglySorted lt (l ++ [k]).
Proof.
  induction l as [|a l IH]; intros k S F; [repeat constructor|]. inversion S; subst. inversion F; subst. cbn. constructor; [apply IH; assumption|].
  apply Forall_app. split; [assumption|]. repeat constructor; assumption.
Qed.
Lemma places_app : forall a b, places (a ++ b) = places a ++ places b.
Proof. intros. unfold places. apply flat_map_app. Qed.
Lemma own_app : forall i a b, own i (a ++ b) = own i a ++ own i b.
Proof. intros. unfold own. apply filter_app. Qed.

Lemma put_length : forall (L : list listener) i l, i < length L -> length (put L i l) = length L.
Proof. intros. unfold put. rewrite app_length, firstn_length. cbn [length]. rewrite skipn_length. lia. Qed.
Lemma sane_put : forall pos pos' (L : list listener) i l, Forall (sane pos) L -> pos <= pos' -> sane pos' l -> Forall (sane pos') (put L i l).
Proof.
  intros pos pos' L i l F H S. apply Forall_forall. intros x Hx. apply in_put in Hx. destruct Hx as [->|Hx]; [exact S|].
  rewrite Forall_forall in F. destruct (F x Hx) as [A B]. split; [lia|]. destruct (l_at x); auto; lia.
Qed.

(** a step that neither pulls nor returns *)
Lemma inv_quiet : forall n s g i l l', inv n s g -> nth_error (t_listeners s) i = Some l -> l_at l <> Idle \/ t_ended s = false ->
  pulled_now l = false -> pulled_now l' = false -> sane (t_position s) l' -> inv n (at_place s i l') g.
Proof.
  intros n s g i l l' I Hl Hb P P' S. assert (Hi : i < length (t_listeners s)) by (apply nth_error_Some; congruence).
  destruct I. constructor; cbn [at_place t_provider t_data t_position t_ended t_listeners]; auto.
  - pose proof (count_put pulled_now (t_listeners s) i l' l Hl) as C. rewrite P, P' in C. lia.
  - eapply sane_put; eauto.
  - intros j Hj. destruct (inv_none0 j Hj) as [A [p B]]. split; [exact A|]. exists p. rewrite nth_put by exact Hi. destruct (Nat.eqb_spec j i) as [->|]; [|exact B].
    exfalso. rewrite Hl in B. injection B as ->. cbn in Hb. destruct Hb; congruence.
  - intros j r Hj. rewrite put_length by exact Hi. eapply inv_known0; exact Hj.
Qed.

Lemma inv_step : forall n s g i s' o, inv n s g -> listen s i = Some (s', o) ->
  exists n' go, inv n' s' (g ++ go) /\ Forall2 same_entry o go /\ n <= n' /\ forall j k, In (j, Some k) go -> S k = n'.
Proof.
  intros n s g i s' o I H. unfold listen in H. destruct (nth_error (t_listeners s) i) as [l|] eqn:Hl; [|discriminate].
  assert (Hi : i < length (t_listeners s)) by (apply nth_error_Some; congruence).
  assert (Sl : sane (t_position s) l) by (pose proof (inv_sane _ _ _ I) as F; rewrite Forall_forall in F; apply F; eapply nth_error_In; exact Hl).
  destruct l as [lp la]. cbn [l_at l_pos] in *. destruct la as [| |p|p|p]; cbn [l_at l_pos] in H.
  - destruct (t_ended s) eqn:E; injection H as <- <-.
    + exists n, [(i, None)]. split; [|split; [repeat constructor|split; [lia|intros ? ? [K|[]]; discriminate]]]. destruct I. constructor; auto.
      * rewrite places_app. cbn. rewrite app_nil_r. assumption.
      * rewrite places_app. cbn. rewrite app_nil_r. assumption.
      * intros j Hj. apply in_app_or in Hj. destruct Hj as [Hj|[Hj|[]]]; [apply inv_none0; exact Hj|]. injection Hj as <-. split; [exact E|]. exists lp. exact Hl.
      * intros j. rewrite own_app, map_app. destruct (inv_final0 j) as (ks & m & Hk). rewrite Hk. cbn [own filter fst]. destruct (Nat.eqb_spec i j) as [->|].
        -- exists ks, (m + 1). rewrite repeat_app, app_assoc. reflexivity.
        -- exists ks, m. rewrite app_nil_r. reflexivity.
      * intros j r Hj. apply in_app_or in Hj. destruct Hj as [Hj|[Hj|[]]]; [eapply inv_known0; exact Hj|]. injection Hj as <- _. exact Hi.
    + exists n, []. rewrite app_nil_r. split; [|split; [constructor|split; [lia|intros ? ? []]]]. apply (inv_quiet n s g i (mk_listener lp Idle)); auto.
  - destruct (t_position s =? lp) eqn:E; injection H as <- <-; exists n, []; rewrite app_nil_r; (split; [|split; [constructor|split; [lia|intros ? ? []]]]); (apply (inv_quiet n s g i (mk_listener lp Checked)); [exact I|exact Hl|left; discriminate|reflexivity|reflexivity|]).
    + split; [apply Sl|]. cbn. lia.
    + split; [apply Sl|]. cbn. apply Nat.eqb_neq in E. destruct Sl as [Sl _]. cbn in Sl. lia.
  - assert (Cn : count pulled_now (put (t_listeners s) i (mk_listener lp (Pulled p))) = count pulled_now (t_listeners s) + 1).
    { pose proof (count_put pulled_now (t_listeners s) i (mk_listener lp (Pulled p)) _ Hl) as C. cbn [pulled_now l_at] in C. lia. }
    assert (C0 : count pulled_now (put (t_listeners s) i (mk_listener lp Idle)) = count pulled_now (t_listeners s)).
    { pose proof (count_put pulled_now (t_listeners s) i (mk_listener lp Idle) _ Hl) as C. cbn [pulled_now l_at] in C. lia. }
    destruct I. destruct (t_provider s) as [|x rest] eqn:Ep; injection H as <- <-.
    + exists n, [(i, None)]. split; [|split; [repeat constructor|split; [lia|intros ? ? [K|[]]; discriminate]]]. constructor; cbn [at_place t_provider t_data t_position t_ended t_listeners]; auto.
      * lia.
      * apply (sane_put (t_position s)); [assumption|lia|]. split; [apply Sl|exact Logic.I].
      * rewrite places_app. cbn. rewrite app_nil_r. assumption.
      * rewrite places_app. cbn. rewrite app_nil_r. assumption.
      * intros j Hj. split; [reflexivity|]. rewrite nth_put by exact Hi. destruct (Nat.eqb_spec j i) as [->|N]; [exists lp; reflexivity|].
        apply in_app_or in Hj. destruct Hj as [Hj|[Hj|[]]]; [apply inv_none0; exact Hj|]. injection Hj as <-. congruence.
      * intros j. rewrite own_app, map_app. destruct (inv_final0 j) as (ks & m & Hk). rewrite Hk. cbn [own filter fst]. destruct (Nat.eqb_spec i j) as [->|].
        -- exists ks, (m + 1). rewrite repeat_app, app_assoc. reflexivity.
        -- exists ks, m. rewrite app_nil_r. reflexivity.
      * intros j r Hj. rewrite put_length by exact Hi. apply in_app_or in Hj. destruct Hj as [Hj|[Hj|[]]]; [eapply inv_known0; exact Hj|]. injection Hj as <- _. exact Hi.
    + assert (Es : skipn n items = x :: rest) by (destruct inv_provider0 as [<-|K]; [reflexivity|discriminate]).
      assert (Hn : n < length items). { destruct (Nat.lt_ge_cases n (length items)); [assumption|]. rewrite skipn_all2 in Es by assumption. discriminate. }
      assert (Ex : nth_error items n = Some x). { rewrite <- (firstn_skipn n items), nth_error_app2 by (rewrite firstn_length; lia). rewrite firstn_length, Nat.min_l by lia. rewrite Nat.sub_diag, Es. reflexivity. }
      assert (Er : rest = skipn (S n) items). { rewrite skipn_tl, Es. reflexivity. }
      exists (S n), []. rewrite app_nil_r. split; [|split; [constructor|split; [lia|intros ? ? []]]]. constructor; cbn [at_place t_provider t_data t_position t_ended t_listeners]; auto.
      * lia.
      * apply (sane_put (t_position s)); [assumption|lia|exact Sl].
      * eapply Forall_impl; [|exact inv_below0]. cbn. intros. lia.
      * intros j Hj. destruct (inv_none0 j Hj) as [A [q B]]. split; [exact A|]. exists q. rewrite nth_put by exact Hi. destruct (Nat.eqb_spec j i) as [->|]; [rewrite Hl in B; discriminate|exact B].
      * intros j r Hj. rewrite put_length by exact Hi. eapply inv_known0; exact Hj.
  - injection H as <- <-. destruct I. exists n, []. rewrite app_nil_r. split; [|split; [constructor|split; [lia|intros ? ? []]]]. destruct Sl as [Sl1 Sl2]. cbn in Sl1, Sl2.
    constructor; cbn [at_place t_provider t_data t_position t_ended t_listeners]; auto.
    + pose proof (count_put pulled_now (t_listeners s) i (mk_listener lp (Ready (S p))) _ Hl) as C. cbn [pulled_now l_at] in C. lia.
    + apply (sane_put (t_position s)); [assumption|lia|]. split; cbn; lia.
    + intros j Hj. destruct (inv_none0 j Hj) as [A [q B]]. split; [exact A|]. exists q. rewrite nth_put by exact Hi. destruct (Nat.eqb_spec j i) as [->|]; [rewrite Hl in B; discriminate|exact B].
    + intros j r Hj. rewrite put_length by exact Hi. eapply inv_known0; exact Hj.
  - destruct (t_data s) as [x|] eqn:Ed; [|discriminate]. injection H as <- <-. destruct I. destruct Sl as [Sl1 Sl2]. cbn in Sl1, Sl2.
    destruct n as [|m]; [congruence|]. exists (S m), [(i, Some m)]. split; [|split; [repeat constructor; cbn; congruence|split; [lia|intros ? ? [K|[]]; injection K as _ <-; reflexivity]]].
    constructor; cbn [at_place t_provider t_data t_position t_ended t_listeners]; auto.
    + pose proof (count_put pulled_now (t_listeners s) i (mk_listener p Idle) _ Hl) as C. cbn [pulled_now l_at] in C. lia.
    + apply (sane_put (t_position s)); [assumption|lia|]. split; cbn; [lia|exact Logic.I].
    + rewrite places_app. cbn. apply sorted_snoc; [assumption|]. eapply Forall_impl; [|exact inv_below0]. cbn. intros. lia.
    + rewrite places_app. cbn. apply Forall_app. split; [assumption|]. repeat constructor.
    + intros j Hj. apply in_app_or in Hj. destruct Hj as [Hj|[Hj|[]]]; [|discriminate]. destruct (inv_none0 j Hj) as [A [q B]]. split; [exact A|]. exists q.
      rewrite nth_put by exact Hi. destruct (Nat.eqb_spec j i) as [->|]; [rewrite Hl in B; discriminate|exact B].
    + intros j. rewrite own_app, map_app. destruct (inv_final0 j) as (ks & q & Hk). rewrite Hk. cbn [own filter fst]. destruct (Nat.eqb_spec i j) as [<-|].
      * destruct q as [|q].
        -- exists (ks ++ [m]), 0. cbn. rewrite !app_nil_r, map_app. reflexivity.
        -- exfalso. assert (Hin : In (i, None) g).
           { assert (K : In None (map snd (own i g))) by (rewrite Hk; apply in_or_app; right; left; reflexivity). apply in_map_iff in K. destruct K as [[a b] [K1 K2]]. cbn in K1. subst b.
             apply filter_In in K2. destruct K2 as [K2 K3]. cbn in K3. apply Nat.eqb_eq in K3. subst a. exact K2. }
           destruct (inv_none0 i Hin) as [_ [q' B]]. rewrite Hl in B. discriminate.
      * exists ks, q. rewrite app_nil_r. reflexivity.
    + intros j r Hj. rewrite put_length by exact Hi. apply in_app_or in Hj. destruct Hj as [Hj|[Hj|[]]]; [eapply inv_known0; exact Hj|]. injection Hj as <- _. exact Hi.
Qed.

Lemma inv_act : forall n s g a s' o, inv n s g -> act s a = Some (s', o) -> exists n' go, inv n' s' (g ++ go) /\ Forall2 same_entry o go /\ n <= n' /\ forall j k, In (j, Some k) go -> S k = n'.
Proof.
  intros n s g [i| |] s' o I H; cbn [act] in H; [eapply inv_step; eassumption| |]; injection H as <- <-; exists n, []; rewrite app_nil_r; (split; [|split; [constructor|split; [lia|intros ? ? []]]]); destruct I;
    constructor; cbn [t_provider t_data t_position t_ended t_listeners]; auto.
  - unfold count. rewrite filter_app. cbn. rewrite app_nil_r. exact inv_count0.
  - apply Forall_app. split; [assumption|]. repeat constructor. cbn. lia.
  - intros j Hj. destruct (inv_none0 j Hj) as [A [q B]]. split; [exact A|]. exists q. rewrite nth_error_app1 by (apply nth_error_Some; congruence). exact B.
  - intros j r Hj. rewrite app_length. specialize (inv_known0 j r Hj). lia.
Qed.

Lemma inv_acts : forall l n s g s' o, inv n s g -> acts s l = Some (s', o) -> exists n' go, inv n' s' (g ++ go) /\ Forall2 same_entry o go /\ n <= n'.
Proof.
  induction l as [|a l IH]; intros n s g s' o I H; cbn [acts] in H.
  - injection H as <- <-. exists n, []. rewrite app_nil_r. split; [exact I|]. split; [constructor|lia].
  - destruct (act s a) as [[s1 o1]|] eqn:E; [|discriminate]. destruct (inv_act _ _ _ _ _ _ I E) as (n1 & g1 & I1 & F1 & L1 & _).
    destruct (acts s1 l) as [[s2 o2]|] eqn:E2; [|discriminate]. injection H as <- <-. destruct (IH _ _ _ _ _ I1 E2) as (n2 & g2 & I2 & F2 & L2).
    exists n2, (g1 ++ g2). rewrite app_assoc. split; [exact I2|]. split; [apply Forall2_app; assumption|lia].
Qed.

Lemma inv_new : inv 0 (new_track items) [].
Proof. constructor; cbn; auto; try lia; try constructor; try tauto. intros i. exists [], 0. reflexivity. Qed.

Lemma own_told : forall i o g, Forall2 same_entry o g -> forall ks m, map snd (own i g) = map Some ks ++ repeat None m ->
  exists xs, told i o = map Some xs ++ repeat None m /\ Forall2 (fun k x => nth_error items k = Some x) ks xs.
Proof.
  intros i o g F. unfold told, own. induction F as [|e e' o g [A B] F IH]; intros ks m H; cbn [filter map] in *.
  - destruct ks; [|discriminate]. destruct m; [|discriminate]. exists []. split; [reflexivity|constructor].
  - rewrite A. destruct (fst e' =? i); [|apply IH; exact H]. cbn [map] in *. destruct e as [ea [x|]], e' as [ea' [k|]]; cbn [snd] in *; try tauto.
    + destruct ks as [|k' ks]; [destruct m; discriminate|]. injection H as -> H. destruct (IH ks m H) as (xs & E & G). exists (x :: xs). split; [cbn; f_equal; exact E|constructor; assumption].
    + destruct ks as [|k' ks]; [|discriminate]. destruct m as [|m]; [discriminate|]. cbn in H. injection H as H. destruct (IH [] m H) as (xs & E & G). inversion G; subst. exists []. split; [cbn; f_equal; exact E|constructor].
Qed.
Lemma own_sorted : forall R i g, StronglySorted R (places g) -> StronglySorted R (places (own i g)).
Proof.
  intros R i g S. induction g as [|[j [k|]] g IH]; cbn [own filter places flat_map snd app fst] in *.
  - constructor.
  - inversion S; subst. destruct (j =? i); [|apply IH; assumption]. cbn [flat_map snd app]. constructor; [apply IH; assumption|].
    apply Forall_forall. intros x Hx. rewrite Forall_forall in H2. apply H2. apply in_flat_map in Hx. destruct Hx as (e & He & Hk). apply filter_In in He. apply in_flat_map. exists e. tauto.
  - destruct (j =? i); [cbn [flat_map snd app]|]; apply IH; assumption.
Qed.
Lemma places_own : forall i g ks m, map snd (own i g) = map Some ks ++ repeat None m -> places (own i g) = ks.
Proof.
  intros i g. generalize (own i g) as h. induction h as [|[j [k|]] h IH]; intros ks m H; cbn [map snd places flat_map app] in *.
  - destruct ks; [reflexivity|discriminate].
  - destruct ks as [|k' ks]; [destruct m; discriminate|]. injection H as -> H. f_equal. eapply IH; exact H.
  - destruct ks as [|k' ks]; [|discriminate]. destruct m as [|m]; [discriminate|]. cbn in H. injection H as H. apply (IH [] m). exact H.
Qed.

Theorem all_in_order : forall l s log i, acts (new_track items) l = Some (s, log) -> exists xs m, told i log = map Some xs ++ repeat None m /\ in_order items xs.
Proof.
  intros l s log i H. destruct (inv_acts _ _ _ _ _ _ inv_new H) as (n & g & I & F & _). cbn [app] in I. destruct (inv_final _ _ _ I i) as (ks & m & E).
  destruct (own_told i log g F ks m E) as (xs & A & B). exists xs, m. split; [exact A|]. exists ks. split; [|exact B].
  rewrite <- (places_own i g ks m E). apply own_sorted. apply I.
Qed.

Theorem never_stuck : forall l s log, acts (new_track items) l = Some (s, log) -> forall i, i < length (t_listeners s) -> exists r, listen s i = Some r.
Proof.
  intros l s log H i Hi. destruct (inv_acts _ _ _ _ _ _ inv_new H) as (n & g & I & _). unfold listen. destruct (nth_error (t_listeners s) i) as [l0|] eqn:Hl; [|apply nth_error_None in Hl; lia].
  destruct (l_at l0) eqn:Ea; try (eexists; reflexivity).
  - destruct (t_ended s); eexists; reflexivity.
  - destruct (t_position s =? l_pos l0); eexists; reflexivity.
  - destruct (t_provider s); eexists; reflexivity.
  - pose proof (inv_sane _ _ _ I) as F. rewrite Forall_forall in F. destruct (F l0 (nth_error_In _ _ Hl)) as [_ S]. rewrite Ea in S.
    pose proof (inv_count _ _ _ I) as C. pose proof (inv_data _ _ _ I) as D. pose proof (inv_bound _ _ _ I) as B. destruct n as [|m]; [lia|]. rewrite D. destruct (nth_error items m) eqn:E; [eexists; reflexivity|]. apply nth_error_None in E. lia.
Qed.

(** ** No two calls at the same time *)
Lemma count_two : forall f (L : list listener) i j a b, count f L <= 1 -> nth_error L i = Some a -> nth_error L j = Some b -> f a = true -> f b = true -> i = j.
Proof.
  assert (Z : forall f (L : list listener) j b, count f L = 0 -> nth_error L j = Some b -> f b = true -> False).
  { intros f L j b C H T. unfold count in C. assert (K : In b (filter f L)) by (apply filter_In; split; [eapply nth_error_In; exact H|exact T]). destruct (filter f L); [destruct K|discriminate]. }
  intros f. induction L as [|x L IH]; intros [|i] [|j] a b C A B Ta Tb; cbn in A, B; try discriminate; [reflexivity| | |].
  - injection A as ->. exfalso. unfold count in C. cbn [filter] in C. rewrite Ta in C. cbn in C. eapply (Z f L); eauto. unfold count. lia.
  - injection B as ->. exfalso. unfold count in C. cbn [filter] in C. rewrite Tb in C. cbn in C. eapply (Z f L); eauto. unfold count. lia.
  - f_equal. apply (IH i j a b); auto. unfold count in *. cbn [filter] in C. destruct (f x); cbn in C; lia.
Qed.

Definition placed (n pos : nat) (l : listener) : Prop :=
  match l_at l with Idle | Checked => True | Pull p | Pulled p => p = l_pos l /\ p = pos | Ready p => p = n /\ p = pos /\ l_pos l < p end.
Definition holds (l : listener) : bool := match l_at l with Pulled _ | Ready _ => true | _ => false end.
Lemma holds_busy : forall l, holds l = true -> busy l = true.
Proof. intros [? []]; cbn; congruence. Qed.
Record seq_inv (n : nat) (s : track X) (g : list (nat * option nat)) : Prop := mk_seq_inv {
  seq_own : forall i l, nth_error (t_listeners s) i = Some l -> Forall (fun k => k < l_pos l) (places (own i g)) /\ StronglySorted lt (places (own i g)) /\ placed n (t_position s) l;
  seq_cover : forall k, k < n -> In k (places g) \/ (S k = n /\ exists j l, nth_error (t_listeners s) j = Some l /\ holds l = true)
}.

Lemma f2_one : forall e go, Forall2 same_entry [e] go -> exists e', go = [e'] /\ same_entry e e'.
Proof. intros e go F. inversion F as [|? e' ? ? A B]; subst. inversion B; subst. eauto. Qed.
Lemma idle_placed : forall n pos l, busy l = false -> placed n pos l.
Proof. intros n pos [lp []] H; cbn in *; try discriminate; exact Logic.I. Qed.
Lemma no_pulled : forall s : track X, Forall (fun l => pulled_now l = false) (t_listeners s) -> count pulled_now (t_listeners s) = 0.
Proof. intros s F. unfold count. induction F as [|x L H F IH]; [reflexivity|]. cbn [filter]. rewrite H. exact IH. Qed.

Lemma seq_act : forall n s g a s' o, inv n s g -> seq_inv n s g -> calm s -> calm s' -> act s a = Some (s', o) ->
  exists n' go, inv n' s' (g ++ go) /\ seq_inv n' s' (g ++ go) /\ Forall2 same_entry o go.
Proof.
  intros n s g a s' o I Q Cs Cs' H. destruct (inv_act n s g a s' o I H) as (n' & go & I' & F & L & _). destruct a as [i| |]; cbn [act] in H.
  2,3: injection H as <- <-; inversion F; subst go; exists n', []; split; [exact I'|]; split; [|constructor];
    assert (En : n' = n) by (destruct I as [_ _ _ C1 _ _ _ _ _ _]; destruct I' as [_ _ _ C2 _ _ _ _ _ _]; cbn [t_listeners t_position] in C2; rewrite <- C1, <- C2; unfold count; try rewrite filter_app; cbn; rewrite ?app_nil_r; reflexivity);
    subst n'; rewrite app_nil_r in *; destruct Q as [Q1 Q2].
  2: { constructor; auto. }
  2: { constructor; cbn [t_listeners t_position].
       - intros i l Hl. destruct (Nat.lt_ge_cases i (length (t_listeners s))) as [K|K]; [rewrite nth_error_app1 in Hl by exact K; apply Q1; exact Hl|].
         rewrite nth_error_app2 in Hl by exact K. destruct (i - length (t_listeners s)) eqn:E; cbn in Hl; [|destruct n0; discriminate]. injection Hl as <-.
         assert (Eo : own i g = []).
         { destruct (own i g) as [|[j r] h] eqn:Eg; [reflexivity|]. exfalso. assert (Hin : In (j, r) (own i g)) by (rewrite Eg; left; reflexivity). apply filter_In in Hin. destruct Hin as [Hin Ej]. cbn in Ej. apply Nat.eqb_eq in Ej. subst j.
           pose proof (inv_known _ _ _ I i r Hin). lia. }
         rewrite Eo. cbn. repeat constructor.
       - intros k Hk. destruct (Q2 k Hk) as [K|[K (j & l & A & B)]]; [left; exact K|right]. split; [exact K|]. exists j, l. split; [rewrite nth_error_app1 by (apply nth_error_Some; congruence); exact A|exact B]. }
  clear I' F L go n'. unfold listen in H. destruct (nth_error (t_listeners s) i) as [l|] eqn:Hl; [|discriminate].
  assert (Hi : i < length (t_listeners s)) by (apply nth_error_Some; congruence).
  destruct Q as [Q1 Q2]. destruct (Q1 i l Hl) as (Ql1 & Ql2 & Ql3).
  assert (Others : busy l = true -> forall j lj, j <> i -> nth_error (t_listeners s) j = Some lj -> busy lj = false).
  { intros Bl j lj N Hj. destruct (busy lj) eqn:Bj; [|reflexivity]. exfalso. apply N. eapply (count_two busy (t_listeners s)); eauto. }
  (* the conditions of the other listeners, when the positions may have changed *)
  assert (Keep : busy l = true -> forall n2 (s2 : track X) go, t_listeners s2 = put (t_listeners s) i (mk_listener (l_pos l) Idle) \/ (exists lp pl, t_listeners s2 = put (t_listeners s) i (mk_listener lp pl)) ->
    (forall j, j <> i -> own j go = []) -> forall j lj, j <> i -> nth_error (t_listeners s2) j = Some lj -> Forall (fun k => k < l_pos lj) (places (own j (g ++ go))) /\ StronglySorted lt (places (own j (g ++ go))) /\ placed n2 (t_position s2) lj).
  { intros Bl n2 s2 go Es Eg j lj N Hj. assert (Hj' : nth_error (t_listeners s) j = Some lj).
    { destruct Es as [Es|(lp & pl & Es)]; rewrite Es, nth_put in Hj by exact Hi; destruct (Nat.eqb_spec j i); congruence. }
    destruct (Q1 j lj Hj') as (A & B & C). rewrite own_app, (Eg j N), app_nil_r. split; [exact A|]. split; [exact B|]. apply idle_placed. eapply Others; eauto. }
  assert (Iv : forall s2 o2, listen s i = Some (s2, o2) -> exists n' go, inv n' s2 (g ++ go) /\ Forall2 same_entry o2 go /\ n <= n' /\ forall j k, In (j, Some k) go -> S k = n') by (intros s2 o2 E; eapply inv_step; eauto).
  unfold listen in Iv. rewrite Hl in Iv. destruct l as [lp la]. cbn [l_at l_pos] in *. unfold placed in Ql3. cbn [l_at l_pos] in Ql3.
  assert (Cz : busy (mk_listener lp la) = true -> pulled_now (mk_listener lp la) = false -> t_position s = n).
  { intros Bl Pl. rewrite <- (inv_count _ _ _ I), no_pulled; [lia|]. apply Forall_forall. intros x Hx. apply In_nth_error in Hx. destruct Hx as [j Hj].
    destruct (Nat.eq_dec j i) as [->|N]; [rewrite Hl in Hj; injection Hj as <-; exact Pl|]. pose proof (Others Bl j x N Hj) as K. destruct x as [? []]; cbn in *; try discriminate; reflexivity. }
  assert (Cover0 : busy (mk_listener lp la) = true -> holds (mk_listener lp la) = false -> forall k, k < n -> In k (places g)).
  { intros Bl Hh k Hk. destruct (Q2 k Hk) as [K|[K (j & x & A & B)]]; [exact K|]. exfalso. destruct (Nat.eq_dec j i) as [->|N]; [rewrite Hl in A; injection A as <-; congruence|].
    pose proof (Others Bl j x N A) as K'. rewrite (holds_busy _ B) in K'. discriminate. }
  destruct la as [| |p|p|p].
  - (* Idle *)
    destruct (t_ended s) eqn:E; injection H as <- <-.
    + destruct (Iv _ _ eq_refl) as (n' & go & I' & F & L & Lk). exists n', go. destruct (f2_one _ _ F) as (e' & -> & Se). destruct e' as [j [k|]], Se as [S1 S2]; cbn in S1, S2; [destruct S2|]. subst j.
      assert (En : n' = n) by (rewrite <- (inv_count _ _ _ I), <- (inv_count _ _ _ I'); reflexivity). subst n'. split; [exact I'|]. split; [|exact F]. constructor.
      * intros j lj Hj. destruct (Q1 j lj Hj) as (A & B & C). rewrite own_app, places_app. cbn [own filter fst]. destruct (i =? j); cbn [places flat_map snd app]; rewrite app_nil_r; auto.
      * intros k Hk. rewrite places_app. destruct (Q2 k Hk) as [K|K]; [left; apply in_or_app; left; exact K|right; exact K].
    + destruct (Iv _ _ eq_refl) as (n' & go & I' & F & L & Lk). inversion F; subst go. rewrite app_nil_r in I'. exists n', []. rewrite app_nil_r.
      assert (En : n' = n). { rewrite <- (inv_count _ _ _ I), <- (inv_count _ _ _ I'). cbn [at_place t_position t_listeners]. f_equal. pose proof (count_put pulled_now (t_listeners s) i (mk_listener lp Checked) _ Hl) as C. cbn [pulled_now l_at] in C. lia. }
      subst n'. split; [exact I'|]. split; [|constructor]. constructor; cbn [at_place t_position t_listeners].
      * intros j lj Hj. rewrite nth_put in Hj by exact Hi. destruct (Nat.eqb_spec j i) as [->|]; [injection Hj as <-; auto|apply Q1; exact Hj].
      * intros k Hk. destruct (Q2 k Hk) as [K|[K (j & x & A & B)]]; [left; exact K|]. right. split; [exact K|]. exists j, x. split; [|exact B].
        rewrite nth_put by exact Hi. destruct (Nat.eqb_spec j i) as [->|]; [rewrite Hl in A; injection A as <-; discriminate|exact A].
  - (* Checked *)
    specialize (Cz eq_refl eq_refl). assert (Cover : forall k : nat, k < n -> forall (P : Prop), In k (places g) \/ P) by (intros k Hk P; left; apply Cover0; auto). assert (Sp : lp <= t_position s) by (pose proof (inv_sane _ _ _ I) as Fs; rewrite Forall_forall in Fs; apply (Fs _ (nth_error_In _ _ Hl))).
    destruct (t_position s =? lp) eqn:E; injection H as <- <-; destruct (Iv _ _ eq_refl) as (n' & go & I' & F & L & Lk); inversion F; subst go; rewrite app_nil_r in I'; exists n', []; rewrite app_nil_r.
    + assert (En : n' = n). { rewrite <- (inv_count _ _ _ I), <- (inv_count _ _ _ I'). cbn [at_place t_position t_listeners]. f_equal. pose proof (count_put pulled_now (t_listeners s) i (mk_listener lp (Pull (t_position s))) _ Hl) as C. cbn [pulled_now l_at] in C. lia. }
      subst n'. split; [exact I'|]. split; [|constructor]. apply Nat.eqb_eq in E. constructor; cbn [at_place t_position t_listeners].
      * intros j lj Hj. rewrite nth_put in Hj by exact Hi. destruct (Nat.eqb_spec j i) as [->|]; [injection Hj as <-|apply Q1; exact Hj]. split; [exact Ql1|]. split; [exact Ql2|]. cbn. auto.
      * intros k Hk. apply Cover. exact Hk.
    + assert (En : n' = n). { rewrite <- (inv_count _ _ _ I), <- (inv_count _ _ _ I'). cbn [at_place t_position t_listeners]. f_equal. pose proof (count_put pulled_now (t_listeners s) i (mk_listener lp (Ready (t_position s))) _ Hl) as C. cbn [pulled_now l_at] in C. lia. }
      subst n'. split; [exact I'|]. split; [|constructor]. apply Nat.eqb_neq in E. constructor; cbn [at_place t_position t_listeners].
      * intros j lj Hj. rewrite nth_put in Hj by exact Hi. destruct (Nat.eqb_spec j i) as [->|]; [injection Hj as <-|apply Q1; exact Hj]. split; [exact Ql1|]. split; [exact Ql2|]. cbn. repeat split; lia.
      * intros k Hk. apply Cover. exact Hk.
  - (* Pull *)
    specialize (Cz eq_refl eq_refl). destruct (t_provider s) as [|x rest] eqn:Ep; injection H as <- <-; destruct (Iv _ _ eq_refl) as (n' & go & I' & F & L & Lk).
    + destruct (f2_one _ _ F) as (e' & -> & Se). destruct e' as [j [k|]], Se as [S1 S2]; cbn in S1, S2; [destruct S2|]. subst j. exists n', [(i, None)].
      assert (En : n' = n). { rewrite <- (inv_count _ _ _ I), <- (inv_count _ _ _ I'). cbn [at_place t_position t_listeners]. f_equal. pose proof (count_put pulled_now (t_listeners s) i (mk_listener lp Idle) _ Hl) as C. cbn [pulled_now l_at] in C. lia. }
      subst n'. split; [exact I'|]. split; [|exact F]. constructor; cbn [at_place t_position t_listeners].
      * intros j lj Hj. rewrite nth_put in Hj by exact Hi. rewrite own_app, places_app. destruct (Nat.eqb_spec j i) as [->|N].
        -- injection Hj as <-. cbn [own filter fst]. rewrite Nat.eqb_refl. cbn [places flat_map snd app]. rewrite app_nil_r. split; [exact Ql1|]. split; [exact Ql2|exact Logic.I].
        -- cbn [own filter fst]. destruct (Nat.eqb_spec i j); [congruence|]. cbn [places flat_map]. rewrite app_nil_r. apply Q1. exact Hj.
      * intros k Hk. rewrite places_app. cbn. rewrite app_nil_r. left. apply Cover0; auto.
    + inversion F; subst go. rewrite app_nil_r in I'. exists n', []. rewrite app_nil_r.
      assert (En : n' = S n). { rewrite <- (inv_count _ _ _ I), <- (inv_count _ _ _ I'). cbn [at_place t_position t_listeners]. pose proof (count_put pulled_now (t_listeners s) i (mk_listener lp (Pulled p)) _ Hl) as C. cbn [pulled_now l_at] in C. lia. }
      subst n'. split; [exact I'|]. split; [|constructor]. constructor; cbn [at_place t_position t_listeners].
      * intros j lj Hj. rewrite nth_put in Hj by exact Hi. destruct (Nat.eqb_spec j i) as [->|N].
        -- injection Hj as <-. split; [exact Ql1|]. split; [exact Ql2|]. exact Ql3.
        -- destruct (Q1 j lj Hj) as (A & B & _). split; [exact A|]. split; [exact B|]. apply idle_placed. apply (Others eq_refl j lj N Hj).
      * intros k Hk. destruct (Nat.eq_dec k n) as [->|]; [|left; apply Cover0; auto; lia]. right. split; [reflexivity|]. exists i, (mk_listener lp (Pulled p)). split; [|reflexivity].
        rewrite nth_put by exact Hi. rewrite Nat.eqb_refl. reflexivity.
  - (* Pulled *)
    injection H as <- <-. destruct (Iv _ _ eq_refl) as (n' & go & I' & F & L & Lk). inversion F; subst go. rewrite app_nil_r in I'. exists n', []. rewrite app_nil_r.
    assert (Cn : n = S (t_position s)).
    { rewrite <- (inv_count _ _ _ I). pose proof (count_put pulled_now (t_listeners s) i (mk_listener lp Idle) _ Hl) as C. cbn [pulled_now l_at] in C.
      assert (Z : count pulled_now (put (t_listeners s) i (mk_listener lp Idle)) = 0); [|lia].
      unfold count. destruct (filter pulled_now (put (t_listeners s) i (mk_listener lp Idle))) as [|y h] eqn:Ef; [reflexivity|]. exfalso.
      assert (Hy : In y (filter pulled_now (put (t_listeners s) i (mk_listener lp Idle)))) by (rewrite Ef; left; reflexivity). apply filter_In in Hy. destruct Hy as [Hy Py].
      apply In_nth_error in Hy. destruct Hy as [j Hj]. rewrite nth_put in Hj by exact Hi. destruct (Nat.eqb_spec j i) as [Ej|N]; [injection Hj as Hj; subst y; discriminate|].
      pose proof (Others eq_refl j y N Hj) as K. destruct y as [? []]; cbn in *; discriminate. }
    assert (En : n' = n). { rewrite <- (inv_count _ _ _ I), <- (inv_count _ _ _ I'). cbn [at_place t_position t_listeners]. pose proof (count_put pulled_now (t_listeners s) i (mk_listener lp (Ready (S p))) _ Hl) as C. cbn [pulled_now l_at] in C. lia. }
    subst n'. split; [exact I'|]. split; [|constructor]. constructor; cbn [at_place t_position t_listeners].
    + intros j lj Hj. rewrite nth_put in Hj by exact Hi. destruct (Nat.eqb_spec j i) as [->|N].
      * injection Hj as <-. split; [exact Ql1|]. split; [exact Ql2|]. cbn. lia.
      * destruct (Q1 j lj Hj) as (A & B & _). split; [exact A|]. split; [exact B|]. apply idle_placed. apply (Others eq_refl j lj N Hj).
    + intros k Hk. destruct (Q2 k Hk) as [K|[K _]]; [left; exact K|]. right. split; [exact K|]. exists i, (mk_listener lp (Ready (S p))). split; [|reflexivity].
      rewrite nth_put by exact Hi. rewrite Nat.eqb_refl. reflexivity.
  - (* Ready *)
    specialize (Cz eq_refl eq_refl). destruct Ql3 as (P1 & P2 & P3). destruct (t_data s) as [x|] eqn:Ed; [|discriminate]. injection H as <- <-. destruct (Iv _ _ eq_refl) as (n' & go & I' & F & L & Lk).
    destruct (f2_one _ _ F) as (e' & -> & Se). destruct e' as [j [k|]], Se as [S1 S2]; cbn in S1, S2; [|destruct S2]. subst j. exists n', [(i, Some k)].
    specialize (Lk i k (or_introl eq_refl)).
    assert (En : n' = n). { rewrite <- (inv_count _ _ _ I), <- (inv_count _ _ _ I'). cbn [at_place t_position t_listeners]. pose proof (count_put pulled_now (t_listeners s) i (mk_listener p Idle) _ Hl) as C. cbn [pulled_now l_at] in C. lia. }
    split; [exact I'|]. split; [|exact F]. constructor; cbn [at_place t_position t_listeners].
    + intros j lj Hj. rewrite nth_put in Hj by exact Hi. rewrite own_app, places_app. destruct (Nat.eqb_spec j i) as [->|N].
      * injection Hj as <-. cbn [own filter fst]. rewrite Nat.eqb_refl. cbn [places flat_map snd app l_pos]. split; [|split; [|exact Logic.I]].
        -- apply Forall_app. split; [|repeat constructor; lia]. eapply Forall_impl; [|exact Ql1]. cbn. intros. lia.
        -- apply sorted_lt_snoc; [exact Ql2|]. eapply Forall_impl; [|exact Ql1]. cbn. intros. lia.
      * cbn [own filter fst]. destruct (Nat.eqb_spec i j); [congruence|]. cbn [places flat_map]. rewrite app_nil_r. destruct (Q1 j lj Hj) as (A & B & _). split; [exact A|]. split; [exact B|]. apply idle_placed. apply (Others eq_refl j lj N Hj).
    + intros k' Hk. rewrite places_app. left. apply in_or_app. destruct (Q2 k') as [K|[K _]]; [lia|left; exact K|right; left; lia].
Qed.

Lemma seq_acts : forall l n s g s' o, inv n s g -> seq_inv n s g -> calm_acts s l -> acts s l = Some (s', o) ->
  exists n' go, inv n' s' (g ++ go) /\ seq_inv n' s' (g ++ go) /\ Forall2 same_entry o go.
Proof.
  induction l as [|a l IH]; intros n s g s' o I Q C H; cbn [acts calm_acts] in *.
  - injection H as <- <-. exists n, []. rewrite app_nil_r. split; [exact I|]. split; [exact Q|constructor].
  - destruct C as [C1 C2]. destruct (act s a) as [[s1 o1]|] eqn:E; [|discriminate]. assert (C3 : calm s1) by (destruct l; apply C2).
    destruct (seq_act _ _ _ _ _ _ I Q C1 C3 E) as (n1 & g1 & I1 & Q1 & F1).
    destruct (acts s1 l) as [[s2 o2]|] eqn:E2; [|discriminate]. injection H as <- <-. destruct (IH _ _ _ _ _ I1 Q1 C2 E2) as (n2 & g2 & I2 & Q2 & F2).
    exists n2, (g1 ++ g2). rewrite app_assoc. split; [exact I2|]. split; [exact Q2|apply Forall2_app; assumption].
Qed.
Lemma seq_new : seq_inv 0 (new_track items) [].
Proof. constructor; cbn; [intros [|i] l H; discriminate|intros; lia]. Qed.

Lemma somes_places : forall o g, Forall2 same_entry o g -> Forall2 (fun k x => nth_error items k = Some x) (places g) (somes o).
Proof.
  intros o g F. induction F as [|e e' o g [A B] F IH]; [constructor|]. destruct e as [i [x|]], e' as [j [k|]]; cbn in *; try contradiction; [constructor; assumption|exact IH].
Qed.

(** each consumer sees every buffer at most once *)
Theorem sequential_once : forall l s log i, acts (new_track items) l = Some (s, log) -> calm_acts (new_track items) l ->
  exists xs m, told i log = map Some xs ++ repeat None m /\ each_once items xs.
Proof.
  intros l s log i H C. destruct (seq_acts _ _ _ _ _ _ (inv_new) seq_new C H) as (n & g & I & Q & F). cbn [app] in *. destruct (inv_final _ _ _ I i) as (ks & m & E).
  destruct (own_told i log g F ks m E) as (xs & A & B). exists xs, m. split; [exact A|]. exists ks. split; [|exact B].
  rewrite <- (places_own i g ks m E). destruct (nth_error (t_listeners s) i) as [l0|] eqn:Hl; [apply (seq_own _ _ _ Q i l0 Hl)|].
  assert (Eo : own i g = []); [|rewrite Eo; constructor].
  destruct (own i g) as [|[j r] h] eqn:Eg; [reflexivity|]. exfalso. assert (Hin : In (j, r) (own i g)) by (rewrite Eg; left; reflexivity). apply filter_In in Hin. destruct Hin as [Hin Ej]. cbn in Ej. apply Nat.eqb_eq in Ej. subst j.
  pose proof (inv_known _ _ _ I i r Hin). apply nth_error_None in Hl. lia.
Qed.

(** a track that nobody closes *)
Definition open_inv (s : track X) : Prop :=
  t_provider s = skipn (t_position s + count pulled_now (t_listeners s)) items /\ (t_ended s = true -> t_provider s = []).
Lemma open_act : forall s a s' o, a <> Close -> open_inv s -> act s a = Some (s', o) -> open_inv s'.
Proof.
  intros s [i| |] s' o N [A B] H; [|congruence|].
  - cbn [act] in H. unfold listen in H. destruct (nth_error (t_listeners s) i) as [[lp la]|] eqn:Hl; [|discriminate].
    pose proof (fun l => count_put pulled_now (t_listeners s) i l _ Hl) as C. unfold open_inv. destruct la as [| |p|p|p]; cbn [l_at l_pos] in H.
    + destruct (t_ended s) eqn:E; injection H as <- <-; [rewrite E; auto|]. cbn [at_place t_provider t_position t_listeners t_ended]. specialize (C (mk_listener lp Checked)). cbn [pulled_now l_at] in C. rewrite E. split; [rewrite A; f_equal; lia|congruence].
    + destruct (t_position s =? lp); injection H as <- <-; cbn [at_place t_provider t_position t_listeners t_ended]; [specialize (C (mk_listener lp (Pull (t_position s))))|specialize (C (mk_listener lp (Ready (t_position s))))]; cbn [pulled_now l_at] in C; (split; [rewrite A; f_equal; lia|exact B]).
    + destruct (t_provider s) as [|x rest] eqn:Ep; injection H as <- <-; cbn [at_place t_provider t_position t_listeners t_ended].
      * specialize (C (mk_listener lp Idle)). cbn [pulled_now l_at] in C. split; [|reflexivity]. rewrite A. f_equal. lia.
      * specialize (C (mk_listener lp (Pulled p))). cbn [pulled_now l_at] in C. split; [|intros E; specialize (B E); discriminate].
        replace (t_position s + count pulled_now (put (t_listeners s) i (mk_listener lp (Pulled p)))) with (S (t_position s + count pulled_now (t_listeners s))) by lia. rewrite skipn_tl, <- A. reflexivity.
    + injection H as <- <-; cbn [at_place t_provider t_position t_listeners t_ended]. specialize (C (mk_listener lp (Ready (S p)))). cbn [pulled_now l_at] in C. split; [|exact B]. rewrite A. f_equal. lia.
    + destruct (t_data s); [|discriminate]. injection H as <- <-; cbn [at_place t_provider t_position t_listeners t_ended]. specialize (C (mk_listener p Idle)). cbn [pulled_now l_at] in C. split; [|exact B]. rewrite A. f_equal. lia.
  - cbn [act] in H. injection H as <- <-. split; cbn [t_provider t_position t_listeners t_ended]; [|exact B]. rewrite A. f_equal. unfold count. rewrite filter_app. cbn. rewrite app_nil_r. reflexivity.
Qed.
Lemma open_acts : forall l s s' o, ~ In Close l -> open_inv s -> acts s l = Some (s', o) -> open_inv s'.
Proof.
  induction l as [|a l IH]; intros s s' o N A H; cbn [acts] in H; [injection H as <- <-; exact A|].
  destruct (act s a) as [[s1 o1]|] eqn:E; [|discriminate]. destruct (acts s1 l) as [[s2 o2]|] eqn:E2; [|discriminate]. injection H as <- <-.
  apply (IH s1 s2 o2); [intros K; apply N; right; exact K| |exact E2]. eapply open_act; [|exact A|exact E]. intros ->. apply N. left. reflexivity.
Qed.

(** no buffer is lost *)
Theorem sequential_all : forall l s log i, acts (new_track items) l = Some (s, log) -> calm_acts (new_track items) l -> ~ In Close l ->
  In (i, None) log -> Forall (fun l => busy l = false) (t_listeners s) -> forall k x, nth_error items k = Some x -> exists j, In (j, Some x) log.
Proof.
  intros l s log i H C N Hn Fi k x Hk. destruct (seq_acts _ _ _ _ _ _ (inv_new) seq_new C H) as (n & g & I & Q & F). cbn [app] in *.
  assert (O : open_inv s) by (eapply (open_acts l (new_track items)); eauto; split; [reflexivity|discriminate]). destruct O as [O1 O2].
  assert (En : In (i, None) g). { clear - F Hn. induction F as [|e e' o g [A B] F IH]; [destruct Hn|]. destruct Hn as [->|Hn]; [|right; apply IH; exact Hn]. left. destruct e' as [j [k|]]; cbn in *; [contradiction|subst; reflexivity]. }
  destruct (inv_none _ _ _ I i En) as [E _]. specialize (O2 E). rewrite (inv_count _ _ _ I) in O1. rewrite O2 in O1.
  assert (Ln : length items <= n). { apply (f_equal (@length X)) in O1. rewrite skipn_length in O1. cbn in O1. lia. }
  assert (Kn : k < n) by (assert (k < length items) by (apply nth_error_Some; congruence); lia).
  destruct (seq_cover _ _ _ Q k Kn) as [K|[_ (j & l0 & A & B)]].
  - clear - F K Hk. induction F as [|e e' o g [A B] F IH]; cbn in K; [destruct K|]. apply in_app_or in K. destruct K as [K|K]; [|destruct (IH K) as [j Hj]; exists j; right; exact Hj].
    destruct e as [a [y|]], e' as [b [k'|]]; cbn in *; try contradiction. destruct K as [<-|[]]. exists a. left. congruence.
  - exfalso. apply holds_busy in B. rewrite Forall_forall in Fi. rewrite (Fi l0 (nth_error_In _ _ A)) in B. discriminate.
Qed.

(** ** One consumer *)
Definition at_rest (k : nat) (ended : bool) : track X :=
  mk_track (skipn k items) (match k with 0 => None | S m => nth_error items m end) k ended [mk_listener k Idle].
Lemma acts_app : forall l1 l2 (s : track X), acts s (l1 ++ l2) = match acts s l1 with Some (s1, o1) => match acts s1 l2 with Some (s2, o2) => Some (s2, o1 ++ o2) | None => None end | None => None end.
Proof.
  induction l1 as [|a l1 IH]; intros l2 s; cbn [acts app]; [destruct (acts s l2) as [[]|]; reflexivity|].
  destruct (act s a) as [[s1 o1]|]; [|reflexivity]. rewrite IH. destruct (acts s1 l1) as [[s2 o2]|]; [|reflexivity]. destruct (acts s2 l2) as [[s3 o3]|]; [|reflexivity]. rewrite app_assoc. reflexivity.
Qed.
Lemma after_end : forall n k, acts (at_rest k true) (repeat (Step 0) n) = Some (at_rest k true, repeat (0, None) n).
Proof. induction n as [|n IH]; intros k; [reflexivity|]. cbn [repeat acts]. change (act (at_rest k true) (Step 0)) with (Some (at_rest k true, [(0, @None X)])). cbn [app]. rewrite IH. reflexivity. Qed.
Lemma one_call : forall k x, nth_error items k = Some x -> acts (at_rest k false) (repeat (Step 0) 5) = Some (at_rest (S k) false, [(0, Some x)]).
Proof.
  intros k x H. assert (E : skipn k items = x :: skipn (S k) items).
  { rewrite skipn_tl. assert (L : k < length items) by (apply nth_error_Some; congruence). clear - H. revert k H. induction items as [|y l IH]; intros [|k] H; cbn in *; try discriminate; [congruence|apply IH; exact H]. }
  unfold at_rest; cbn [repeat acts act listen t_listeners nth_error l_at t_ended at_place put firstn skipn app l_pos t_position]. rewrite Nat.eqb_refl.
  cbn [repeat acts act listen t_listeners nth_error l_at t_ended at_place put firstn skipn app l_pos t_position t_provider]. rewrite E.
  cbn [repeat acts act listen t_listeners nth_error l_at t_ended at_place put firstn skipn app l_pos t_position t_provider t_data]. unfold at_rest. rewrite H. reflexivity.
Qed.
Lemma last_call : forall k, length items <= k -> acts (at_rest k false) (repeat (Step 0) 3) = Some (at_rest k true, [(0, None)]).
Proof.
  intros k H. assert (E : skipn k items = []) by (apply skipn_all2; exact H).
  unfold at_rest; cbn [repeat acts act listen t_listeners nth_error l_at t_ended at_place put firstn skipn app l_pos t_position]. rewrite Nat.eqb_refl.
  cbn [repeat acts act listen t_listeners nth_error l_at t_ended at_place put firstn skipn app l_pos t_position t_provider]. unfold at_rest. rewrite E. reflexivity.
Qed.
Lemma short_call : forall k n, n < 3 \/ (k < length items /\ n < 5) -> exists s, acts (at_rest k false) (repeat (Step 0) n) = Some (s, []).
Proof.
  intros k n H. assert (P : exists n', (n' = 3 \/ n' = 5) /\ n < n' /\ exists s o, acts (at_rest k false) (repeat (Step 0) n') = Some (s, [o])).
  { destruct (Nat.lt_ge_cases k (length items)) as [K|K].
    - exists 5. split; [auto|]. split; [lia|]. destruct (nth_error items k) as [x|] eqn:E; [|apply nth_error_None in E; lia]. eexists _, _. apply one_call. exact E.
    - exists 3. split; [auto|]. split; [lia|]. eexists _, _. apply last_call. exact K. }
  destruct (Nat.lt_ge_cases k (length items)) as [K|K].
  - destruct (nth_error items k) as [x|] eqn:E; [|apply nth_error_None in E; lia]. pose proof (one_call k x E) as O.
    assert (E5 : skipn k items = x :: skipn (S k) items).
    { rewrite skipn_tl. clear - E. revert k E. induction items as [|y l IH]; intros [|k] H; cbn in *; try discriminate; [congruence|apply IH; exact H]. }
    destruct n as [|[|[|[|[|n]]]]]; [..|lia];
      unfold at_rest; cbn [repeat acts act listen t_listeners nth_error l_at t_ended at_place put firstn skipn app l_pos t_position]; rewrite ?Nat.eqb_refl;
      cbn [repeat acts act listen t_listeners nth_error l_at t_ended at_place put firstn skipn app l_pos t_position t_provider]; rewrite ?E5; eexists; reflexivity.
  - destruct n as [|[|[|n]]]; [..|lia];
      unfold at_rest; cbn [repeat acts act listen t_listeners nth_error l_at t_ended at_place put firstn skipn app l_pos t_position]; rewrite ?Nat.eqb_refl; eexists; reflexivity.
Qed.

Lemma one_run : forall n k, k <= length items -> exists s log m, acts (at_rest k false) (repeat (Step 0) n) = Some (s, log) /\
  told 0 log = firstn m (map Some (skipn k items) ++ repeat None m) /\ n <= 5 * m + 4.
Proof.
  intros n. induction n as [n IH] using lt_wf_ind. intros k Hk. destruct (Nat.lt_ge_cases k (length items)) as [K|K].
  - destruct (Nat.lt_ge_cases n 5) as [L|L].
    + destruct (short_call k n) as [s Hs]; [lia|]. exists s, [], 0. split; [exact Hs|]. split; [reflexivity|lia].
    + destruct (nth_error items k) as [x|] eqn:E; [|apply nth_error_None in E; lia]. replace n with (5 + (n - 5)) by lia. rewrite repeat_app, acts_app, (one_call k x E).
      destruct (IH (n - 5)) with (k := S k) as (s & log & m & A & B & C); [lia|lia|]. rewrite A. exists s, ([(0, Some x)] ++ log), (S m). split; [reflexivity|]. split; [|lia].
      assert (E5 : skipn k items = x :: skipn (S k) items).
      { rewrite skipn_tl. clear - E. revert k E. induction items as [|y l IHl]; intros [|k] H; cbn in *; try discriminate; [congruence|apply IHl; exact H]. }
      rewrite E5. change (told 0 ([(0, Some x)] ++ log)) with (Some x :: told 0 log). rewrite B. cbn [map app firstn]. f_equal.
      rewrite !firstn_app. f_equal. rewrite map_length. set (q := m - length (skipn (S k) items)). assert (Q : q <= m) by (unfold q; lia). clearbody q.
      replace (S m) with (m + 1) by lia. rewrite (repeat_app None m 1), firstn_app, repeat_length. replace (q - m) with 0 by lia. rewrite app_nil_r. reflexivity.
  - destruct (Nat.lt_ge_cases n 3) as [L|L].
    + destruct (short_call k n) as [s Hs]; [lia|]. exists s, [], 0. split; [exact Hs|]. split; [reflexivity|lia].
    + replace n with (3 + (n - 3)) by lia. rewrite repeat_app, acts_app, last_call, after_end by exact K. exists (at_rest k true), ([(0, None)] ++ repeat (0, None) (n - 3)), (S (n - 3)).
      split; [reflexivity|]. split; [|lia]. rewrite skipn_all2 by exact K. cbn [map app].
      assert (T : forall q, told 0 (repeat (0, @None X) q) = repeat None q) by (induction q as [|q IHq]; [reflexivity|]; cbn; unfold told in IHq; rewrite IHq; reflexivity).
      change (told 0 ((0, None) :: repeat (0, None) (n - 3))) with (@None X :: told 0 (repeat (0, None) (n - 3))). rewrite T.
      change (None :: repeat None (n - 3)) with (repeat (@None X) (S (n - 3))). rewrite firstn_all2; [reflexivity|rewrite repeat_length; lia].
Qed.
End Proofs.

(** * The destination *)
Section Dest.
Context {X : Type}.
Definition opt (o : option X) : list X := match o with Some x => [x] | None => [] end.
Lemma rendered_app : forall a b : list (dest_action X), rendered (a ++ b) = rendered a ++ rendered b.
Proof. induction a as [|[x| | |] a IH]; intros b; cbn; rewrite ?IH; reflexivity. Qed.
Lemma steps_snoc : forall l (s : dest X) a, dest_steps s (l ++ [a]) = match dest_steps s l with Some s' => dest_step s' a | None => None end.
Proof. induction l as [|b l IH]; intros s a; cbn [app dest_steps]; [destruct (dest_step s a); reflexivity|]. destruct (dest_step s b); [apply IH|reflexivity]. Qed.

Record dinv (s : dest X) (r xs : list X) (m : nat) : Prop := {
  d_seq : d_got s = map Some xs ++ repeat None m;
  d_errors : m > 0 -> d_gone s = true /\ d_queue s = None;
  d_free : d_gone s = true -> d_emptied s = None;
  d_room : d_emptied s <> None -> d_queue s = None;
  d_parts : Permutation (xs ++ d_dropped s ++ opt (d_queue s) ++ opt (d_emptied s)) r;
  d_newest : forall y, d_queue s = Some y \/ d_emptied s = Some y -> exists r', r = r' ++ [y];
  d_order : exists ps, StronglySorted lt ps /\ Forall2 (fun k x => nth_error r k = Some x) ps xs /\ Forall (fun k => k + length (opt (d_queue s) ++ opt (d_emptied s)) < length r) ps
}.
Lemma f2_impl : forall {A B} (P Q : A -> B -> Prop) l m, (forall a b, P a b -> Q a b) -> Forall2 P l m -> Forall2 Q l m.
Proof. intros A B P Q l m H F. induction F; constructor; auto. Qed.
Lemma nth_snoc : forall (r : list X) k x y, nth_error r k = Some x -> nth_error (r ++ [y]) k = Some x.
Proof. intros r k x y H. rewrite nth_error_app1; [exact H|]. apply nth_error_Some. congruence. Qed.
Lemma sorted_last : forall ps n, StronglySorted lt ps -> Forall (fun k => k < n) ps -> StronglySorted lt (ps ++ [n]).
Proof. induction ps as [|p ps IH]; intros n S F; cbn; [repeat constructor|]. inversion S; inversion F; subst. constructor; [apply IH; assumption|]. apply Forall_app. split; [assumption|repeat constructor; assumption]. Qed.
Lemma dinv_step : forall s r xs m a s', dinv s r xs m -> dest_step s a = Some s' -> exists xs' m', dinv s' (r ++ rendered [a]) xs' m'.
Proof.
  intros [q e g got dr] r xs m a s' [A B C D E F G] H. cbn in A, B, C, D, E, F, G. destruct G as (ps & P1 & P2 & P3). destruct a as [x| | |]; cbn in H.
  - destruct g; [discriminate|]. destruct e; [discriminate|]. injection H as <-. exists xs, m. cbn [rendered app]. split; cbn.
    + exact A.
    + intros M. destruct (B M). discriminate.
    + discriminate.
    + reflexivity.
    + destruct q as [y|]; cbn in *.
      * replace (xs ++ (dr ++ [y]) ++ [x]) with ((xs ++ dr ++ [y]) ++ [x]) by (rewrite <- !app_assoc; reflexivity). apply Permutation_app_tail. exact E.
      * rewrite app_assoc. apply Permutation_app_tail. rewrite app_nil_r in E. exact E.
    + intros y [K|K]; [discriminate|]. injection K as <-. exists r. reflexivity.
    + exists ps. split; [exact P1|]. split; [eapply f2_impl; [|exact P2]; intros; apply nth_snoc; assumption|]. eapply Forall_impl; [|exact P3]. cbn. intros k K. rewrite app_length. cbn. lia.
  - destruct e as [x|]; [|discriminate]. destruct q; [discriminate|]. injection H as <-. exists xs, m. cbn [rendered]. rewrite app_nil_r. split; cbn in *; auto; try congruence.
    + intros M. destruct (B M) as [K _]. specialize (C K). discriminate.
    + intros y [Hy|Hy]; [|discriminate]. injection Hy as <-. apply F. right. reflexivity.
    + exists ps. auto.
  - destruct e; [discriminate|]. injection H as <-. exists xs, m. cbn [rendered]. rewrite app_nil_r. split; cbn in *; auto; try congruence.
    + intros M. split; [reflexivity|]. apply B. exact M.
    + exists ps. auto.
  - destruct q as [y|].
    + injection H as <-. exists (xs ++ [y]), 0. cbn [rendered]. rewrite app_nil_r. assert (m = 0) as -> by (destruct m; [reflexivity|]; destruct B as [_ K]; [lia|discriminate]).
      assert (He : e = None) by (destruct e; [|reflexivity]; discriminate (D ltac:(discriminate))). subst e. destruct (F y (or_introl eq_refl)) as [r' ->]. split; cbn in *.
      * rewrite A, map_app. cbn. rewrite !app_nil_r. reflexivity.
      * lia.
      * exact C.
      * congruence.
      * rewrite app_nil_r. rewrite <- E. rewrite <- !app_assoc. apply Permutation_app_head. apply Permutation_app_comm.
      * intros z [K|K]; discriminate.
      * exists (ps ++ [length r']). rewrite app_length in *. cbn in *. split; [|split].
        -- apply sorted_last; [exact P1|]. eapply Forall_impl; [|exact P3]. cbn. lia.
        -- apply Forall2_app; [exact P2|]. constructor; [|constructor]. rewrite nth_error_app2, Nat.sub_diag by lia. reflexivity.
        -- apply Forall_app. split; [eapply Forall_impl; [|exact P3]; cbn; lia|]. constructor; [lia|constructor].
    + destruct g; [|discriminate]. injection H as <-. exists xs, (S m). cbn [rendered]. rewrite app_nil_r. split; cbn in *; auto.
      * rewrite A, <- app_assoc. f_equal. symmetry. apply repeat_cons.
      * exists ps. auto.
Qed.
Lemma dinv_steps : forall (l : list (dest_action X)) s, dest_steps dest0 l = Some s -> exists xs m, dinv s (rendered l) xs m.
Proof.
  induction l as [|a l IH] using rev_ind; intros s H.
  - cbn in H. injection H as <-. exists [], 0. split; cbn; auto; try lia; try congruence; [intros y [K|K]; discriminate|]. exists []. repeat constructor.
  - rewrite steps_snoc in H. destruct (dest_steps dest0 l) as [s1|] eqn:E; [|discriminate]. destruct (IH s1 eq_refl) as (xs & m & I). rewrite rendered_app. eapply dinv_step; eassumption.
Qed.
Theorem dest_received : forall (l : list (dest_action X)) s, dest_steps dest0 l = Some s -> exists xs m, d_got s = map Some xs ++ repeat None m /\ (m > 0 -> d_gone s = true) /\
  each_once (rendered l) xs /\ Permutation (xs ++ d_dropped s ++ opt (d_queue s) ++ opt (d_emptied s)) (rendered l).
Proof.
  intros l s H. destruct (dinv_steps l s H) as (xs & m & I). exists xs, m. split; [apply (d_seq _ _ _ _ I)|]. split; [intros M; apply (d_errors _ _ _ _ I M)|]. split; [|apply (d_parts _ _ _ _ I)].
  destruct (d_order _ _ _ _ I) as (ps & A & B & _). exists ps. auto.
Qed.
Theorem dest_newest : forall (l : list (dest_action X)) s s' y, dest_steps dest0 l = Some s -> dest_step s Recv = Some s' -> d_got s' = d_got s ++ [Some y] -> exists r, rendered l = r ++ [y].
Proof.
  intros l s s' y H K E. destruct (dinv_steps l s H) as (xs & m & I). cbn in K. destruct (d_queue s) as [z|] eqn:Q.
  - injection K as <-. cbn in E. apply app_inv_head in E. injection E as ->. apply (d_newest _ _ _ _ I). left. exact Q.
  - destruct (d_gone s); [|discriminate]. injection K as <-. cbn in E. apply app_inv_head in E. discriminate.
Qed.
Theorem dest_never_waits : forall (l : list (dest_action X)) s, dest_steps dest0 l = Some s -> d_emptied s <> None -> exists s', dest_step s Send = Some s'.
Proof.
  intros l s H N. destruct (dinv_steps l s H) as (xs & m & I). cbn. destruct (d_emptied s) as [x|] eqn:E; [|congruence]. rewrite (d_room _ _ _ _ I) by congruence. eexists. reflexivity.
Qed.
Theorem dest_paced : forall (l : list (dest_action X)) s, paced false l -> dest_steps dest0 l = Some s -> d_dropped s = [] /\ exists n m, d_got s = map Some (firstn n (rendered l)) ++ repeat None m.
Proof.
  intros l s P H.
  assert (K : forall (l : list (dest_action X)) s0 s w, paced w l -> (w = false -> d_emptied s0 = None -> d_queue s0 = None) -> (d_emptied s0 <> None -> d_queue s0 = None) -> dest_steps s0 l = Some s -> d_dropped s = d_dropped s0).
  { clear. induction l as [|a l IH]; intros s0 s w P W R H; cbn in H; [injection H as <-; reflexivity|].
    destruct (dest_step s0 a) as [s1|] eqn:E; [|discriminate]. destruct s0 as [q e g got dr]. destruct a as [x| | |]; cbn in E, P, W, R.
    - destruct P as [-> P]. destruct g; [discriminate|]. destruct e; [discriminate|]. injection E as <-. rewrite (W eq_refl eq_refl) in *. refine (IH _ _ _ P _ _ H); cbn; auto; discriminate.
    - destruct e; [|discriminate]. destruct q; [discriminate|]. injection E as <-. refine (IH _ _ _ P _ _ H); cbn; auto; congruence.
    - destruct e; [discriminate|]. injection E as <-. refine (IH _ _ _ P _ _ H); cbn; auto.
    - destruct q; [|destruct g; [|discriminate]]; injection E as <-; refine (IH _ _ _ P _ _ H); cbn; auto. }
  assert (D : d_dropped s = []) by (apply (K l dest0 s false P); cbn; auto). split; [exact D|].
  clear P K. revert s H D. assert (G : forall s, dest_steps dest0 l = Some s -> d_dropped s = [] -> exists xs m, d_got s = map Some xs ++ repeat None m /\ rendered l = xs ++ opt (d_queue s) ++ opt (d_emptied s) /\ (m > 0 -> d_gone s = true) /\ (d_gone s = true -> d_emptied s = None)).
  { induction l as [|a l IH] using rev_ind; intros s H D.
    - cbn in H. injection H as <-. exists [], 0. cbn. repeat split; auto; try lia.
    - rewrite steps_snoc in H. destruct (dest_steps dest0 l) as [s1|] eqn:E; [|discriminate]. rewrite rendered_app.
      assert (D1 : d_dropped s1 = []). { destruct s1 as [q e g got dr]; cbn in *. destruct a as [x| | |]; cbn in H; [destruct g; [discriminate|]; destruct e; [discriminate|]; destruct q|destruct e; [|discriminate]; destruct q; [discriminate|]|destruct e; [discriminate|]|destruct q; [|destruct g; [|discriminate]]]; injection H as <-; cbn in D; auto. destruct dr; discriminate. }
      destruct (dinv_steps l s1 E) as (ys & my & J). destruct (IH s1 eq_refl D1) as (xs & m & A & B & C & F). rewrite B. pose proof (d_errors _ _ _ _ J) as Je. pose proof (d_seq _ _ _ _ J) as Js. pose proof (d_room _ _ _ _ J) as Jr.
      destruct s1 as [q e g got dr]; cbn in A, B, C, F, D1, Je, Js, Jr. subst dr. destruct a as [x| | |]; cbn in H; cbn [rendered].
      + destruct g; [discriminate|]; destruct e; [discriminate|]; destruct q; injection H as <-; cbn in *; [discriminate|]. exists xs, m. rewrite app_nil_r. repeat split; auto; discriminate.
      + destruct e; [|discriminate]; destruct q; [discriminate|]; injection H as <-; cbn in *. exists xs, m. rewrite app_nil_r. repeat split; auto.
      + destruct e; [discriminate|]; injection H as <-; cbn in *. exists xs, m. rewrite app_nil_r. repeat split; auto.
      + destruct q as [y|]; [|destruct g; [|discriminate]]; injection H as <-; cbn in *; rewrite !app_nil_r.
        * assert (He : e = None) by (destruct e; [|reflexivity]; discriminate (Jr ltac:(discriminate))). subst e.
          assert (m = 0) as ->. { destruct m as [|m]; [reflexivity|]. exfalso. destruct my as [|my]; [|destruct Je; [lia|discriminate]]. rewrite A in Js. cbn in Js. rewrite app_nil_r in Js.
            assert (In None (map (@Some X) ys)) as K by (rewrite <- Js; apply in_or_app; right; left; reflexivity). apply in_map_iff in K. destruct K as (? & K & _). discriminate. }
          exists (xs ++ [y]), 0. rewrite A, map_app. cbn. rewrite !app_nil_r. repeat split; auto; lia.
        * exists xs, (S m). rewrite A, <- app_assoc, <- repeat_cons. repeat split; auto. }
  intros s H D. destruct (G s H D) as (xs & m & A & B & _). exists (length xs), m. rewrite A, B, firstn_app, firstn_all, Nat.sub_diag. cbn. rewrite app_nil_r. reflexivity.
Qed.
End Dest.
