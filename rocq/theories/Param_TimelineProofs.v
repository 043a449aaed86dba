(** The timeline: sorting, insertion, cancellation. *)
From Coq Require Import List Arith Bool Sorted Lia.
From Verif Require Import Param_Model Param_Spec.
Import ListNotations.

Section Timeline.
Context {T V : Type}.
Variable P : @param_ops T V.
Variable ok : T -> Prop.
Hypothesis TO : time_order P ok.
Notation event := (@event T V).
Notation le := (t_le P).
Notation lt := (t_lt P).
Notation time := (@ev_time T V).

Definition times_ok (l : list event) : Prop := Forall (fun e => ok (time e)) l.

Lemma le_refl : forall x, ok x -> le x x = true.
Proof. intros x H. destruct (to_total P ok TO x x H H); assumption. Qed.

Lemma not_le_lt : forall x y, ok x -> ok y -> le x y = false -> lt y x = true.
Proof. intros x y Hx Hy H. rewrite (to_lt P ok TO) by assumption. rewrite H. reflexivity. Qed.

Lemma lt_le : forall x y, ok x -> ok y -> lt x y = true -> le x y = true.
Proof.
  intros x y Hx Hy H. rewrite (to_lt P ok TO) in H by assumption.
  destruct (to_total P ok TO x y Hx Hy) as [A|A]; [exact A|]. rewrite A in H. discriminate.
Qed.

Lemma not_lt_le : forall x y, ok x -> ok y -> lt x y = false -> le y x = true.
Proof. intros x y Hx Hy H. rewrite (to_lt P ok TO) in H by assumption. destruct (le y x); [reflexivity|discriminate]. Qed.

Lemma lt_not_le : forall x y, ok x -> ok y -> lt x y = true -> le y x = false.
Proof. intros x y Hx Hy H. rewrite (to_lt P ok TO) in H by assumption. destruct (le y x); [discriminate|reflexivity]. Qed.

Lemma le_not_lt : forall x y, ok x -> ok y -> le x y = true -> lt y x = false.
Proof. intros x y Hx Hy H. rewrite (to_lt P ok TO) by assumption. rewrite H. reflexivity. Qed.

Lemma lt_le_trans : forall x y z, ok x -> ok y -> ok z -> lt x y = true -> le y z = true -> lt x z = true.
Proof.
  intros x y z Hx Hy Hz H1 H2. rewrite (to_lt P ok TO) by assumption. apply negb_true_iff.
  destruct (le z x) eqn:E; [|reflexivity].
  assert (le y x = true) by (eapply (to_trans P ok TO); [| | |eassumption|eassumption]; assumption).
  rewrite (to_lt P ok TO) in H1 by assumption. rewrite H in H1. discriminate.
Qed.

Lemma le_lt_trans : forall x y z, ok x -> ok y -> ok z -> le x y = true -> lt y z = true -> lt x z = true.
Proof.
  intros x y z Hx Hy Hz H1 H2. rewrite (to_lt P ok TO) by assumption. apply negb_true_iff.
  destruct (le z x) eqn:E; [|reflexivity].
  assert (le z y = true) by (eapply (to_trans P ok TO); [| | |eassumption|eassumption]; assumption).
  rewrite (to_lt P ok TO) in H2 by assumption. rewrite H in H2. discriminate.
Qed.

(** ** Sorting *)
Lemma insert_head : forall e l, Forall (fun x => le (time e) (time x) = true) l -> insert_event P e l = e :: l.
Proof. intros e [|x l] H; [reflexivity|]. cbn [insert_event]. inversion H; subst. rewrite H2. reflexivity. Qed.

Lemma sort_sorted : forall l, time_sorted P l -> sort_events P l = l.
Proof.
  induction l as [|x l IH]; intro H; [reflexivity|]. inversion H; subst.
  change (insert_event P x (sort_events P l) = x :: l). rewrite IH by assumption. apply insert_head. assumption.
Qed.

Lemma sort_placed : forall l e, time_sorted P l -> times_ok l -> ok (time e) ->
  placed P e l (sort_events P (l ++ [e])).
Proof.
  induction l as [|x l IH]; intros e Hs Ho He.
  - exists [], []. repeat split; constructor.
  - inversion Hs as [|? ? Hs' Hx]; subst. inversion Ho as [|? ? Hox Ho']; subst.
    destruct (IH e Hs' Ho' He) as (l1 & l2 & E1 & E2 & F1 & F2).
    change (placed P e (x :: l) (insert_event P x (sort_events P (l ++ [e])))). rewrite E2.
    destruct l1 as [|y l1].
    + cbn [app] in *. subst l2. cbn [insert_event]. destruct (le (time x) (time e)) eqn:E.
      * exists [x], l. split; [reflexivity|]. split; [reflexivity|]. split; [repeat constructor; assumption|assumption].
      * rewrite insert_head by assumption. exists [], (x :: l). split; [reflexivity|]. split; [reflexivity|].
        split; [constructor|]. constructor; [|assumption]. apply not_le_lt; assumption.
    + cbn [app insert_event]. assert (Hxy : le (time x) (time y) = true).
      { subst l. inversion Hx; subst. assumption. }
      rewrite Hxy. exists (x :: y :: l1), l2. subst l. split; [reflexivity|]. split; [reflexivity|]. split; [|assumption].
      constructor; [|assumption]. inversion F1; subst.
      inversion Ho'; subst.
      eapply (to_trans P ok TO); [| | |exact Hxy|assumption]; assumption.
Qed.

Lemma sorted_app : forall l1 l2, time_sorted P (l1 ++ l2) <->
  time_sorted P l1 /\ time_sorted P l2 /\ (forall x y, In x l1 -> In y l2 -> le (time x) (time y) = true).
Proof.
  induction l1 as [|a l1 IH]; intro l2; cbn [app].
  - split; [intro H; split; [constructor|split; [assumption|intros x y []]]|intros (_ & H & _); exact H].
  - split.
    + intro H. inversion H as [|? ? H1 H2]; subst. apply IH in H1. destruct H1 as (A & B & C).
      apply Forall_app in H2. destruct H2 as [H2 H3]. split; [constructor; assumption|]. split; [assumption|].
      intros x y [->|Hx] Hy; [rewrite Forall_forall in H3; apply H3; assumption|apply C; assumption].
    + intros (A & B & C). inversion A; subst. constructor.
      * apply IH. split; [assumption|]. split; [assumption|]. intros; apply C; [right|]; assumption.
      * apply Forall_app. split; [assumption|]. apply Forall_forall. intros y Hy. apply C; [left; reflexivity|assumption].
Qed.

Lemma placed_sorted : forall e l l', placed P e l l' -> time_sorted P l -> times_ok l -> ok (time e) -> time_sorted P l'.
Proof.
  intros e l l' (l1 & l2 & -> & -> & F1 & F2) Hs Ho He. apply sorted_app in Hs. destruct Hs as (A & B & C).
  apply Forall_app in Ho. destruct Ho as [O1 O2].
  apply sorted_app. split; [assumption|]. split.
  - constructor; [assumption|]. rewrite Forall_forall in *. intros x Hx.
    apply lt_le; [assumption|apply O2; assumption|apply F2; assumption].
  - intros x y Hx [->|Hy]; [rewrite Forall_forall in F1; apply F1; assumption|apply C; assumption].
Qed.

Lemma sort_timeline_ok : forall l, times_ok l -> sort_timeline P l = Ok (sort_events P l).
Proof.
  intros l H. unfold sort_timeline. replace (forallb _ l) with true; [rewrite orb_true_r; reflexivity|].
  symmetry. apply forallb_forall. intros e He. apply le_refl. unfold times_ok in H. rewrite Forall_forall in H. apply H. exact He.
Qed.

(** ** Filtering a sorted list by time keeps a prefix *)
Lemma filter_prefix : forall (f : event -> bool) l,
  (forall x y, In x l -> In y l -> le (time x) (time y) = true -> f y = true -> f x = true) ->
  time_sorted P l ->
  exists l2, l = filter f l ++ l2 /\ Forall (fun e => f e = false) l2.
Proof.
  induction l as [|x l IH]; intros Hf Hs; [exists []; split; [reflexivity|constructor]|].
  inversion Hs as [|? ? Hs' Hx]; subst. cbn [filter]. destruct (f x) eqn:E.
  - destruct IH as (l2 & E2 & F); [intros; eapply Hf; [right|right| |]; eassumption|assumption|].
    exists l2. split; [cbn [app]; f_equal; exact E2|exact F].
  - assert (N : Forall (fun e => f e = false) l).
    { apply Forall_forall. intros y Hy. destruct (f y) eqn:Ey; [|reflexivity].
      rewrite Forall_forall in Hx. assert (f x = true); [|congruence].
      eapply Hf; [left; reflexivity|right; exact Hy|apply Hx; exact Hy|exact Ey]. }
    exists (x :: l). replace (filter f l) with (@nil event); [split; [reflexivity|constructor; assumption]|].
    symmetry. clear -N. induction N; [reflexivity|]. cbn [filter]. rewrite H. exact IHN.
Qed.

Lemma sorted_filter : forall (f : event -> bool) l, time_sorted P l -> time_sorted P (filter f l).
Proof.
  induction l as [|x l IH]; intro H; [exact H|]. inversion H as [|? ? H1 H2]; subst. cbn [filter].
  destruct (f x); [|apply IH; assumption]. constructor; [apply IH; assumption|].
  apply Forall_forall. intros y Hy. apply filter_In in Hy. rewrite Forall_forall in H2. apply H2. tauto.
Qed.

(** ** The neighbours of a time in a sorted list *)
Lemma neighbours_later : forall t l i e1 j t2, ok t -> times_ok l -> ok t2 -> lt t t2 = true ->
  Forall (fun x => le t2 (time x) = true) l ->
  neighbours P t i l e1 (Some (j, t2)) = (option_map fst e1, Some j).
Proof.
  intros t l. induction l as [|x l IH]; intros i e1 j t2 Ht Ho H2 Hlt HF; [reflexivity|].
  inversion Ho as [|? ? Hx Ho']; subst. inversion HF as [|? ? Hx2 HF']; subst. cbn [neighbours].
  assert (L : lt t (time x) = true) by (eapply lt_le_trans; [| | |exact Hlt|exact Hx2]; assumption).
  rewrite (lt_not_le t (time x)) by assumption. rewrite andb_false_r.
  rewrite (le_not_lt t2 (time x)) by assumption. cbn [andb]. apply IH; assumption.
Qed.

(** in a sorted list [l1 ++ l2], where exactly the events of [l1] are not after [t] *)
Lemma neighbours_spec : forall t l1 l2 i e1, ok t -> times_ok (l1 ++ l2) -> time_sorted P (l1 ++ l2) ->
  Forall (fun x => le (time x) t = true) l1 -> Forall (fun x => lt t (time x) = true) l2 ->
  (match e1 with None => True | Some (_, t1) => ok t1 /\ Forall (fun x => le t1 (time x) = true) (l1 ++ l2) end) ->
  neighbours P t i (l1 ++ l2) e1 None =
    (match l1 with [] => option_map fst e1 | _ => Some (i + length l1 - 1) end,
     match l2 with [] => None | _ => Some (i + length l1) end).
Proof.
  intros t l1. induction l1 as [|x l1 IH]; intros l2 i e1 Ht Ho Hs F1 F2 He.
  - cbn [app length]. rewrite Nat.add_0_r. destruct l2 as [|y l2]; [reflexivity|].
    cbn [app] in *. cbn [neighbours]. inversion F2 as [|? ? Hy F2']; subst. inversion Ho as [|? ? Hoy Ho']; subst.
    inversion Hs as [|? ? Hs' Hys]; subst.
    rewrite (lt_not_le t (time y)) by assumption. rewrite andb_false_r. rewrite Hy. cbn [andb].
    apply neighbours_later; assumption.
  - cbn [app] in *. inversion F1 as [|? ? Hx F1']; subst. inversion Ho as [|? ? Hox Ho']; subst. inversion Hs as [|? ? Hs' Hxs]; subst.
    cbn [neighbours].
    replace (match e1 with None => true | Some (_, t1) => le t1 (time x) end) with true.
    2: { destruct e1 as [[j t1]|]; [|reflexivity]. destruct He as [_ He]. inversion He; subst. symmetry. assumption. }
    rewrite Hx. cbn [andb].
    rewrite (IH l2 (S i) (Some (i, time x))) by (try assumption; split; assumption).
    cbn [option_map fst length]. f_equal; [|destruct l2; f_equal; lia].
    destruct l1; cbn [length]; f_equal; lia.
Qed.

Lemma update_app : forall (f : event -> event) l1 e l2, update (length l1) f (l1 ++ e :: l2) = l1 ++ f e :: l2.
Proof. induction l1; intros; [reflexivity|]. cbn [length app update]. rewrite IHl1. reflexivity. Qed.

Lemma split_at : forall t l, ok t -> times_ok l -> time_sorted P l ->
  exists l1 l2, l = l1 ++ l2 /\ Forall (fun x => le (time x) t = true) l1 /\ Forall (fun x => lt t (time x) = true) l2.
Proof.
  intros t l Ht Ho Hs.
  destruct (filter_prefix (fun e => le (time e) t) l) as (l2 & E & F).
  - intros x y Hx Hy Hxy Hyt. unfold times_ok in Ho. rewrite Forall_forall in Ho.
    eapply (to_trans P ok TO); [| | |exact Hxy|exact Hyt]; auto.
  - exact Hs.
  - exists (filter (fun e => le (time e) t) l), l2. split; [exact E|]. split.
    + apply Forall_forall. intros x Hx. apply filter_In in Hx. tauto.
    + rewrite Forall_forall in *. intros x Hx. apply not_le_lt; [|assumption|apply F; exact Hx].
      unfold times_ok in Ho. rewrite Forall_forall in Ho. apply Ho. rewrite E. apply in_or_app. right. exact Hx.
Qed.

End Timeline.
