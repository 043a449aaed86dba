(** The timeline stays in order, whatever happens. *)
From Coq Require Import List Arith Bool Sorted Permutation Lia.
From Verif Require Import Param_Model Param_Spec Param_TimelineProofs Param_RangeProofs Param_SafetyProofs.
Import ListNotations.

Section Order.
Context {T V : Type}.
Variable P : @param_ops T V.
Variable RQ : nat.
Hypothesis RQ_pos : 0 < RQ.
Variable ok : T -> Prop.
Hypothesis TO : time_order P ok.
Hypothesis to_nat_le : forall x n, t_to_nat P x n <= n.
Notation event := (@event T V).
Notation param := (@param T V).
Notation fin := (t_finite P).

(** the hold of a ramp is before its end *)
Definition ramp_mark (e : event) : Prop :=
  is_ramp (ev_type e) = true -> forall c, ev_cancel e = Some c -> t_le P c (ev_time e) = true.
Record tidy (p : param) : Prop := {
  ty_lite : Forall (lite P) (p_timeline p);
  ty_sorted : time_sorted P (p_timeline p);
  ty_mark : Forall ramp_mark (p_timeline p)
}.

Lemma lite_times : forall l, Forall (lite P) l -> times_ok ok l.
Proof. intros l H. eapply Forall_impl; [|exact H]. intros e (A & _). apply (to_finite P ok TO). exact A. Qed.

Lemma bindO : forall A B (r : res A) (f : A -> res B) b, bind r f = Ok b -> exists a, r = Ok a /\ f a = Ok b.
Proof. intros A B [a| |] f b H; try discriminate. eauto. Qed.

Lemma sort_result : forall l l', sort_timeline P l = Ok l' -> l' = sort_events P l.
Proof. intros l l' H. unfold sort_timeline in H. destruct (_ || _); inversion H; reflexivity. Qed.

Lemma update_time : forall i f l, (forall e, ev_time (f e) = ev_time e) -> time_sorted P l -> time_sorted P (update i f l).
Proof.
  intros i f l Hf. revert i. induction l as [|e l IH]; intros i H; [destruct i; exact H|]. inversion H as [|? ? H1 H2]; subst.
  destruct i; cbn [update]; constructor.
  - exact H1.
  - eapply Forall_impl; [|exact H2]. unfold in_order. intros a Ha. rewrite Hf. exact Ha.
  - apply IH. exact H1.
  - clear - Hf H2. revert i. induction l as [|x l IH]; intros i; [destruct i; constructor|]. inversion H2; subst.
    destruct i; cbn [update]; constructor; try assumption; [unfold in_order in *; rewrite Hf; assumption|apply IH; assumption].
Qed.
Lemma update_mark : forall i f l, (forall e, nth_error l i = Some e -> ramp_mark e -> ramp_mark (f e)) -> Forall ramp_mark l -> Forall ramp_mark (update i f l).
Proof.
  intros i f l. revert i. induction l as [|e l IH]; intros i Hf H; [destruct i; exact H|]. inversion H; subst.
  destruct i; cbn [update]; constructor; try assumption; [apply Hf; [reflexivity|assumption]|apply IH; assumption].
Qed.
Lemma filter_mark : forall f l, Forall ramp_mark l -> Forall ramp_mark (filter f l).
Proof. intros f l H. rewrite Forall_forall in *. intros x Hx. apply filter_In in Hx. apply H. tauto. Qed.

(** the event before which a hold takes place lies after it *)
Lemma neighbours_after : forall t l k e1 e2 i, snd (neighbours P t k l e1 e2) = Some i ->
  (exists tt, e2 = Some (i, tt)) \/ (k <= i /\ exists e, nth_error l (i - k) = Some e /\ t_lt P t (ev_time e) = true).
Proof.
  intros t l. induction l as [|q l IH]; intros k e1 e2 i H; cbn [neighbours] in H.
  - cbn in H. destruct e2 as [[j tt]|]; [|discriminate]. inversion H; subst. left. eauto.
  - assert (Sh : forall e, k <= i -> S k <= i -> nth_error l (i - S k) = Some e -> nth_error (q :: l) (i - k) = Some e).
    { intros e _ Hk He. replace (i - k) with (S (i - S k)) by lia. exact He. }
    destruct (_ && _).
    + apply IH in H. destruct H as [H|(H & e & H1 & H2)]; [left; exact H|right]. split; [lia|]. exists e. split; [apply Sh; (lia || assumption)|exact H2].
    + destruct (_ && t_lt P t (ev_time q)) eqn:E.
      * apply andb_prop in E. destruct E as [_ E]. apply IH in H. destruct H as [(tt & H)|(H & e & H1 & H2)].
        -- inversion H; subst. right. split; [lia|]. exists q. rewrite Nat.sub_diag. auto.
        -- right. split; [lia|]. exists e. split; [apply Sh; (lia || assumption)|exact H2].
      * apply IH in H. destruct H as [H|(H & e & H1 & H2)]; [left; exact H|right]. split; [lia|]. exists e. split; [apply Sh; (lia || assumption)|exact H2].
Qed.

(** scheduling, without any assumption on the call *)
Lemma schedule_placed : forall p e p', tidy p -> lite P e -> ev_cancel e = None ->
  ev_type e <> CancelScheduled -> ev_type e <> CancelAndHold -> handle_incoming_event P p e = Ok p' ->
  placed P e (with_implicit P p e) (p_timeline p') /\ tidy p'.
Proof.
  intros p e p' [F S M] He Ec N1 N2 H.
  assert (C : curve_checks P p e = Ok tt).
  { unfold handle_incoming_event in H. destruct (ev_type e); try congruence; apply bindO in H; destruct H as ([] & H & _); exact H. }
  rewrite schedule_eq in H by assumption. apply bindO in H. destruct H as (l & H1 & H2). apply sort_result in H1. inversion H2; subst; clear H2.
  assert (Wi : Forall (lite P) (with_implicit P p e) /\ time_sorted P (with_implicit P p e) /\ Forall ramp_mark (with_implicit P p e)).
  { unfold with_implicit. destruct (p_timeline p) eqn:El; [|auto].
    destruct (_ || _); [|auto]. split; [|split].
    - constructor; [|constructor]. repeat split; cbn; try discriminate. apply (to_zero P ok TO).
    - repeat constructor.
    - constructor; [|constructor]. intros H. discriminate. }
  destruct Wi as (W1 & W2 & W3).
  assert (Oe : ok (ev_time e)) by (apply (to_finite P ok TO); exact (proj1 He)).
  assert (Pl : placed P e (with_implicit P p e) (sort_events P (with_implicit P p e ++ [e]))) by (apply (sort_placed P ok TO); [exact W2|apply lite_times; exact W1|exact Oe]).
  split; [exact Pl|]. constructor; cbn [set_timeline p_timeline].
  - eapply Permutation_Forall; [apply sort_perm|]. apply Forall_app. split; [exact W1|constructor; [exact He|constructor]].
  - eapply (placed_sorted P ok TO); [exact Pl|exact W2|apply lite_times; exact W1|exact Oe].
  - eapply Permutation_Forall; [apply sort_perm|]. apply Forall_app. split; [exact W3|constructor; [|constructor]]. intros _ c Hc. congruence.
Qed.

Lemma cancel_result : forall p t p', handle_cancel P p t = Ok p' -> p_timeline p' = filter (fun e => t_lt P (ev_time e) t) (p_timeline p).
Proof.
  intros p t p' H. unfold handle_cancel in H. apply bindO in H. destruct H as (p1 & H1 & H2). inversion H2; subst; clear H2. cbn [set_timeline p_timeline].
  f_equal. destruct (p_timeline p) as [|cur l] eqn:El; [inversion H1; subst; exact El|].
  destruct (_ && _); [destruct (p_last p); [|discriminate]|]; inversion H1; subst; exact El.
Qed.

Lemma handle_tidy : forall p e p', tidy p -> lite P e -> ev_cancel e = None -> handle_incoming_event P p e = Ok p' -> tidy p'.
Proof.
  intros p e p' Ty He Ec H. assert (K : keeps P p p') by (eapply handle_keeps; [exact TO|exact H|exact He|apply Ty]). destruct K as [K _].
  destruct (etype_eqb (ev_type e) CancelScheduled) eqn:E1; [|destruct (etype_eqb (ev_type e) CancelAndHold) eqn:E2].
  - unfold handle_incoming_event in H. destruct (ev_type e); try discriminate. apply cancel_result in H. destruct Ty as [F S M].
    constructor; [exact K|rewrite H; apply sorted_filter; exact S|rewrite H; apply filter_mark; exact M].
  - unfold handle_incoming_event in H. destruct (ev_type e); try discriminate. destruct Ty as [F S M].
    unfold handle_cancel_and_hold in H. apply bindO in H. destruct H as (l & H1 & H2). apply bindO in H2. destruct H2 as (l' & H2 & H3).
    apply sort_result in H1. rewrite (sort_sorted P) in H1 by exact S. subst l. inversion H3; subst; clear H3.
    assert (L : time_sorted P l' /\ Forall ramp_mark l').
    { unfold mark_cancelled in H2. pose proof (neighbours_after (ev_time e) (p_timeline p) 0 None None) as Na.
      destruct (neighbours P (ev_time e) 0 (p_timeline p) None None) as [e1 e2]. cbn [snd] in Na. destruct e2 as [i|].
      - inversion H2; subst. split.
        + apply update_time; [|exact S]. intros x. destruct (is_ramp (ev_type x)); reflexivity.
        + apply update_mark; [|exact M]. intros x Hx Hm. destruct (is_ramp (ev_type x)) eqn:Er; [|exact Hm].
          intros _ c Hc. cbn in Hc. inversion Hc; subst. cbn.
          destruct (Na i eq_refl) as [(tt & Hn)|(_ & y & Hy & Hlt)]; [discriminate|]. rewrite Nat.sub_0_r in Hy. rewrite Hx in Hy. inversion Hy; subst.
          assert (Hin : In y (p_timeline p)) by (eapply nth_error_In; exact Hx).
          eapply (lt_le P ok TO); [apply (to_finite P ok TO); exact (proj1 He)| |exact Hlt].
          apply (to_finite P ok TO). rewrite Forall_forall in F. exact (proj1 (F y Hin)).
      - destruct e1 as [i|]; [|inversion H2; subst; auto]. destruct (nth_error (p_timeline p) i) as [x|] eqn:Ex; [|discriminate].
        assert (U : is_ramp (ev_type x) = false -> time_sorted P (update i (fun e0 => with_cancel e0 (ev_time e)) (p_timeline p)) /\
                    Forall ramp_mark (update i (fun e0 => with_cancel e0 (ev_time e)) (p_timeline p))).
        { intro Er. split; [apply update_time; [reflexivity|exact S]|]. apply update_mark; [|exact M]. intros y Hy _ Hr. cbn in Hr. congruence. }
        destruct (etype_eqb (ev_type x) SetTarget) eqn:E3; [inversion H2; subst; apply U; destruct (ev_type x); try discriminate; reflexivity|].
        destruct (etype_eqb (ev_type x) SetValueCurve) eqn:E4; [|inversion H2; subst; auto].
        destruct (ev_duration x); [|discriminate]. destruct (t_le P _ _); inversion H2; subst; [|auto]. apply U. destruct (ev_type x); try discriminate; reflexivity. }
    destruct L as [L1 L2]. constructor; [exact K|apply sorted_filter; exact L1|apply filter_mark; exact L2].
  - assert (N1 : ev_type e <> CancelScheduled) by (intro Q; rewrite Q in E1; discriminate).
    assert (N2 : ev_type e <> CancelAndHold) by (intro Q; rewrite Q in E2; discriminate).
    destruct (schedule_placed p e p' Ty He Ec N1 N2 H) as [_ Ht]. exact Ht.
Qed.

Lemma call_cancel : forall c e, call_event P c = Some e -> ev_cancel e = None.
Proof.
  intros c e H. destruct c; cbn [call_event] in H; unfold simple in H;
    repeat match type of H with (if ?b then _ else _) = _ => destruct b; try discriminate end; inversion H; reflexivity.
Qed.

(** ** Blocks: the front of the timeline is consumed *)
Lemma consumed_trans : forall (l1 l2 l3 : list event), consumed l1 l2 -> consumed l2 l3 -> consumed l1 l3.
Proof. intros l1 l2 l3 H. induction H; intro H'; [exact H'|apply C_drop; auto|eapply C_swap; eauto]. Qed.

Lemma do_event_order : forall p b r, do_event P RQ p b = Ok r -> nice P ok b -> tidy p -> fits p b ->
  consumed (p_timeline p) (p_timeline (fst r)) /\ time_sorted P (p_timeline (fst r)) /\ Forall ramp_mark (p_timeline (fst r)).
Proof.
  intros p b r H N [F S M] R. unfold do_event in H. destruct (p_timeline p) as [|e rest] eqn:E.
  { apply bindO in H. destruct H as (p1 & H1 & H2). inversion H2; subst; clear H2. cbn [fst].
    assert (K : p_timeline p1 = []). { destruct (b_arate b); [apply extend_inv in H1; subst p1; exact E|inversion H1; subst; exact E]. }
    rewrite K. split; [constructor|split; constructor]. }
  inversion F as [|? ? He Fr]; subst. inversion S as [|? ? Sr Se]; subst. inversion M as [|? ? Me Mr]; subst.
  assert (Drop : consumed (e :: rest) rest /\ time_sorted P rest /\ Forall ramp_mark rest) by (split; [apply C_drop, C_same|split; assumption]).
  assert (Stay : consumed (e :: rest) (e :: rest) /\ time_sorted P (e :: rest) /\ Forall ramp_mark (e :: rest)) by (split; [apply C_same|split; assumption]).
  assert (On : ok (b_next b)) by (apply (to_finite P ok TO); eapply fin_next; exact N).
  assert (Set_case : do_set_value P RQ p b e rest = Ok r ->
     consumed (e :: rest) (p_timeline (fst r)) /\ time_sorted P (p_timeline (fst r)) /\ Forall ramp_mark (p_timeline (fst r))).
  { unfold do_set_value. intro H0. apply bindO in H0. destruct H0 as (p1 & H1 & H2).
    assert (K : p_timeline p1 = e :: rest) by (destruct (b_arate b); [apply extend_inv in H1; subst p1; exact E|inversion H1; subst; exact E]).
    destruct (t_lt P (b_next b) _); inversion H2; subst; cbn [fst set_last set_timeline p_timeline]; [rewrite K; exact Stay|exact Drop]. }
  destruct (ev_type e) eqn:Et; try discriminate; try (apply Set_case; exact H); clear Set_case.
  - unfold do_linear_ramp in H. destruct (p_last p) as [last|]; [|discriminate]. apply bindO in H. destruct H as (p1 & H1 & H2).
    apply (sample_block_inv P RQ RQ_pos to_nat_le) in H1; [|exact R]. destruct H1 as (K1 & _). rewrite E in K1.
    destruct (t_le P (b_next b) _); [inversion H2; subst; cbn; rewrite K1; exact Stay|].
    destruct (ev_cancel e); inversion H2; subst; exact Drop.
  - unfold do_exponential_ramp in H. destruct (p_last p) as [last|]; [|discriminate]. destruct (_ || _).
    + inversion H; subst. cbn [fst set_timeline p_timeline]. split; [eapply C_swap; apply C_same|].
      assert (Le : ok (match ev_cancel e with Some c => c | None => ev_time e end) /\ t_le P (match ev_cancel e with Some c => c | None => ev_time e end) (ev_time e) = true).
      { destruct (ev_cancel e) as [c|] eqn:Ec.
        - split; [apply (to_finite P ok TO); apply (proj1 (proj2 He)); exact Ec|]. apply Me; [rewrite Et; reflexivity|exact Ec].
        - assert (Oe : ok (ev_time e)) by (apply (to_finite P ok TO); exact (proj1 He)). split; [exact Oe|apply (le_refl P ok TO); exact Oe]. }
      split; [|constructor; [intro Q; discriminate|exact Mr]]. constructor; [exact Sr|]. pose proof (lite_times _ Fr) as Ot. unfold times_ok in Ot.
      rewrite Forall_forall in *. intros x Hx. unfold in_order in *. cbn [simple ev_time].
      eapply (to_trans P ok TO); [exact (proj1 Le)| |apply Ot; exact Hx|exact (proj2 Le)|apply Se; exact Hx].
      apply (to_finite P ok TO). exact (proj1 He).
    + apply bindO in H. destruct H as (p1 & H1 & H2). apply (sample_block_inv P RQ RQ_pos to_nat_le) in H1; [|exact R]. destruct H1 as (K1 & _). rewrite E in K1.
      destruct (t_le P (b_next b) _); [inversion H2; subst; cbn; rewrite K1; exact Stay|].
      destruct (ev_cancel e); inversion H2; subst; exact Drop.
  - unfold do_set_target in H.
    match type of H with (match ?x with (_, _) => _ end) = _ => assert (Q1 : snd x = false -> Forall (fun y => t_le P (b_next b) (ev_time y) = true) rest); [|destruct x as [end1 ended1]] end.
    { destruct rest as [|nxt rest']; [constructor|]. destruct (is_ramp (ev_type nxt)); [discriminate|].
      pose proof (lite_times _ Fr) as Ot. inversion Ot as [|? ? On1 On2]; subst. inversion Sr as [|? ? Sr1 Sr2]; subst.
      destruct (t_lt P _ _) eqn:L; [discriminate|]. intros _. apply (not_lt_le P ok TO) in L; try assumption.
      constructor; [exact L|]. rewrite Forall_forall in *. intros y Hy. eapply (to_trans P ok TO); [exact On|exact On1|apply On2; exact Hy|exact L|apply Sr2; exact Hy]. }
    match type of H with (match ?x with (_, _) => _ end) = _ => assert (Q2 : snd x = false -> Forall (fun y => t_le P (b_next b) (ev_time y) = true) rest); [|destruct x as [en ended]] end.
    { destruct (ev_cancel e); [|exact Q1]. destruct (t_lt P _ _); [discriminate|exact Q1]. }
    destruct (p_last p) as [last|]; [|discriminate]. destruct (ev_constant e) as [c|]; [|discriminate].
    apply bindO in H. destruct H as (p1 & H1 & H2). apply (sample_block_inv P RQ RQ_pos to_nat_le) in H1; [|exact R]. destruct H1 as (K1 & _). rewrite E in K1.
    destruct ended; cbn [negb] in H2; [inversion H2; subst; exact Drop|]. cbv zeta in H2. destruct (v_lt P _ (v_snap P)).
    + inversion H2; subst. cbn [fst set_timeline p_timeline]. split; [eapply C_swap; apply C_same|]. split; [|constructor; [intro Q; discriminate|exact Mr]].
      constructor; [exact Sr|]. exact (Q2 eq_refl).
    + inversion H2; subst. cbn [fst set_intrinsic p_timeline]. rewrite K1. exact Stay.
  - unfold do_value_curve in H. destruct (ev_duration e) as [d|]; [|discriminate]. destruct (ev_values e) as [vs|]; [|discriminate].
    apply bindO in H. destruct H as (p1 & H1 & H2). apply (sample_block_inv P RQ RQ_pos to_nat_le) in H1; [|exact R]. destruct H1 as (K1 & _). rewrite E in K1.
    destruct (t_le P (b_next b) _); apply bindO in H2; destruct H2 as (v & _ & H2); inversion H2; subst; cbn [fst set_intrinsic set_last set_timeline p_timeline]; [rewrite K1; exact Stay|exact Drop].
Qed.

Lemma do_events_order : forall fuel p b p', do_events P RQ fuel p b = Ok p' -> nice P ok b -> tidy p -> fits p b ->
  consumed (p_timeline p) (p_timeline p') /\ tidy p'.
Proof.
  induction fuel as [|fuel IH]; intros p b p' H N Ty R; [discriminate|]. cbn [do_events] in H.
  apply bindO in H. destruct H as ([p1 stop] & H1 & H2). pose proof (do_event_order _ _ _ H1 N Ty R) as (C & S & M).
  apply (do_event_inv P RQ RQ_pos ok TO to_nat_le) in H1; try assumption; [|apply Ty]. destruct H1 as ((K1 & _) & _ & K3 & _).
  cbn [fst snd] in *. assert (Ty1 : tidy p1) by (constructor; assumption). destruct stop.
  - inversion H2; subst. auto.
  - destruct (IH _ _ _ H2 N Ty1 K3) as [C' Ty']. split; [eapply consumed_trans; eassumption|exact Ty'].
Qed.

Lemma compute_order : forall p t dt p', compute_buffer P RQ p t dt RQ = Ok p' -> block_ok P ok t dt RQ -> tidy p ->
  consumed (p_timeline p) (p_timeline p') /\ tidy p'.
Proof.
  intros p t dt p' H B Ty. unfold compute_buffer in H. apply bindO in H. destruct H as (cur & _ & H).
  apply bindO in H. destruct H as (p2 & H1 & H2). set (p1 := set_buffer (set_current p cur) []) in *.
  destruct (match p_timeline p1 with [] => true | e :: _ => if is_ramp (ev_type e) then false else t_le P (t_fma P dt (t_of_nat P RQ) t) (ev_time e) end) eqn:Ek.
  - rewrite orb_true_r in H1. apply extend_inv in H1. subst p2. inversion H2; subst. cbn. split; [constructor|]. destruct Ty. constructor; assumption.
  - rewrite orb_false_r in H1.
    assert (K : p_timeline p2 = p_timeline p /\ fits p2 (mk_block t dt RQ (p_arate p2) (t_fma P dt (t_of_nat P RQ) t))).
    { unfold fits. cbn [b_arate b_count]. destruct (p_arate p1) eqn:Ea; cbn [negb] in H1.
      - inversion H1; subst. rewrite Ea. split; [reflexivity|cbn; lia].
      - apply extend_inv in H1. subst p2. cbn [set_buffer p_arate]. rewrite Ea. split; reflexivity. }
    destruct K as (K1 & K2). apply do_events_order in H2.
    + rewrite K1 in H2. exact H2.
    + split; [reflexivity|exact B].
    + destruct Ty. constructor; rewrite K1; assumption.
    + exact K2.
Qed.

Lemma pstep_tidy : forall p o p' outs, pstep P RQ p o = Ok (p', outs) -> tidy p -> quantum_ok P RQ ok o -> tidy p'.
Proof.
  intros p o p' outs H Ty Q. destruct o as [c|a|t dt input silent]; cbn [pstep quantum_ok] in *.
  - destruct (call_event P c) as [e|] eqn:E; [|inversion H; subst; exact Ty].
    apply bindO in H. destruct H as (q & H1 & H2). inversion H2; subst. eapply handle_tidy; [exact Ty|eapply call_lite; [exact TO|exact E]|eapply call_cancel; exact E|exact H1].
  - inversion H; subst. destruct Ty. constructor; assumption.
  - apply bindO in H. destruct H as ([q out] & H1 & H2). inversion H2; subst. unfold process in H1. apply bindO in H1. destruct H1 as (q' & H1 & H3).
    apply bindO in H3. destruct H3 as (o & H3 & H4). inversion H4; subst. cbn [fst]. eapply compute_order; [exact H1|apply Q|exact Ty].
Qed.

Lemma prun_tidy : forall os p p' outs, prun P RQ p os = Ok (p', outs) -> tidy p -> Forall (quantum_ok P RQ ok) os -> tidy p'.
Proof.
  induction os as [|o os IH]; intros p p' outs H Ty Q; cbn [prun] in H; [inversion H; subst; exact Ty|].
  apply bindO in H. destruct H as ([p1 o1] & H1 & H2). apply bindO in H2. destruct H2 as ([p2 o2] & H2 & H3). inversion H3; subst. inversion Q; subst.
  eapply IH; [exact H2| |assumption]. eapply pstep_tidy; eassumption.
Qed.

Lemma new_tidy : forall a d lo hi, tidy (new_param a d lo hi).
Proof. intros. constructor; constructor. Qed.

(** ** A batch of calls: stable sorting *)
(** the events in the order of time, equal times in the order of the calls *)
Definition ordered_pair (a b : nat * event) : Prop :=
  t_lt P (ev_time (snd a)) (ev_time (snd b)) = true \/
  (t_le P (ev_time (snd a)) (ev_time (snd b)) = true /\ fst a < fst b).

Lemma insert_indexed : forall n l e tl', StronglySorted ordered_pair l -> Forall (fun a => fst a < n) l ->
  placed P e (map snd l) tl' -> exists l', map snd l' = tl' /\ Permutation ((n, e) :: l) l' /\ StronglySorted ordered_pair l'.
Proof.
  intros n l e tl' S Hn (l1 & l2 & E1 & -> & F1 & F2).
  assert (Sp : exists a1 a2, l = a1 ++ a2 /\ map snd a1 = l1 /\ map snd a2 = l2).
  { clear - E1. revert l1 E1. induction l as [|x l IH]; intros l1 E1; cbn in E1.
    - destruct l1; [|discriminate]. destruct l2; [|discriminate]. exists [], []. auto.
    - destruct l1 as [|y l1].
      + exists [], (x :: l). auto.
      + cbn in E1. inversion E1; subst. destruct (IH l1 H1) as (a1 & a2 & -> & <- & <-). exists (x :: a1), a2. auto. }
  destruct Sp as (a1 & a2 & -> & <- & <-). exists (a1 ++ (n, e) :: a2). split; [rewrite map_app; reflexivity|]. split; [apply Permutation_middle|].
  clear E1. induction a1 as [|x a1 IH]; cbn [app] in *.
  - constructor; [exact S|]. clear - F2. induction a2; constructor; inversion F2; subst; [left; assumption|apply IHa2; assumption].
  - inversion S as [|? ? S1 S2]; subst. inversion Hn as [|? ? Hx Hn']; subst. cbn [map] in F1. inversion F1 as [|? ? Fx F1']; subst.
    constructor; [apply IH; assumption|]. apply Forall_app in S2. destruct S2 as [S2 S3]. apply Forall_app. split; [exact S2|constructor; [|exact S3]].
    right. split; [exact Fx|exact Hx].
Qed.

Lemma indexed_sorted : forall tl k, time_sorted P tl -> StronglySorted ordered_pair (combine (seq k (length tl)) tl).
Proof.
  intros tl. induction tl as [|e tl IH]; intros k S; cbn; constructor; inversion S as [|? ? S1 S2]; subst; [apply IH; exact S1|].
  apply Forall_forall. intros [i x] Hx. pose proof (in_combine_l _ _ _ _ Hx) as Hi. pose proof (in_combine_r _ _ _ _ Hx) as Hr. apply in_seq in Hi.
  right. cbn. rewrite Forall_forall in S2. split; [apply S2; exact Hr|lia].
Qed.
Lemma indexed_snd : forall (tl : list event) k, map snd (combine (seq k (length tl)) tl) = tl.
Proof. induction tl as [|e tl IH]; intro k; cbn; [reflexivity|]. rewrite IH. reflexivity. Qed.
Lemma indexed_bound : forall (tl : list event) k, Forall (fun a => fst a < k + length tl) (combine (seq k (length tl)) tl).
Proof.
  intros tl k. apply Forall_forall. intros [i x] Hx. apply in_combine_l in Hx. apply in_seq in Hx. exact (proj2 Hx).
Qed.
Lemma indexed_app : forall (a b : list event) k,
  combine (seq k (length (a ++ b))) (a ++ b) = combine (seq k (length a)) a ++ combine (seq (k + length a) (length b)) b.
Proof.
  induction a as [|e a IH]; intros b k; cbn; [rewrite Nat.add_0_r; reflexivity|]. rewrite IH. replace (S k + length a) with (k + S (length a)) by lia. reflexivity.
Qed.

(** an event other than a cancellation *)
Definition adds (e : event) : Prop := ev_type e <> CancelScheduled /\ ev_type e <> CancelAndHold.

Lemma one_call : forall p c e p', tidy p -> call_event P c = Some e -> adds e -> pstep P RQ p (Schedule c) = Ok (p', []) ->
  placed P e (with_implicit P p e) (p_timeline p') /\ tidy p'.
Proof.
  intros p c e p' Ty Ec [N1 N2] H. cbn [pstep] in H. rewrite Ec in H. apply bindO in H. destruct H as (q & H1 & H2). inversion H2; subst.
  apply schedule_placed; try assumption; [eapply call_lite; [exact TO|exact Ec]|eapply call_cancel; exact Ec].
Qed.

Lemma batch_more : forall cs es p p' outs l n, tidy p -> p_timeline p <> [] -> map (call_event P) cs = map Some es -> Forall adds es ->
  prun P RQ p (map Schedule cs) = Ok (p', outs) ->
  map snd l = p_timeline p -> StronglySorted ordered_pair l -> Forall (fun a => fst a < n) l ->
  exists l', map snd l' = p_timeline p' /\ Permutation (l ++ combine (seq n (length es)) es) l' /\ StronglySorted ordered_pair l'.
Proof.
  induction cs as [|c cs IH]; intros [|e es] p p' outs l n Ty Ne Hm Ha H Hl Sl Bl; try discriminate; cbn [map prun] in *.
  - inversion H; subst. exists l. rewrite app_nil_r. auto.
  - inversion Hm as [[Hc Hm']]. inversion Ha as [|? ? He Ha']; subst. apply bindO in H. destruct H as ([p1 o1] & H1 & H2).
    apply bindO in H2. destruct H2 as ([p2 o2] & H2 & H3). inversion H3; subst; clear H3. cbn [fst snd] in *.
    assert (o1 = []) by (cbn [pstep] in H1; rewrite Hc in H1; apply bindO in H1; destruct H1 as (q & _ & H1); inversion H1; reflexivity). subst o1.
    destruct (one_call p c e p1 Ty Hc He H1) as [Pl Ty1].
    assert (W : with_implicit P p e = p_timeline p) by (unfold with_implicit; destruct (p_timeline p); [congruence|reflexivity]).
    rewrite W, <- Hl in Pl. destruct (insert_indexed n l e (p_timeline p1) Sl Bl Pl) as (l1 & L1 & L2 & L3).
    destruct (IH es p1 p' o2 l1 (S n) Ty1) as (l' & M1 & M2 & M3).
    + destruct Pl as (x & y & _ & -> & _). intro Q. apply app_eq_nil in Q. destruct Q; discriminate.
    + exact Hm'.
    + exact Ha'.
    + exact H2.
    + exact L1.
    + exact L3.
    + eapply Permutation_Forall; [exact L2|]. constructor; [cbn; lia|]. eapply Forall_impl; [|exact Bl]. cbn. intros; lia.
    + exists l'. split; [exact M1|]. split; [|exact M3]. eapply Permutation_trans; [|exact M2]. cbn [length seq combine].
      eapply Permutation_trans; [symmetry; apply Permutation_middle|]. change ((n, e) :: l ++ combine (seq (S n) (length es)) es) with (((n, e) :: l) ++ combine (seq (S n) (length es)) es).
      apply Permutation_app_tail. exact L2.
Qed.

(** After a batch of calls the timeline is the stable sort of what was there and the
    new events, preceded (on an empty timeline) by the set-value event a ramp or target starts from. *)
Lemma batch : forall cs es p p' outs, tidy p -> map (call_event P) cs = map Some es -> Forall adds es ->
  prun P RQ p (map Schedule cs) = Ok (p', outs) ->
  exists old l', (old = p_timeline p \/ (p_timeline p = [] /\ exists v, old = [simple SetValue v (t_zero P)])) /\
    Permutation (combine (seq 0 (length (old ++ es))) (old ++ es)) l' /\ StronglySorted ordered_pair l' /\ map snd l' = p_timeline p'.
Proof.
  intros cs es p p' outs Ty Hm Ha H. destruct cs as [|c cs], es as [|e es]; try discriminate; cbn [map prun] in *.
  - inversion H; subst. exists (p_timeline p'), (combine (seq 0 (length (p_timeline p'))) (p_timeline p')). rewrite app_nil_r.
    split; [left; reflexivity|]. split; [reflexivity|]. split; [apply indexed_sorted; apply Ty|apply indexed_snd].
  - inversion Hm as [[Hc Hm']]. inversion Ha as [|? ? He Ha']; subst. apply bindO in H. destruct H as ([p1 o1] & H1 & H2).
    apply bindO in H2. destruct H2 as ([p2 o2] & H2 & H3). inversion H3; subst; clear H3. cbn [fst snd] in *.
    assert (o1 = []) by (cbn [pstep] in H1; rewrite Hc in H1; apply bindO in H1; destruct H1 as (q & _ & H1); inversion H1; reflexivity). subst o1.
    destruct (one_call p c e p1 Ty Hc He H1) as [Pl Ty1]. set (old := with_implicit P p e) in *.
    assert (Ho : old = p_timeline p \/ (p_timeline p = [] /\ exists v, old = [simple SetValue v (t_zero P)])).
    { unfold old, with_implicit. destruct (p_timeline p); [|left; reflexivity]. destruct (_ || _); [right|left; reflexivity]. split; [reflexivity|eexists; reflexivity]. }
    assert (So : time_sorted P old) by (destruct Ho as [->|[_ (v & ->)]]; [apply Ty|repeat constructor]).
    rewrite <- (indexed_snd old 0) in Pl.
    destruct (insert_indexed (length old) _ e (p_timeline p1) (indexed_sorted old 0 So) (indexed_bound old 0) Pl) as (l1 & L1 & L2 & L3).
    destruct (batch_more cs es p1 p' o2 l1 (S (length old)) Ty1) as (l' & M1 & M2 & M3).
    + destruct Pl as (x & y & _ & -> & _). intro Q. apply app_eq_nil in Q. destruct Q; discriminate.
    + exact Hm'.
    + exact Ha'.
    + exact H2.
    + exact L1.
    + exact L3.
    + eapply Permutation_Forall; [exact L2|]. constructor; [cbn; lia|]. eapply Forall_impl; [|apply indexed_bound]. cbn. intros; lia.
    + exists old, l'. split; [exact Ho|]. split; [|split; [exact M3|exact M1]]. eapply Permutation_trans; [|exact M2]. rewrite indexed_app. cbn [length seq combine Nat.add].
      eapply Permutation_trans; [symmetry; apply Permutation_middle|]. apply (Permutation_app_tail (combine (seq (S (length old)) (length es)) es) L2).
Qed.
End Order.
