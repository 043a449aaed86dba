(** The values of an AudioParam stay in its nominal range. *)
From Coq Require Import List Arith Bool Lia Permutation.
From Verif Require Import Param_Model Param_Spec Param_TimelineProofs.
Import ListNotations.

Section Range.
Context {T V : Type}.
Variable P : @param_ops T V.
Variable RQ : nat.
Hypothesis RQ_pos : 0 < RQ.
Variable ok : T -> Prop.
Hypothesis TO : time_order P ok.
Hypothesis VO : value_order P.
Hypothesis to_nat_le : forall x n, t_to_nat P x n <= n.
Notation event := (@event T V).
Notation param := (@param T V).
Notation fin := (t_finite P).

Definition lite (e : event) : Prop :=
  fin (ev_time e) = true /\ (forall c, ev_cancel e = Some c -> fin c = true) /\
  (forall d, ev_duration e = Some d -> fin d = true /\ t_lt P (t_zero P) d = true).
Definition descr (p p' : param) : Prop := p_min p' = p_min p /\ p_max p' = p_max p /\ p_default p' = p_default p.
Definition keeps (p p' : param) : Prop := Forall lite (p_timeline p') /\ descr p p'.

Lemma descr_trans : forall p1 p2 p3, descr p1 p2 -> descr p2 p3 -> descr p1 p3.
Proof. unfold descr. intros p1 p2 p3 (A & B & C) (A' & B' & C'). repeat split; congruence. Qed.

(** ** Incoming events *)
Lemma bind_ok : forall A B (r : res A) (f : A -> res B) b, bind r f = Ok b -> exists a, r = Ok a /\ f a = Ok b.
Proof. intros A B [a| |] f b H; try discriminate. eauto. Qed.

Lemma insert_perm : forall e l, Permutation (e :: l) (insert_event P e l).
Proof.
  induction l as [|x l IH]; [reflexivity|]. cbn [insert_event]. destruct (t_le P _ _); [reflexivity|].
  eapply perm_trans; [apply perm_swap|]. constructor. exact IH.
Qed.
Lemma sort_perm : forall l, Permutation l (sort_events P l).
Proof.
  induction l as [|x l IH]; [reflexivity|]. change (sort_events P (x :: l)) with (insert_event P x (sort_events P l)).
  eapply perm_trans; [constructor; exact IH|apply insert_perm].
Qed.
Lemma sort_lite : forall l l', sort_timeline P l = Ok l' -> Forall lite l -> Forall lite l'.
Proof.
  intros l l' H F. unfold sort_timeline in H. destruct (_ || _); [|discriminate]. inversion H; subst.
  eapply Permutation_Forall; [apply sort_perm|exact F].
Qed.

Lemma filter_lite : forall f l, Forall lite l -> Forall lite (filter f l).
Proof. intros f l H. rewrite Forall_forall in *. intros x Hx. apply filter_In in Hx. apply H. tauto. Qed.

Lemma update_lite : forall i f l, (forall e, lite e -> lite (f e)) -> Forall lite l -> Forall lite (update i f l).
Proof.
  intros i f l Hf. revert i. induction l as [|e l IH]; intros i H; [destruct i; exact H|]. inversion H; subst.
  destruct i; cbn [update]; constructor; auto.
Qed.

Lemma cancel_lite : forall e t, fin t = true -> lite e -> lite (with_cancel e t).
Proof. intros e t Ht (A & B & C). split; [exact A|]. split; [|exact C]. cbn. intros c H. congruence. Qed.

Lemma call_lite : forall c e, call_event P c = Some e -> lite e.
Proof.
  intros c e H. destruct c; cbn [call_event] in H; unfold valid_time, simple in H.
  all: repeat match type of H with (if ?b then _ else _) = _ => let E := fresh "E" in destruct b eqn:E; try discriminate end.
  all: inversion H; subst; clear H.
  all: repeat match goal with A : _ && _ = true |- _ => apply andb_prop in A; destruct A end.
  all: unfold lite; cbn; repeat split; try assumption; try congruence; try discriminate; try (apply (to_zero P ok TO)).
  all: intros; congruence.
Qed.

Lemma handle_keeps : forall p e p', handle_incoming_event P p e = Ok p' -> lite e -> Forall lite (p_timeline p) -> keeps p p'.
Proof.
  intros p e p' H He F.
  assert (Sched : forall q, ev_type e = q -> q <> CancelScheduled -> q <> CancelAndHold ->
    (do _ <- curve_checks P p e;
      let p1 := if etype_eqb (ev_type e) SetValue then set_intrinsic p (ev_value e) else p in
      let implicit := simple SetValue (p_intrinsic p1) (t_zero P) in
      let l1 := if (match p_timeline p1, p_last p1 with [], None => true | _, _ => false end) && is_ramp (ev_type e)
                then [implicit] else p_timeline p1 in
      let l2 := if (match l1 with [] => true | _ => false end) && etype_eqb (ev_type e) SetTarget
                then [implicit] else l1 in
      do l3 <- sort_timeline P (l2 ++ [e]);
      Ok (set_timeline p1 l3)) = Ok p' -> keeps p p').
  { intros q _ _ _ H1. apply bind_ok in H1. destruct H1 as ([] & _ & H1). cbv zeta in H1. apply bind_ok in H1. destruct H1 as (l3 & H2 & H3).
    inversion H3; subst; clear H3.
    assert (Fi : forall v, Forall lite [simple SetValue v (t_zero P)]).
    { intro v. constructor; [|constructor]. repeat split; cbn; try discriminate. apply (to_zero P ok TO). }
    split.
    - cbn [set_timeline p_timeline]. eapply sort_lite; [exact H2|]. apply Forall_app. split; [|constructor; [exact He|constructor]].
      match goal with |- Forall lite (if ?b then _ else _) => destruct b; [apply Fi|] end.
      match goal with |- Forall lite (if ?b then _ else _) => destruct b; [apply Fi|] end.
      destruct (etype_eqb _ _); exact F.
    - destruct (etype_eqb _ _); repeat split; reflexivity. }
  unfold handle_incoming_event in H. destruct (ev_type e) eqn:Et; try (apply (Sched _ eq_refl); [discriminate|discriminate|exact H]).
  - unfold handle_cancel in H. apply bind_ok in H. destruct H as (p1 & H1 & H2). inversion H2; subst; clear H2.
    assert (K : keeps p p1).
    { destruct (p_timeline p) as [|cur l] eqn:El.
      - inversion H1; subst. split; [rewrite El; constructor|repeat split; reflexivity].
      - destruct (_ && _); [destruct (p_last p); [|discriminate]|]; inversion H1; subst; (split; [cbn; rewrite El; exact F|repeat split; reflexivity]). }
    destruct K as [K1 K2]. split; [apply filter_lite; exact K1|exact K2].
  - unfold handle_cancel_and_hold in H. apply bind_ok in H. destruct H as (l & H1 & H2). apply bind_ok in H2. destruct H2 as (l' & H2 & H3).
    inversion H3; subst; clear H3. split; [|repeat split; reflexivity]. cbn [set_timeline p_timeline]. apply filter_lite.
    pose proof (sort_lite _ _ H1 F) as Fl. unfold mark_cancelled in H2. destruct (neighbours _ _ _ _ _ _) as [e1 e2].
    assert (Ht : fin (ev_time e) = true) by exact (proj1 He).
    destruct e2 as [i|].
    + inversion H2; subst. apply update_lite; [|exact Fl]. intros x Hx. destruct (is_ramp (ev_type x)); [apply cancel_lite; assumption|exact Hx].
    + destruct e1 as [i|]; [|inversion H2; subst; exact Fl]. destruct (nth_error l i) as [x|]; [|discriminate].
      assert (U : Forall lite (update i (fun e0 => with_cancel e0 (ev_time e)) l)) by (apply update_lite; [intros; apply cancel_lite; assumption|exact Fl]).
      destruct (etype_eqb (ev_type x) SetTarget); [inversion H2; subst; exact U|].
      destruct (etype_eqb (ev_type x) SetValueCurve); [|inversion H2; subst; exact Fl].
      destruct (ev_duration x); [|discriminate]. destruct (t_le P _ _); inversion H2; subst; assumption.
Qed.

(** ** Blocks *)
Definition fits (p : param) (b : @block T) : Prop :=
  if b_arate b then length (p_buffer p) <= b_count b else length (p_buffer p) = 1.
Definition filled (p : param) (b : @block T) : Prop :=
  if b_arate b then length (p_buffer p) = b_count b else length (p_buffer p) = 1.
Definition nice (b : @block T) : Prop :=
  b_next b = t_fma P (b_dt b) (t_of_nat P (b_count b)) (b_time b) /\ block_ok P ok (b_time b) (b_dt b) (b_count b).

Lemma index_full : forall b t, nice b -> ok t -> t_le P (b_next b) t = true -> end_index P b t = b_count b.
Proof.
  intros [bt dt n a nx] t (E & (_ & _ & _ & B & _)) Ht H. cbn [b_time b_dt b_count b_next] in *. subst nx. apply B; assumption.
Qed.
Lemma index_le : forall b t, end_index P b t <= b_count b.
Proof. intros. apply to_nat_le. Qed.

Lemma extend_inv : forall (p : param) vs p', extend RQ p vs = Ok p' -> p' = set_buffer p (p_buffer p ++ vs).
Proof. intros p vs p' H. unfold extend in H. destruct (Nat.leb _ _); inversion H; reflexivity. Qed.

Lemma samples_len : forall n time dt f (vs : list V), samples P n time dt f = Ok vs -> length vs = n.
Proof.
  induction n as [|n IH]; intros t dt f vs H; cbn [samples] in H; [inversion H; reflexivity|].
  apply bind_ok in H. destruct H as (v & _ & H). apply bind_ok in H. destruct H as (vs' & H1 & H2). inversion H2; subst.
  cbn. f_equal. eapply IH. exact H1.
Qed.

Lemma sample_block_inv : forall (p : param) b t f p1, sample_block P RQ p b t f = Ok p1 -> fits p b ->
  p_timeline p1 = p_timeline p /\ p_arate p1 = p_arate p /\ descr p p1 /\ fits p1 b /\ (end_index P b t = b_count b -> filled p1 b).
Proof.
  intros p b t f p1 H R. unfold sample_block, fits, filled in *. destruct (b_arate b).
  2: { inversion H; subst. repeat split; intros; try assumption; reflexivity. }
  pose proof (index_le b t) as Hi. destruct (Nat.ltb _ _) eqn:E.
  - apply Nat.ltb_lt in E. apply bind_ok in H. destruct H as (vs & H1 & H). apply bind_ok in H. destruct H as (p2 & H2 & H).
    inversion H; subst; clear H. apply extend_inv in H2. subst p2. apply samples_len in H1.
    cbn [set_intrinsic set_buffer p_timeline p_buffer]. rewrite app_length. repeat split; lia.
  - apply Nat.ltb_ge in E. inversion H; subst. repeat split; try reflexivity; lia.
Qed.

Definition step_inv (p : param) (b : @block T) (r : param * bool) : Prop :=
  keeps p (fst r) /\ p_arate (fst r) = p_arate p /\ fits (fst r) b /\ (snd r = true -> filled (fst r) b).

Lemma fin_next : forall b, nice b -> fin (b_next b) = true.
Proof. intros b (-> & B). apply B. Qed.

Ltac split_step := unfold step_inv, keeps; cbn [fst snd set_intrinsic set_timeline set_last set_buffer p_timeline p_arate].

Lemma do_event_inv : forall p b r, do_event P RQ p b = Ok r -> nice b -> Forall lite (p_timeline p) -> fits p b -> step_inv p b r.
Proof.
  intros p b r H N F R. unfold do_event in H. destruct (p_timeline p) as [|e rest] eqn:E.
  { apply bind_ok in H. destruct H as (p1 & H1 & H2). inversion H2; subst; clear H2. destruct (b_arate b) eqn:Ea.
    - apply extend_inv in H1. subst p1. split_step. rewrite E. unfold fits, filled in *. rewrite Ea in *. cbn [p_buffer set_buffer].
      rewrite app_length, repeat_length. repeat split; try constructor; try reflexivity; lia.
    - inversion H1; subst. split_step. rewrite E. unfold fits, filled in *. rewrite Ea in *. repeat split; intros; try constructor; try reflexivity; assumption. }
  inversion F as [|? ? He Fr]; subst.
  assert (Ok_end : ok (match ev_cancel e with Some c => c | None => ev_time e end)).
  { apply (to_finite P ok TO). destruct (ev_cancel e) eqn:Ec; [apply (proj1 (proj2 He)); exact Ec|exact (proj1 He)]. }
  assert (Set_case : do_set_value P RQ p b e rest = Ok r -> step_inv p b r).
  { unfold do_set_value. set (t := if t_eq P _ _ then _ else _). intro H0. apply bind_ok in H0. destruct H0 as (p1 & H1 & H2).
    assert (Ht : ok t) by (unfold t; destruct (t_eq P _ _); [apply N|apply (to_finite P ok TO); exact (proj1 He)]).
    assert (K : p_timeline p1 = e :: rest /\ p_arate p1 = p_arate p /\ descr p p1 /\ fits p1 b /\ (end_index P b t = b_count b -> filled p1 b)).
    { pose proof (index_le b t) as Hi. destruct (b_arate b) eqn:Ea.
      - apply extend_inv in H1. subst p1. unfold fits, filled in *. rewrite Ea in *. cbn [set_buffer p_timeline p_buffer].
        rewrite app_length, repeat_length. repeat split; try assumption; lia.
      - inversion H1; subst. unfold fits, filled in *. rewrite Ea in *. repeat split; intros; try reflexivity; assumption. }
    destruct K as (K1 & K2 & K3 & K4 & K5). destruct (t_lt P (b_next b) t) eqn:L; inversion H2; subst; clear H2.
    - split_step. rewrite K1. repeat split; try apply K3; try assumption. intros _. apply K5. apply index_full; [exact N|exact Ht|].
      eapply lt_le; [exact TO|apply (to_finite P ok TO), fin_next; exact N|exact Ht|exact L].
    - split_step. repeat split; try apply K3; try assumption. discriminate. }
  destruct (ev_type e) eqn:Et; try discriminate; try (apply Set_case; exact H); clear Set_case.
  - unfold do_linear_ramp in H. destruct (p_last p) as [last|]; [|discriminate]. apply bind_ok in H. destruct H as (p1 & H1 & H2).
    apply sample_block_inv in H1; [|exact R]. destruct H1 as (K1 & K2 & K3 & K4 & K5). rewrite E in K1.
    destruct (t_le P (b_next b) _) eqn:L.
    + inversion H2; subst. split_step. rewrite K1. repeat split; try apply K3; try assumption. intros _. apply K5. apply index_full; assumption.
    + destruct (ev_cancel e); inversion H2; subst; split_step; (repeat split; try apply K3; try assumption; discriminate).
  - unfold do_exponential_ramp in H. destruct (p_last p) as [last|]; [|discriminate]. destruct (_ || _).
    + inversion H; subst. split_step. split; [split; [|repeat split; reflexivity]|split; [reflexivity|split; [exact R|discriminate]]].
      constructor; [|exact Fr]. repeat split; cbn; try discriminate. destruct (ev_cancel e) eqn:Ec; [apply (proj1 (proj2 He)); exact Ec|exact (proj1 He)].
    + apply bind_ok in H. destruct H as (p1 & H1 & H2).
      apply sample_block_inv in H1; [|exact R]. destruct H1 as (K1 & K2 & K3 & K4 & K5). rewrite E in K1.
      destruct (t_le P (b_next b) _) eqn:L.
      * inversion H2; subst. split_step. rewrite K1. repeat split; try apply K3; try assumption. intros _. apply K5. apply index_full; assumption.
      * destruct (ev_cancel e); inversion H2; subst; split_step; (repeat split; try apply K3; try assumption; discriminate).
  - unfold do_set_target in H.
    match type of H with (match ?x with (_, _) => _ end) = _ => assert (Q1 : snd x = false -> fst x = b_next b); [|destruct x as [end1 ended1]] end.
    { destruct rest as [|nxt rest']; [reflexivity|]. destruct (is_ramp _); [discriminate|]. destruct (t_lt P _ _); [discriminate|reflexivity]. }
    match type of H with (match ?x with (_, _) => _ end) = _ => assert (Q2 : snd x = false -> fst x = b_next b); [|destruct x as [en ended]] end.
    { destruct (ev_cancel e); [|exact Q1]. destruct (t_lt P _ _); [discriminate|exact Q1]. }
    destruct (p_last p) as [last|]; [|discriminate]. destruct (ev_constant e) as [c|]; [|discriminate].
    apply bind_ok in H. destruct H as (p1 & H1 & H2).
    apply sample_block_inv in H1; [|exact R]. destruct H1 as (K1 & K2 & K3 & K4 & K5). rewrite E in K1.
    destruct ended; cbn [negb] in H2.
    + inversion H2; subst. split_step. repeat split; try apply K3; try assumption. discriminate.
    + cbn [fst snd] in Q2. specialize (Q2 eq_refl). subst en.
      assert (Fl : filled p1 b).
      { apply K5. assert (On : ok (b_next b)) by (apply (to_finite P ok TO), fin_next; exact N).
        apply index_full; [exact N|exact On|]. eapply le_refl; eassumption. }
      cbv zeta in H2. destruct (v_lt P _ (v_snap P)).
      * inversion H2; subst. split_step. split; [split|].
        -- constructor; [|exact Fr]. repeat split; cbn; try discriminate. apply fin_next. exact N.
        -- destruct (v_eq P _ _); repeat split; apply K3.
        -- destruct (v_eq P _ _); unfold fits, filled in *; cbn [set_timeline set_buffer set_intrinsic p_buffer p_arate]; rewrite ?map_length; (split; [exact K2|split; [exact K4|intros _; exact Fl]]).
      * inversion H2; subst. split_step. rewrite K1. repeat split; try apply K3; try assumption. intros _. exact Fl.
  - unfold do_value_curve in H. destruct (ev_duration e) as [d|] eqn:Ed; [|discriminate]. destruct (ev_values e) as [vs|]; [|discriminate].
    apply bind_ok in H. destruct H as (p1 & H1 & H2).
    apply sample_block_inv in H1; [|exact R]. destruct H1 as (K1 & K2 & K3 & K4 & K5). rewrite E in K1.
    destruct (t_le P (b_next b) _) eqn:L.
    + apply bind_ok in H2. destruct H2 as (v & _ & H2). inversion H2; subst. split_step. rewrite K1.
      repeat split; try apply K3; try assumption. intros _. apply K5. apply index_full; [exact N| |exact L].
      destruct (ev_cancel e); [exact Ok_end|]. destruct He as (H3 & _ & H4). destruct (H4 d Ed) as [Hd1 Hd2]. apply (to_add P ok TO); assumption.
    + apply bind_ok in H2. destruct H2 as (v & _ & H2). inversion H2; subst. split_step. repeat split; try apply K3; try assumption. discriminate.
Qed.

Lemma do_events_inv : forall fuel p b p', do_events P RQ fuel p b = Ok p' -> nice b -> Forall lite (p_timeline p) -> fits p b ->
  keeps p p' /\ p_arate p' = p_arate p /\ filled p' b.
Proof.
  induction fuel as [|fuel IH]; intros p b p' H N F R; [discriminate|]. cbn [do_events] in H.
  apply bind_ok in H. destruct H as ([p1 stop] & H1 & H2). apply do_event_inv in H1; try assumption. destruct H1 as (K1 & K2 & K3 & K4).
  cbn [fst snd] in *. destruct stop.
  - inversion H2; subst. auto.
  - apply IH in H2; [|exact N|apply K1|exact K3]. destruct H2 as (J1 & J2 & J3). split; [split; [apply J1|]|split; [congruence|exact J3]].
    eapply descr_trans; [apply K1|apply J1].
Qed.

Lemma compute_inv : forall p t dt p', compute_buffer P RQ p t dt RQ = Ok p' -> block_ok P ok t dt RQ -> Forall lite (p_timeline p) ->
  keeps p p' /\ (length (p_buffer p') = 1 \/ p_arate p' = true /\ length (p_buffer p') = RQ).
Proof.
  intros p t dt p' H B F. unfold compute_buffer in H. apply bind_ok in H. destruct H as (cur & _ & H).
  apply bind_ok in H. destruct H as (p2 & H1 & H2).
  set (p1 := set_buffer (set_current p cur) []) in *.
  destruct (match p_timeline p1 with [] => true | e :: _ => if is_ramp (ev_type e) then false else t_le P (t_fma P dt (t_of_nat P RQ) t) (ev_time e) end) eqn:Ek.
  - rewrite orb_true_r in H1. apply extend_inv in H1. subst p2. inversion H2; subst. split; [split; [exact F|repeat split; reflexivity]|].
    left. reflexivity.
  - rewrite orb_false_r in H1.
    assert (K : p_timeline p2 = p_timeline p /\ descr p p2 /\ fits p2 (mk_block t dt RQ (p_arate p2) (t_fma P dt (t_of_nat P RQ) t))).
    { unfold fits. cbn [b_arate b_count]. destruct (p_arate p1) eqn:Ea; cbn [negb] in H1.
      - inversion H1; subst. rewrite Ea. repeat split; try reflexivity. cbn. lia.
      - apply extend_inv in H1. subst p2. cbn [set_buffer p_arate]. rewrite Ea. repeat split; reflexivity. }
    destruct K as (K1 & K2 & K3). apply do_events_inv in H2.
    + destruct H2 as ((J1 & J2) & J3 & J4). split; [split; [exact J1|eapply descr_trans; eassumption]|].
      unfold filled in J4. cbn [b_arate b_count] in J4. destruct (p_arate p2) eqn:Ea; [right; split; congruence|left; exact J4].
    + split; [reflexivity|exact B].
    + rewrite K1. exact F.
    + exact K3.
Qed.

(** ** The limiter *)
Lemma limit_in_range : forall p v, descriptor_ok P p -> in_range P p (limit P p v).
Proof.
  intros p v (Hd & Hl & Hh & H1 & H2 & H3 & _). apply (vo_nan P VO) in Hd. apply (vo_nan P VO) in Hl. apply (vo_nan P VO) in Hh.
  unfold limit, in_range. destruct (v_nan P v) eqn:E; [auto|].
  destruct (vo_max P VO v (p_min p) E Hl) as [A B]. destruct (vo_min P VO (v_max P v (p_min p)) (p_max p) A Hh) as [C D].
  split; [exact C|]. split; [|exact D]. apply (vo_keep P VO); assumption.
Qed.

Lemma mix_in_range : forall p input silent out, mix_to_output P p input silent = Ok out -> descriptor_ok P p -> length input = RQ ->
  (length (p_buffer p) = 1 \/ p_arate p = true /\ length (p_buffer p) = RQ) ->
  Forall (in_range P p) out /\ (length out = 1 \/ length out = RQ).
Proof.
  intros p input silent out H D Hi Hb. unfold mix_to_output in H. destruct (Nat.eqb (length (p_buffer p)) 1) eqn:E.
  - cbn [orb] in H. destruct (p_buffer p) as [|v l]; [discriminate|].
    destruct (silent || negb (p_arate p)).
    + destruct input; inversion H; subst. split; [|left; reflexivity]. constructor; [apply limit_in_range; exact D|constructor].
    + inversion H; subst. split; [|right; rewrite map_length; reflexivity]. apply Forall_forall. intros x Hx. apply in_map_iff in Hx.
      destruct Hx as (y & <- & _). apply limit_in_range. exact D.
  - apply Nat.eqb_neq in E. destruct Hb as [Hb|[Ha Hb]]; [congruence|]. rewrite Ha in H. cbn [orb negb] in H. inversion H; subst.
    rewrite skipn_all2 by lia. rewrite app_nil_r. split.
    + apply Forall_forall. intros x Hx. apply in_map_iff in Hx. destruct Hx as (y & <- & _). apply limit_in_range. exact D.
    + right. rewrite map_length, combine_length. lia.
Qed.

Definition quantum_ok (o : @pop T V) : Prop :=
  match o with Quantum time dt input _ => block_ok P ok time dt RQ /\ length input = RQ | _ => True end.

Lemma descriptor_keeps : forall p p', descr p p' -> descriptor_ok P p -> descriptor_ok P p'.
Proof. intros p p' (A & B & C) H. unfold descriptor_ok in *. rewrite A, B, C. exact H. Qed.
Lemma range_keeps : forall p p' v, descr p p' -> in_range P p' v -> in_range P p v.
Proof. intros p p' v (A & B & C) H. unfold in_range in *. rewrite A, B in H. exact H. Qed.

Lemma prun_in_range : forall os p p' outs, prun P RQ p os = Ok (p', outs) -> Forall lite (p_timeline p) -> descriptor_ok P p ->
  Forall quantum_ok os -> Forall (fun out => Forall (in_range P p) out /\ (length out = 1 \/ length out = RQ)) outs.
Proof.
  induction os as [|o os IH]; intros p p' outs H F D Q; cbn [prun] in H; [inversion H; constructor|].
  apply bind_ok in H. destruct H as ([p1 o1] & H1 & H2). apply bind_ok in H2. destruct H2 as ([p2 o2] & H2 & H3).
  cbn [fst snd] in *. inversion H3; subst; clear H3. inversion Q as [|? ? Qo Qos]; subst.
  assert (K : keeps p p1 /\ Forall (fun out => Forall (in_range P p) out /\ (length out = 1 \/ length out = RQ)) o1).
  { destruct o as [c|a|t dt input silent]; cbn [pstep quantum_ok] in *.
    - destruct (call_event P c) as [e|] eqn:E.
      + apply bind_ok in H1. destruct H1 as (q & H1 & H3). inversion H3; subst. split; [|constructor].
        eapply handle_keeps; [exact H1|eapply call_lite; exact E|exact F].
      + inversion H1; subst. split; [split; [exact F|repeat split; reflexivity]|constructor].
    - inversion H1; subst. split; [split; [exact F|repeat split; reflexivity]|constructor].
    - apply bind_ok in H1. destruct H1 as ([q out] & H1 & H3). inversion H3; subst; clear H3. cbn [fst snd].
      unfold process in H1. apply bind_ok in H1. destruct H1 as (q' & H1 & H3). apply bind_ok in H3. destruct H3 as (out' & H3 & H4).
      inversion H4; subst; clear H4. destruct Qo as [Qb Qi]. apply compute_inv in H1; try assumption. destruct H1 as (K1 & K2).
      split; [exact K1|]. constructor; [|constructor]. apply mix_in_range in H3; try assumption; [|eapply descriptor_keeps; [apply K1|exact D]].
      destruct H3 as [H3 H4]. split; [|exact H4]. eapply Forall_impl; [|exact H3]. intros v Hv. eapply range_keeps; [apply K1|exact Hv]. }
  destruct K as [[K1 K2] K3]. apply Forall_app. split; [exact K3|].
  apply IH in H2; [|exact K1|eapply descriptor_keeps; eassumption|exact Qos].
  eapply Forall_impl; [|exact H2]. intros out [H3 H4]. split; [|exact H4]. eapply Forall_impl; [|exact H3]. intros v Hv. eapply range_keeps; [exact K2|exact Hv].
Qed.

End Range.
