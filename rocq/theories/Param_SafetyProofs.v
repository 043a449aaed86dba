(** AudioParam never panics under legal use, and produces one value or one per frame. *)
From Coq Require Import List Arith Bool Sorted Lia.
From Verif Require Import Param_Model Param_Spec Param_TimelineProofs.
Import ListNotations.

Section Safety.
Context {T V : Type}.
Variable P : @param_ops T V.
Variable RQ : nat.
Hypothesis RQ_pos : 0 < RQ.
Variable ok : T -> Prop.
Hypothesis TO : time_order P ok.
Hypothesis to_nat_le : forall x n, t_to_nat P x n <= n.
Notation event := (@event T V).
Notation param := (@param T V).
Notation le := (t_le P).
Notation lt := (t_lt P).
Notation time := (@ev_time T V).
Notation fin := (t_finite P).

(** are there value curves, and do they index in range? *)
Variable curves : bool.
Hypothesis CR : curves = true -> curve_in_range P ok.

Record wf_event (e : event) : Prop := {
  wf_time : fin (time e) = true;
  wf_type : ev_type e <> CancelScheduled /\ ev_type e <> CancelAndHold;
  wf_constant : ev_type e = SetTarget -> exists c, ev_constant e = Some c;
  wf_curve : ev_type e = SetValueCurve -> exists d vs, ev_duration e = Some d /\ ev_values e = Some vs /\
      fin d = true /\ lt (t_zero P) d = true /\ 2 <= length vs /\ curves = true;
  wf_cancel : forall c, ev_cancel e = Some c -> fin c = true /\ (is_ramp (ev_type e) = true -> le c (time e) = true)
}.

Definition head_ok (p : param) : Prop :=
  p_last p = None -> match p_timeline p with [] => True | h :: _ => needs_predecessor h = false end.
Definition holds_ok (p : param) : Prop :=
  p_last p = None -> match p_timeline p with
                     | [] => True
                     | h :: _ => Forall (fun e => forall c, ev_cancel e = Some c -> le (time h) c = true) (p_timeline p)
                     end.

Record inv (p : param) : Prop := {
  i_sorted : time_sorted P (p_timeline p);
  i_wf : Forall wf_event (p_timeline p);
  i_head : head_ok p;
  i_holds : holds_ok p;
  i_clamp : forall x, v_clamp P x (p_min p) (p_max p) <> None
}.

Lemma fin_ok : forall x, fin x = true -> ok x.
Proof. apply (to_finite P ok TO). Qed.
Hint Resolve fin_ok : core.

Lemma wf_times : forall l, Forall wf_event l -> times_ok ok l.
Proof. intros l H. eapply Forall_impl; [|exact H]. intros e He. apply fin_ok. apply wf_time. exact He. Qed.

(** ** The events that calls send *)
Definition is_curve_call (c : @call T V) : bool := match c with C_curve _ _ _ => true | _ => false end.

Lemma call_event_wf : forall c e, call_event P c = Some e -> (is_curve_call c = true -> curves = true) ->
  (ev_type e = CancelScheduled \/ ev_type e = CancelAndHold \/ wf_event e) /\ fin (time e) = true /\ ev_cancel e = None /\
  le (t_zero P) (time e) = true.
Proof.
  assert (Z0 : le (t_zero P) (t_zero P) = true) by (eapply le_refl; [exact TO|]; apply fin_ok; apply (to_zero P ok TO)).
  intros c e H HC. destruct c; cbn [call_event] in H; unfold valid_time, simple in H.
  all: repeat match type of H with
       | (if ?b then _ else _) = _ => let E := fresh "E" in destruct b eqn:E; try discriminate
       end.
  all: inversion H; subst; clear H; cbn [ev_type ev_time ev_cancel].
  all: repeat match goal with
       | A : _ && _ = true |- _ => apply andb_prop in A; destruct A
       end.
  all: try (split; [|split; [first [assumption | apply (to_zero P ok TO)]|split; [reflexivity|assumption]]]).
  all: auto.
  all: right; right; constructor; cbn [ev_type ev_time ev_cancel ev_constant ev_duration ev_values];
       try assumption; try (split; discriminate); try discriminate; eauto.
  - apply (to_zero P ok TO).
  - intros _. exists d, vs. repeat split; try assumption; auto. apply Nat.leb_le. assumption.
Qed.

(** ** Marking events for cancelAndHold *)
Definition hold_mark (t : T) (e : event) : event := if is_ramp (ev_type e) then with_cancel e t else e.
Definition tail_mark (t : T) (e : event) : event :=
  if etype_eqb (ev_type e) SetTarget then with_cancel e t
  else if etype_eqb (ev_type e) SetValueCurve then
    match ev_duration e with Some d => if le t (t_add P (time e) d) then with_cancel e t else e | None => e end
  else e.
Fixpoint on_last (f : event -> event) (l : list event) : list event :=
  match l with [] => [] | [e] => [f e] | e :: l' => e :: on_last f l' end.

Lemma on_last_app : forall f l e, on_last f (l ++ [e]) = l ++ [f e].
Proof.
  induction l as [|x l IH]; intro e; [reflexivity|]. cbn [app on_last]. rewrite IH. destruct l; reflexivity.
Qed.

Lemma mark_spec : forall t l1 l2, ok t -> Forall wf_event (l1 ++ l2) -> time_sorted P (l1 ++ l2) ->
  Forall (fun x => le (time x) t = true) l1 -> Forall (fun x => lt t (time x) = true) l2 ->
  mark_cancelled P t (l1 ++ l2) =
    Ok (match l2 with
        | e :: l2' => l1 ++ hold_mark t e :: l2'
        | [] => on_last (tail_mark t) l1
        end).
Proof.
  intros t l1 l2 Ht Hw Hs F1 F2. unfold mark_cancelled.
  rewrite (neighbours_spec P ok TO t l1 l2 0 None Ht (wf_times _ Hw) Hs F1 F2 I).
  destruct l2 as [|e l2].
  - destruct l1 as [|x l1 _] using rev_ind; [reflexivity|].
    replace (match l1 ++ [x] with [] => option_map fst None | _ => Some (0 + length (l1 ++ [x]) - 1) end)
      with (Some (length l1)).
    2: { rewrite app_length. cbn [length]. replace (0 + (length l1 + 1) - 1) with (length l1) by lia. destruct l1; reflexivity. }
    rewrite app_nil_r. rewrite on_last_app. rewrite nth_error_app2 by lia. rewrite Nat.sub_diag. cbn [nth_error].
    unfold tail_mark. rewrite !update_app.
    destruct (etype_eqb (ev_type x) SetTarget) eqn:E1; [reflexivity|].
    destruct (etype_eqb (ev_type x) SetValueCurve) eqn:E2; [|reflexivity].
    rewrite app_nil_r in Hw. apply Forall_app in Hw. destruct Hw as [_ Hx]. inversion Hx as [|? ? Hx' _]; subst.
    destruct (wf_curve x Hx') as (d & vs & D & _); [destruct (ev_type x); try discriminate; reflexivity|].
    rewrite D. destruct (le t (t_add P (time x) d)); reflexivity.
  - cbn [Nat.add]. rewrite update_app. reflexivity.
Qed.

Definition held (t : T) (e : event) : bool := le (match ev_cancel e with Some c => c | None => time e end) t.

Lemma hold_mark_time : forall t e, time (hold_mark t e) = time e.
Proof. intros. unfold hold_mark. destruct (is_ramp (ev_type e)); reflexivity. Qed.
Lemma tail_mark_time : forall t e, time (tail_mark t e) = time e.
Proof.
  intros. unfold tail_mark. destruct (etype_eqb _ SetTarget); [reflexivity|]. destruct (etype_eqb _ SetValueCurve); [|reflexivity].
  destruct (ev_duration e); [|reflexivity]. destruct (le t _); reflexivity.
Qed.

Lemma with_cancel_wf : forall e t, wf_event e -> fin t = true -> (is_ramp (ev_type e) = true -> le t (time e) = true) -> wf_event (with_cancel e t).
Proof.
  intros e t [A B C D E] Ht Hr. constructor; cbn; try assumption.
  intros c H. inversion H; subst. auto.
Qed.

Lemma hold_mark_wf : forall t e, fin t = true -> wf_event e -> lt t (time e) = true -> wf_event (hold_mark t e).
Proof.
  intros t e Ht H Hlt. unfold hold_mark. destruct (is_ramp (ev_type e)); [|assumption].
  apply with_cancel_wf; try assumption. intros _. eapply lt_le; eauto. apply fin_ok. apply wf_time. exact H.
Qed.

Lemma tail_mark_wf : forall t e, fin t = true -> wf_event e -> wf_event (tail_mark t e).
Proof.
  intros t e Ht H. unfold tail_mark. destruct (etype_eqb (ev_type e) SetTarget) eqn:E1.
  - apply with_cancel_wf; try assumption. destruct (ev_type e); discriminate.
  - destruct (etype_eqb (ev_type e) SetValueCurve) eqn:E2; [|assumption]. destruct (ev_duration e); [|assumption].
    destruct (le t _); [|assumption]. apply with_cancel_wf; try assumption. destruct (ev_type e); discriminate.
Qed.

Lemma sorted_same_times : forall l l', map time l = map time l' -> time_sorted P l -> time_sorted P l'.
Proof.
  induction l as [|x l IH]; intros [|y l'] E H; try discriminate; [constructor|].
  cbn [map] in E. inversion E as [[E1 E2]]. inversion H as [|? ? H1 H2]; subst. constructor; [apply IH; assumption|].
  apply Forall_forall. intros z Hz. unfold in_order. rewrite <- E1.
  apply (in_map time) in Hz. rewrite <- E2 in Hz. apply in_map_iff in Hz. destruct Hz as (w & E3 & Hw). rewrite <- E3.
  rewrite Forall_forall in H2. apply H2. exact Hw.
Qed.


Lemma filter_none : forall (f : event -> bool) l, Forall (fun e => f e = false) l -> filter f l = [].
Proof. intros f l H. induction H; [reflexivity|]. cbn [filter]. rewrite H. exact IHForall. Qed.

Definition marked (t : T) (l1 l2 : list event) : list event :=
  match l2 with e :: l2' => l1 ++ hold_mark t e :: l2' | [] => on_last (tail_mark t) l1 end.

Lemma marked_head : forall t h l1 l2, exists h' l', marked t (h :: l1) l2 = h' :: l' /\ (h' = h \/ h' = tail_mark t h).
Proof.
  intros t h l1 l2. unfold marked. destruct l2 as [|e l2].
  - destruct l1 as [|x l1]; cbn [on_last]; eauto.
  - cbn [app]. eauto.
Qed.

Lemma tail_mark_cases : forall t e, tail_mark t e = e \/ tail_mark t e = with_cancel e t.
Proof.
  intros. unfold tail_mark. destruct (etype_eqb _ SetTarget); [auto|]. destruct (etype_eqb _ SetValueCurve); [|auto].
  destruct (ev_duration e); [|auto]. destruct (le t _); auto.
Qed.

Lemma marked_in : forall t l1 l2 x, In x (marked t l1 l2) ->
  In x (l1 ++ l2) \/ (ev_cancel x = Some t /\ exists y, In y (l1 ++ l2) /\ time x = time y /\ ev_type x = ev_type y /\
    (In y l1 \/ (exists l2', l2 = y :: l2' /\ is_ramp (ev_type y) = true))).
Proof.
  intros t l1 l2 x H. unfold marked in H. destruct l2 as [|e l2].
  - rewrite app_nil_r in *. destruct l1 as [|y l1 _] using rev_ind; [contradiction|]. rewrite on_last_app in H.
    apply in_app_or in H. destruct H as [H|[<-|[]]]; [left; apply in_or_app; left; exact H|].
    destruct (tail_mark_cases t y) as [->| ->]; [left; apply in_or_app; right; left; reflexivity|].
    right. split; [reflexivity|]. exists y. repeat split; try (left); apply in_or_app; right; left; reflexivity.
  - apply in_app_or in H. destruct H as [H|[<-|H]]; [left; apply in_or_app; left; exact H| |left; apply in_or_app; right; right; exact H].
    unfold hold_mark. destruct (is_ramp (ev_type e)) eqn:E; [|left; apply in_or_app; right; left; reflexivity].
    right. split; [reflexivity|]. exists e. repeat split; [apply in_or_app; right; left; reflexivity|]. right. eauto.
Qed.

Lemma kept_head : forall t l1 l2, fin t = true -> Forall wf_event (l1 ++ l2) ->
  Forall (fun e => forall c, ev_cancel e = Some c -> le c t = true) (l1 ++ l2) ->
  Forall (fun x => le (time x) t = true) l1 -> Forall (fun x => lt t (time x) = true) l2 ->
  match l1 ++ l2 with [] => True | h :: _ => needs_predecessor h = false end ->
  match l1 ++ l2 with [] => True | h :: _ => Forall (fun e => forall c, ev_cancel e = Some c -> le (time h) c = true) (l1 ++ l2) end ->
  filter (held t) (marked t l1 l2) = [] \/
  exists h l1' h' r, l1 = h :: l1' /\ filter (held t) (marked t l1 l2) = h' :: r /\ ev_type h' = ev_type h /\ time h' = time h.
Proof.
  intros t l1 l2 Ht Hw Ho F1 F2 Hh Hk. destruct l1 as [|h l1].
  - left. cbn [app] in *. apply filter_none. destruct l2 as [|e l2]; [constructor|].
    unfold marked. cbn [app].
    assert (M : hold_mark t e = e).
    { unfold hold_mark. unfold needs_predecessor in Hh. apply orb_false_iff in Hh. rewrite (proj1 Hh). reflexivity. }
    rewrite M. apply Forall_forall. intros x Hx. unfold held. destruct (ev_cancel x) as [c|] eqn:Ec.
    + rewrite Forall_forall in Hk. specialize (Hk x Hx c Ec). inversion F2 as [|? ? Fe _]; subst.
      rewrite Forall_forall in Hw. destruct (wf_cancel x (Hw x Hx) c Ec) as [Hfc _].
      assert (We : wf_event e) by (apply Hw; left; reflexivity).
      eapply lt_not_le; eauto. eapply lt_le_trans; [exact TO| | | |exact Fe|exact Hk]; auto. apply fin_ok, wf_time, We.
    + rewrite Forall_forall in F2, Hw. eapply lt_not_le; eauto. apply fin_ok, wf_time, Hw; assumption.
  - right. destruct (marked_head t h l1 l2) as (h' & l' & E & Hc). rewrite E. cbn [app] in *.
    inversion Ho as [|? ? Hoh _]; subst. inversion F1 as [|? ? Fh _]; subst.
    assert (Kh : held t h' = true /\ ev_type h' = ev_type h /\ time h' = time h).
    { destruct Hc as [->| ->].
      - split; [|split; reflexivity]. unfold held. destruct (ev_cancel h) eqn:Ec; [apply Hoh; reflexivity|exact Fh].
      - destruct (tail_mark_cases t h) as [->| ->].
        + split; [|split; reflexivity]. unfold held. destruct (ev_cancel h) eqn:Ec; [apply Hoh; reflexivity|exact Fh].
        + split; [|split; reflexivity]. unfold held. cbn [with_cancel ev_cancel]. eapply le_refl; eauto. }
    destruct Kh as (Kh & Kt & Km). exists h, l1, h', (filter (held t) l'). cbn [filter]. rewrite Kh. auto.
Qed.

Lemma hold_inv : forall p t, inv p -> fin t = true -> holds_in_order P p t -> exists p', handle_cancel_and_hold P p t = Ok p' /\ inv p' /\
  p_buffer p' = p_buffer p /\ p_min p' = p_min p /\ p_max p' = p_max p /\ p_default p' = p_default p.
Proof.
  intros p t [Hs Hw Hh Hk Hc] Ht Ho. unfold handle_cancel_and_hold.
  rewrite (sort_timeline_ok P ok TO) by (apply wf_times; assumption). rewrite sort_sorted by assumption. cbn [bind].
  unfold holds_in_order in Ho.
  destruct (split_at P ok TO t (p_timeline p)) as (l1 & l2 & E & F1 & F2); [auto|apply wf_times; assumption|assumption|].
  rewrite E in *. rewrite (mark_spec t l1 l2) by auto. cbn [bind]. eexists. split; [reflexivity|].
  split; [|repeat split; reflexivity].
  change (match l2 with e :: l2' => l1 ++ hold_mark t e :: l2' | [] => on_last (tail_mark t) l1 end) with (marked t l1 l2). remember (marked t l1 l2) as l' eqn:El.
  assert (Times : map time (l1 ++ l2) = map time l').
  { subst l'. unfold marked. destruct l2 as [|e l2].
    - rewrite app_nil_r. destruct l1 as [|x l1 _] using rev_ind; [reflexivity|]. rewrite on_last_app, !map_app.
      cbn [map]. rewrite tail_mark_time. reflexivity.
    - rewrite !map_app. cbn [map]. rewrite hold_mark_time. reflexivity. }
  assert (Wf : Forall wf_event l').
  { subst l'. unfold marked. destruct l2 as [|e l2].
    - rewrite app_nil_r in Hw. destruct l1 as [|x l1 _] using rev_ind; [constructor|]. rewrite on_last_app.
      apply Forall_app in Hw. destruct Hw as [A B]. inversion B; subst. apply Forall_app. split; [assumption|].
      constructor; [|constructor]. apply tail_mark_wf; assumption.
    - apply Forall_app in Hw. destruct Hw as [A B]. inversion B; subst. inversion F2; subst.
      apply Forall_app. split; [assumption|]. constructor; [|assumption]. apply hold_mark_wf; assumption. }
  constructor; cbn [set_timeline p_timeline p_min p_max].
  - apply sorted_filter. eapply sorted_same_times; [exact Times|exact Hs].
  - apply Forall_forall. intros e He. apply filter_In in He. rewrite Forall_forall in Wf. apply Wf. tauto.
  - intro Hl. specialize (Hh Hl). specialize (Hk Hl). rewrite E in Hh, Hk.
    cbn [set_timeline p_timeline p_last] in *. change (filter (fun e : event => le (match ev_cancel e with Some c => c | None => time e end) t) l') with (filter (held t) l').
    destruct (kept_head t l1 l2 Ht Hw Ho F1 F2 Hh Hk) as [N|(h & l1' & h' & r & E1 & E2 & E3 & E4)].
    + subst l'. rewrite N. exact I.
    + subst l'. rewrite E2. rewrite E1 in Hh. cbn [app] in Hh. unfold needs_predecessor in *. rewrite E3. exact Hh.
  - intro Hl. specialize (Hh Hl). specialize (Hk Hl). rewrite E in Hh, Hk.
    cbn [set_timeline p_timeline p_last] in *. change (filter (fun e : event => le (match ev_cancel e with Some c => c | None => time e end) t) l') with (filter (held t) l').
    destruct (kept_head t l1 l2 Ht Hw Ho F1 F2 Hh Hk) as [N|(h & l1' & h' & r & E1 & E2 & E3 & E4)].
    + subst l'. rewrite N. exact I.
    + subst l'. rewrite E2. rewrite <- E2. apply Forall_forall. intros x Hx c Hc'. rewrite E4.
      apply filter_In in Hx. destruct Hx as [Hx _]. apply marked_in in Hx. rewrite E1 in Hk. cbn [app] in Hk.
      destruct Hx as [Hx|[Hx _]].
      * rewrite Forall_forall in Hk. apply (Hk x); [rewrite E1 in Hx; exact Hx|exact Hc'].
      * rewrite Hx in Hc'. inversion Hc'; subst. inversion F1; subst. assumption.
  - exact Hc.
Qed.

Definition same_descriptor (p p' : param) : Prop :=
  p_min p' = p_min p /\ p_max p' = p_max p /\ p_default p' = p_default p /\ p_arate p' = p_arate p.

Lemma cancel_inv : forall p t, inv p -> fin t = true -> exists p', handle_cancel P p t = Ok p' /\ inv p' /\
  p_timeline p' = filter (fun e => lt (time e) t) (p_timeline p) /\ p_last p' = p_last p /\
  p_buffer p' = p_buffer p /\ same_descriptor p p'.
Proof.
  intros p t [Hs Hw Hh Hk Hc] Ht. unfold handle_cancel.
  assert (Hr : exists p1, (match p_timeline p with
    | [] => Ok p
    | cur :: _ =>
        if is_ramp (ev_type cur) && le t (time cur)
        then match p_last p with None => Panic | Some last => Ok (set_intrinsic p (ev_value last)) end
        else Ok p
    end) = Ok p1 /\ p_timeline p1 = p_timeline p /\ p_last p1 = p_last p /\ p_buffer p1 = p_buffer p /\ same_descriptor p p1).
  { assert (Hp : exists p1 : param, Ok p = Ok p1 /\ p_timeline p1 = p_timeline p /\ p_last p1 = p_last p /\ p_buffer p1 = p_buffer p /\ same_descriptor p p1)
      by (exists p; repeat split; reflexivity).
    destruct (p_timeline p) as [|cur l] eqn:E; [exact Hp|]. rewrite <- E in *. clear Hs Hw.
    destruct (is_ramp (ev_type cur)) eqn:Er; [|exact Hp]. destruct (le t (time cur)); [|exact Hp]. cbn [andb].
    destruct (p_last p) as [last|] eqn:El.
    - eexists. split; [reflexivity|]. repeat split; cbn; try assumption; reflexivity.
    - specialize (Hh El). rewrite E in Hh. unfold needs_predecessor in Hh. rewrite Er in Hh. discriminate. }
  destruct Hr as (p1 & -> & E1 & E2 & E3 & D). cbn [bind]. eexists. split; [reflexivity|]. rewrite E1.
  assert (L : forall x, In x (p_timeline p) -> ok (time x)).
  { intros x Hx. rewrite Forall_forall in Hw. apply fin_ok, wf_time, Hw, Hx. }
  destruct (filter_prefix P (fun e => lt (time e) t) (p_timeline p)) as (l2 & E & F).
  { intros x y Hx Hy Hxy Hyt. eapply le_lt_trans; [exact TO| | | |exact Hxy|exact Hyt]; auto. }
  { exact Hs. }
  split; [|cbn; repeat split; try assumption; apply D].
  constructor; cbn [set_timeline p_timeline p_min p_max].
  - apply sorted_filter. exact Hs.
  - apply Forall_forall. intros e He. apply filter_In in He. rewrite Forall_forall in Hw. apply Hw. tauto.
  - intro Hl. cbn [set_timeline p_timeline p_last] in *. rewrite E2 in Hl. specialize (Hh Hl). rewrite E in Hh.
    destruct (filter _ _); [exact I|]. exact Hh.
  - intro Hl. cbn [set_timeline p_timeline p_last] in *. rewrite E2 in Hl. specialize (Hk Hl). rewrite E in Hk.
    destruct (filter _ _); [exact I|]. cbn [app] in Hk.
    change (Forall (fun e0 : event => forall c : T, ev_cancel e0 = Some c -> le (time e) c = true) ((e :: l) ++ l2)) in Hk.
    apply Forall_app in Hk. tauto.
  - destruct D as (-> & -> & _). exact Hc.
Qed.

(** the timeline after the implicit event *)
Definition with_implicit (p : param) (e : event) : list event :=
  let v := if etype_eqb (ev_type e) SetValue then ev_value e else p_intrinsic p in
  match p_timeline p with
  | [] => if (match p_last p with None => is_ramp (ev_type e) | _ => false end) || etype_eqb (ev_type e) SetTarget
          then [simple SetValue v (t_zero P)] else []
  | l => l
  end.

Lemma schedule_eq : forall p e, ev_type e <> CancelScheduled -> ev_type e <> CancelAndHold ->
  curve_checks P p e = Ok tt ->
  handle_incoming_event P p e =
    do l <- sort_timeline P (with_implicit p e ++ [e]);
    Ok (set_timeline (if etype_eqb (ev_type e) SetValue then set_intrinsic p (ev_value e) else p) l).
Proof.
  intros p e H1 H2 Hc. unfold handle_incoming_event. rewrite Hc. unfold with_implicit. cbn [bind].
  destruct (ev_type e) eqn:Et; try congruence; cbn [etype_eqb is_ramp orb].
  all: destruct (p_timeline p) eqn:El, (p_last p) eqn:Ep; cbn; rewrite ?El, ?Ep; reflexivity.
Qed.

Lemma schedule_inv : forall p e, inv p -> wf_event e -> ev_cancel e = None -> le (t_zero P) (time e) = true ->
  has_predecessor P p e -> no_overlap P p e ->
  exists p', handle_incoming_event P p e = Ok p' /\ inv p' /\ placed P e (with_implicit p e) (p_timeline p') /\
    p_last p' = p_last p /\ p_buffer p' = p_buffer p /\ same_descriptor p p'.
Proof.
  intros p e [Hs Hw Hh Hk Hc] We Ec Ez Hp Hn.
  assert (W : Forall wf_event (with_implicit p e) /\ time_sorted P (with_implicit p e)).
  { unfold with_implicit. destruct (p_timeline p) eqn:El; [|split; [assumption|assumption]].
    destruct ((match p_last p with None => is_ramp (ev_type e) | _ => false end) || etype_eqb (ev_type e) SetTarget);
      split; try constructor; try constructor; try constructor; cbn; try discriminate; try (split; discriminate).
    apply (to_zero P ok TO). }
  destruct W as [W1 W2].
  rewrite schedule_eq; [|apply (wf_type e We)|apply (wf_type e We)|exact Hn].
  assert (Oe : ok (time e)) by (apply fin_ok, wf_time, We).
  pose proof (sort_placed P ok TO (with_implicit p e) e W2 (wf_times _ W1) Oe) as Pl.
  rewrite (sort_timeline_ok P ok TO).
  2: { apply Forall_app. split; [apply wf_times; exact W1|constructor; [exact Oe|constructor]]. }
  cbn [bind]. eexists. split; [reflexivity|]. cbn [set_timeline p_timeline].
  split; [|split; [exact Pl|destruct (etype_eqb _ _); repeat split; reflexivity]].
  pose proof Pl as (l1 & l2 & E1 & E2 & F1 & F2).
  assert (Hl0 : p_last (if etype_eqb (ev_type e) SetValue then set_intrinsic p (ev_value e) else p) = p_last p)
    by (destruct (etype_eqb _ _); reflexivity).
  constructor; cbn [set_timeline p_timeline p_min p_max].
  - eapply placed_sorted; [exact TO|exact Pl|exact W2|apply wf_times; exact W1|exact Oe].
  - rewrite E2. rewrite E1 in W1. apply Forall_app in W1. apply Forall_app. split; [tauto|constructor; tauto].
  - intro Hl. cbn [set_timeline p_timeline p_last] in *. rewrite Hl0 in Hl. rewrite E2.
    destruct l1 as [|h l1]; cbn [app].
    + destruct (needs_predecessor e) eqn:En; [|reflexivity]. exfalso. cbn [app] in E1.
      unfold with_implicit in E1. rewrite Hl in E1. unfold needs_predecessor in En. destruct (p_timeline p) as [|h l] eqn:El.
      * rewrite En in E1. subst l2. inversion F2 as [|? ? F _]; subst. cbn [simple ev_time] in F.
        rewrite (le_not_lt P ok TO) in F; [discriminate| | |exact Ez]; [apply fin_ok, (to_zero P ok TO)|exact Oe].
      * subst l2. specialize (Hp En Hl). rewrite El in Hp. inversion F2 as [|? ? F _]; subst.
        inversion Hw; subst. rewrite (le_not_lt P ok TO) in F; [discriminate| | |exact Hp]; [apply fin_ok, wf_time; assumption|exact Oe].
    + specialize (Hh Hl). unfold with_implicit in E1. rewrite Hl in E1. destruct (p_timeline p) as [|h0 l0] eqn:El.
      * destruct (is_ramp (ev_type e) || etype_eqb (ev_type e) SetTarget); [|discriminate]. inversion E1; subst. reflexivity.
      * inversion E1; subst. exact Hh.
  - intro Hl. cbn [set_timeline p_timeline p_last] in *. rewrite Hl0 in Hl. rewrite E2. specialize (Hk Hl).
    assert (K1 : match l1 ++ l2 with [] => True | h :: _ => Forall (fun e => forall c, ev_cancel e = Some c -> le (time h) c = true) (l1 ++ l2) end).
    { rewrite <- E1. unfold with_implicit. rewrite Hl. destruct (p_timeline p) eqn:El; [|exact Hk].
      destruct (is_ramp (ev_type e) || etype_eqb (ev_type e) SetTarget); [|exact I]. constructor; [|constructor]. discriminate. }
    destruct l1 as [|h l1]; cbn [app] in *.
    + constructor; [congruence|]. destruct l2 as [|h l2]; [constructor|].
      inversion F2 as [|? ? F _]; subst. rewrite E1 in W1. inversion W1; subst.
      eapply Forall_impl with (P := fun e0 => wf_event e0 /\ (forall c, ev_cancel e0 = Some c -> le (time h) c = true)).
      2: { rewrite Forall_forall in *. intros x Hx. split; [apply W1; exact Hx|apply K1; exact Hx]. }
      intros x [Wx Hx] c Hcx. eapply (to_trans P ok TO); [| | |eapply lt_le; [exact TO| | |exact F]|apply Hx; exact Hcx]; auto;
        try (apply fin_ok; apply wf_time; assumption). apply fin_ok. apply (wf_cancel x Wx c Hcx).
    + inversion K1 as [|? ? K1h K1t]; subst. apply Forall_app in K1t. constructor; [exact K1h|]. apply Forall_app. split; [tauto|].
      constructor; [congruence|tauto].
  - destruct (etype_eqb _ _); exact Hc.
Qed.

(** ** One iteration of the loop *)
Definition weight (e : event) : nat := if etype_eqb (ev_type e) ExponentialRamp then 2 else 1.
Definition measure (p : param) : nat := fold_right (fun e n => weight e + n) 0 (p_timeline p).

Lemma measure_le : forall p, measure p <= 2 * length (p_timeline p).
Proof.
  intro p. unfold measure. induction (p_timeline p) as [|e l IH]; [cbn; lia|]. cbn [fold_right length].
  unfold weight at 1. destruct (etype_eqb _ _); lia.
Qed.

(** the loop's view of the buffer *)
Definition room (p : param) (b : @block T) : Prop :=
  if b_arate b then length (p_buffer p) <= b_count b else length (p_buffer p) = 1.
Definition full (p : param) (b : @block T) : Prop :=
  if b_arate b then length (p_buffer p) = b_count b else length (p_buffer p) = 1.

Definition good_block (b : @block T) : Prop :=
  b_count b <= RQ /\ b_next b = t_fma P (b_dt b) (t_of_nat P (b_count b)) (b_time b) /\ block_ok P ok (b_time b) (b_dt b) (b_count b).

Lemma next_fin : forall b, good_block b -> fin (b_next b) = true.
Proof. intros b (_ & -> & B). apply B. Qed.

Lemma full_index : forall b t, good_block b -> ok t -> le (b_next b) t = true -> end_index P b t = b_count b.
Proof.
  intros [bt dt n a nx] t (_ & E & (_ & _ & _ & B & _)) Ht H. cbn [b_time b_dt b_count b_next] in *. subst nx. apply B; assumption.
Qed.

Lemma extend_ok : forall (p : param) vs, length (p_buffer p) + length vs <= RQ -> extend RQ p vs = Ok (set_buffer p (p_buffer p ++ vs)).
Proof. intros p vs H. unfold extend. apply Nat.leb_le in H. rewrite H. reflexivity. Qed.

Lemma samples_ok : forall n time dt (f : T -> res V), (forall k, k < n -> exists v, f (Nat.iter k (fun t => t_add P t dt) time) = Ok v) ->
  exists vs, samples P n time dt f = Ok vs /\ length vs = n.
Proof.
  induction n as [|n IH]; intros t dt f H; [exists []; split; reflexivity|].
  cbn [samples]. destruct (H 0) as [v Hv]; [lia|]. cbn [Nat.iter] in Hv. change (Nat.iter 0 _ t) with t in Hv. rewrite Hv. cbn [bind].
  destruct (IH (t_add P t dt) dt f) as (vs & -> & L).
  - intros k Hk. destruct (H (S k)) as [w Hw]; [lia|]. exists w. rewrite <- Hw. f_equal.
    clear. induction k as [|k IH]; [reflexivity|]. change (Nat.iter (S k) ?g ?x) with (g (Nat.iter k g x)). cbv beta. rewrite IH. reflexivity.
  - cbn [bind]. eexists. split; [reflexivity|]. cbn. lia.
Qed.

Lemma sample_block_ok : forall p b t f, good_block b -> room p b ->
  (forall x, ok x -> exists v, f x = Ok v) ->
  exists p1, sample_block P RQ p b t f = Ok p1 /\ p_timeline p1 = p_timeline p /\ p_last p1 = p_last p /\ same_descriptor p p1 /\
    room p1 b /\ p_current p1 = p_current p /\ (end_index P b t = b_count b -> full p1 b).
Proof.
  intros p b t f G R Hf. unfold sample_block, room, full in *. destruct (b_arate b).
  2: { exists p. repeat split; intros; try assumption; reflexivity. }
  pose proof (to_nat_le (t_round P (t_div P (t_max P (t_sub P t (b_time b)) (t_zero P)) (b_dt b))) (b_count b)) as Hi.
  fold (end_index P b t) in Hi. destruct G as (Hc & _ & (_ & _ & _ & _ & Hs)).
  destruct (Nat.ltb (length (p_buffer p)) (end_index P b t)) eqn:E.
  - apply Nat.ltb_lt in E.
    destruct (samples_ok (end_index P b t - length (p_buffer p)) (t_fma P (t_of_nat P (length (p_buffer p))) (b_dt b) (b_time b)) (b_dt b) f) as (vs & -> & L).
    { intros k _. apply Hf. apply Hs. lia. }
    cbn [bind]. rewrite extend_ok by lia. cbn [bind]. eexists. split; [reflexivity|]. cbn [set_intrinsic set_buffer p_timeline p_last p_buffer p_current].
    rewrite app_length. repeat split; try reflexivity; lia.
  - apply Nat.ltb_ge in E. exists p. repeat split; try assumption; try reflexivity. lia.
Qed.

Definition step_ok (p : param) (b : @block T) (r : param * bool) : Prop :=
  let '(p', stop) := r in
  inv p' /\ room p' b /\ same_descriptor p p' /\
  (stop = true -> full p' b) /\ (stop = false -> measure p' < measure p).

Lemma inv_pop : forall p p1 e rest last, inv p -> p_timeline p = e :: rest -> same_descriptor p p1 ->
  inv (set_last (set_timeline p1 rest) (Some last)).
Proof.
  intros p p1 e rest last [Hs Hw Hh Hk Hc] E (D1 & D2 & _). rewrite E in *. inversion Hs; subst. inversion Hw; subst.
  constructor; cbn; try assumption; try discriminate. rewrite D1, D2. exact Hc.
Qed.

Lemma inv_same : forall p p1, inv p -> p_timeline p1 = p_timeline p -> p_last p1 = p_last p -> same_descriptor p p1 -> inv p1.
Proof.
  intros p p1 [Hs Hw Hh Hk Hc] E1 E2 (D1 & D2 & _). constructor; unfold head_ok, holds_ok; rewrite ?E1, ?E2, ?D1, ?D2; assumption.
Qed.

Lemma inv_replace : forall p p1 e rest e', inv p -> p_timeline p = e :: rest -> same_descriptor p p1 -> p_last p1 = p_last p ->
  p_last p <> None -> wf_event e' -> Forall (in_order P e') rest -> inv (set_timeline p1 (e' :: rest)).
Proof.
  intros p p1 e rest e' [Hs Hw Hh Hk Hc] E (D1 & D2 & _) El Hl We Ho. rewrite E in *. inversion Hs; subst. inversion Hw; subst.
  constructor; cbn [set_timeline p_timeline p_min p_max].
  - constructor; assumption.
  - constructor; assumption.
  - intro H. cbn [set_timeline p_last] in H. congruence.
  - intro H. cbn [set_timeline p_last] in H. congruence.
  - rewrite D1, D2. exact Hc.
Qed.

Lemma same_refl : forall p, same_descriptor p p.
Proof. intro p. repeat split; reflexivity. Qed.

Lemma do_set_value_ok : forall p b e rest, inv p -> good_block b -> room p b -> p_timeline p = e :: rest ->
  exists r, do_set_value P RQ p b e rest = Ok r /\ step_ok p b r.
Proof.
  intros p b e rest I G R E. unfold do_set_value.
  set (t := if t_eq P (time e) (t_zero P) then b_time b else time e).
  pose proof (i_wf p I) as W. rewrite E in W. inversion W as [|? ? We W']; subst.
  assert (Ht : ok t).
  { unfold t. destruct (t_eq P _ _); [apply G|apply fin_ok, wf_time; exact We]. }
  pose proof (to_nat_le (t_round P (t_div P (t_max P (t_sub P t (b_time b)) (t_zero P)) (b_dt b))) (b_count b)) as Hi.
  fold (end_index P b t) in Hi.
  assert (H1 : exists p1, (if b_arate b then extend RQ p (repeat (p_intrinsic p) (end_index P b t - length (p_buffer p))) else Ok p) = Ok p1
     /\ p_timeline p1 = p_timeline p /\ p_last p1 = p_last p /\ same_descriptor p p1 /\ room p1 b /\ (end_index P b t = b_count b -> full p1 b)).
  { unfold room, full in *. destruct (b_arate b).
    - rewrite extend_ok by (rewrite repeat_length; destruct G as [Hc _]; lia). eexists. split; [reflexivity|].
      cbn [set_buffer p_timeline p_last p_buffer]. rewrite app_length, repeat_length. repeat split; try reflexivity; lia.
    - exists p. repeat split; intros; try reflexivity; assumption. }
  destruct H1 as (p1 & -> & E1 & E2 & D & R1 & F1). cbn [bind].
  destruct (lt (b_next b) t) eqn:L.
  - eexists. split; [reflexivity|]. unfold step_ok. split; [eapply inv_same; eassumption|]. split; [assumption|]. split; [assumption|].
    split; [|discriminate]. intros _. apply F1. apply full_index; [assumption|assumption|].
    eapply lt_le; [exact TO|apply fin_ok, next_fin; exact G|exact Ht|exact L].
  - eexists. split; [reflexivity|]. unfold step_ok. split.
    + eapply inv_pop with (p1 := set_intrinsic p1 (ev_value e)); [exact I|exact E|]. repeat split; apply D.
    + split; [exact R1|]. split; [repeat split; apply D|]. split; [discriminate|]. intros _. unfold measure. cbn [set_last set_timeline p_timeline].
      rewrite E. cbn [fold_right]. unfold weight at 2. destruct (etype_eqb _ _); lia.
Qed.

Definition end_of (e : event) : T := match ev_cancel e with Some c => c | None => time e end.

Lemma end_of_ok : forall e, wf_event e -> fin (end_of e) = true.
Proof. intros e W. unfold end_of. destruct (ev_cancel e) eqn:E; [apply (wf_cancel e W _ E)|apply wf_time; exact W]. Qed.

Lemma last_some : forall p e rest, inv p -> p_timeline p = e :: rest -> needs_predecessor e = true -> exists last, p_last p = Some last.
Proof.
  intros p e rest I E H. destruct (p_last p) eqn:El; [eauto|]. pose proof (i_head p I El) as Hh. rewrite E in Hh. congruence.
Qed.

Lemma pop_measure : forall p p' e rest, p_timeline p = e :: rest -> p_timeline p' = rest -> measure p' < measure p.
Proof. intros p p' e rest E E'. unfold measure. rewrite E, E'. cbn [fold_right]. unfold weight at 2. destruct (etype_eqb _ _); lia. Qed.

Lemma do_linear_ok : forall p b e rest, inv p -> good_block b -> room p b -> p_timeline p = e :: rest -> ev_type e = LinearRamp ->
  exists r, do_linear_ramp P RQ p b e rest = Ok r /\ step_ok p b r.
Proof.
  intros p b e rest I G R E Et. unfold do_linear_ramp.
  destruct (last_some p e rest I E) as [last El]; [unfold needs_predecessor; rewrite Et; reflexivity|]. rewrite El.
  pose proof (i_wf p I) as W. rewrite E in W. inversion W as [|? ? We W']; subst.
  fold (end_of e). set (f := linear_ramp_sample P _ _ _ _).
  destruct (sample_block_ok p b (end_of e) (fun t => Ok (f t)) G R) as (p1 & -> & E1 & E2 & D & R1 & _ & F1); [eauto|]. cbn [bind].
  destruct (le (b_next b) (end_of e)) eqn:L.
  - eexists. split; [reflexivity|]. split; [eapply inv_same; [exact I|exact E1|exact E2|repeat split; apply D]|].
    split; [exact R1|]. split; [repeat split; apply D|]. split; [|discriminate]. intros _. apply F1.
    apply full_index; [exact G|apply fin_ok, end_of_ok; exact We|exact L].
  - destruct (ev_cancel e); eexists; (split; [reflexivity|]); (split; [eapply inv_pop with (p1 := set_intrinsic p1 _); [exact I|exact E|repeat split; apply D]|]);
      (split; [exact R1|split; [repeat split; apply D|split; [discriminate|intros _; eapply pop_measure; [exact E|reflexivity]]]]).
Qed.

Lemma do_exponential_ok : forall p b e rest, inv p -> good_block b -> room p b -> p_timeline p = e :: rest -> ev_type e = ExponentialRamp ->
  exists r, do_exponential_ramp P RQ p b e rest = Ok r /\ step_ok p b r.
Proof.
  intros p b e rest I G R E Et. unfold do_exponential_ramp.
  destruct (last_some p e rest I E) as [last El]; [unfold needs_predecessor; rewrite Et; reflexivity|]. rewrite El.
  pose proof (i_wf p I) as W. rewrite E in W. inversion W as [|? ? We W']; subst.
  fold (end_of e). set (f := exponential_ramp_sample P _ _ _ _).
  destruct (v_eq P (ev_value last) (v_zero P) || v_lt P _ _).
  { eexists. split; [reflexivity|]. split.
    - apply inv_replace with (p := p) (e := e); try assumption; try reflexivity; [apply same_refl|congruence| |].
      + constructor; cbn; try (split; discriminate); try discriminate. apply end_of_ok. exact We.
      + pose proof (i_sorted p I) as S. rewrite E in S. inversion S as [|? ? S1 S2]; subst.
        rewrite Forall_forall in *. intros x Hx. specialize (S2 x Hx). unfold in_order in *. cbn [simple ev_time].
        unfold end_of. destruct (ev_cancel e) eqn:Ec; [|exact S2]. destruct (wf_cancel e We _ Ec) as [Hf Hle].
        eapply (to_trans P ok TO); [apply fin_ok; exact Hf|apply fin_ok, wf_time; exact We|apply fin_ok, wf_time, W'; exact Hx| |exact S2].
        apply Hle. rewrite Et. reflexivity.
    - split; [exact R|]. split; [repeat split; reflexivity|]. split; [discriminate|]. intros _. unfold measure. cbn [set_timeline p_timeline]. rewrite E.
      cbn [fold_right]. unfold weight at 1 3. rewrite Et. cbn. lia. }
  destruct (sample_block_ok p b (end_of e) (fun t => Ok (f t)) G R) as (p1 & -> & E1 & E2 & D & R1 & _ & F1); [eauto|]. cbn [bind].
  destruct (le (b_next b) (end_of e)) eqn:L.
  - eexists. split; [reflexivity|]. split; [eapply inv_same; [exact I|exact E1|exact E2|repeat split; apply D]|].
    split; [exact R1|]. split; [repeat split; apply D|]. split; [|discriminate]. intros _. apply F1.
    apply full_index; [exact G|apply fin_ok, end_of_ok; exact We|exact L].
  - destruct (ev_cancel e); eexists; (split; [reflexivity|]); (split; [eapply inv_pop with (p1 := set_intrinsic p1 _); [exact I|exact E|repeat split; apply D]|]);
      (split; [exact R1|split; [repeat split; apply D|split; [discriminate|intros _; eapply pop_measure; [exact E|reflexivity]]]]).
Qed.

Lemma do_curve_ok : forall p b e rest, inv p -> good_block b -> room p b -> p_timeline p = e :: rest -> ev_type e = SetValueCurve ->
  exists r, do_value_curve P RQ p b e rest = Ok r /\ step_ok p b r.
Proof.
  intros p b e rest I G R E Et. unfold do_value_curve.
  pose proof (i_wf p I) as W. rewrite E in W. inversion W as [|? ? We W']; subst.
  destruct (wf_curve e We Et) as (d & vs & Ed & Ev & Hd & Hd0 & Hn & Hcv). rewrite Ed, Ev.
  pose proof (CR Hcv (time e) d vs) as Hf.
  assert (Oe : ok (match ev_cancel e with Some c => c | None => t_add P (time e) d end)).
  { destruct (ev_cancel e) eqn:Ec; [apply fin_ok, (wf_cancel e We _ Ec)|apply (to_add P ok TO); [apply wf_time; exact We|exact Hd|exact Hd0]]. }
  set (en := match ev_cancel e with Some c => c | None => t_add P (time e) d end) in *.
  set (f := value_curve_sample P (time e) d vs) in *.
  assert (Hv : forall x, ok x -> exists v, f x = Ok v).
  { intros x Hx. apply Hf; auto. apply wf_time. exact We. }
  destruct (sample_block_ok p b en (fun t => if lt t (time e) then Ok (p_intrinsic p) else f t) G R) as (p1 & -> & E1 & E2 & D & R1 & _ & F1).
  { intros x Hx. destruct (lt x (time e)); [eauto|apply Hv; exact Hx]. }
  cbn [bind]. destruct (le (b_next b) en) eqn:L.
  - destruct (Hv (b_next b)) as [v ->]; [apply fin_ok, next_fin; exact G|]. cbn [bind].
    eexists. split; [reflexivity|]. split; [eapply inv_same; [exact I|exact E1|exact E2|repeat split; apply D]|].
    split; [exact R1|]. split; [repeat split; apply D|]. split; [|discriminate]. intros _. apply F1.
    apply full_index; [exact G|exact Oe|exact L].
  - assert (Hl : exists v, (match ev_cancel e with Some _ => f en | None => from_option (nth_error vs (length vs - 1)) end) = Ok v).
    { destruct (ev_cancel e); [apply Hv; exact Oe|]. destruct (nth_error vs (length vs - 1)) eqn:En; [cbn; eauto|].
      apply nth_error_None in En. lia. }
    destruct Hl as [v ->]. cbn [bind]. eexists. split; [reflexivity|].
    split; [eapply inv_pop with (p1 := set_intrinsic p1 _); [exact I|exact E|repeat split; apply D]|].
    split; [exact R1|split; [repeat split; apply D|split; [discriminate|intros _; eapply pop_measure; [exact E|reflexivity]]]].
Qed.

Lemma do_target_ok : forall p b e rest, inv p -> good_block b -> room p b -> p_timeline p = e :: rest -> ev_type e = SetTarget ->
  exists r, do_set_target P RQ p b e rest = Ok r /\ step_ok p b r.
Proof.
  intros p b e rest I G R E Et. unfold do_set_target.
  pose proof (i_wf p I) as W. rewrite E in W. inversion W as [|? ? We W']; subst.
  set (q1 := match rest with
    | [] => (b_next b, false)
    | nxt :: _ => if is_ramp (ev_type nxt) then (b_time b, true)
                  else if lt (time nxt) (b_next b) then (time nxt, true) else (b_next b, false)
    end).
  assert (Q1 : snd q1 = false -> fst q1 = b_next b /\ Forall (fun x => le (b_next b) (time x) = true) rest).
  { unfold q1. destruct rest as [|nxt rest']; [split; [reflexivity|constructor]|].
    destruct (is_ramp _); [discriminate|]. destruct (lt (time nxt) (b_next b)) eqn:L; [discriminate|]. intros _. split; [reflexivity|].
    pose proof (i_sorted p I) as S. rewrite E in S. inversion S as [|? ? S1 S2]; subst. inversion S1 as [|? ? S3 S4]; subst.
    inversion W' as [|? ? Wn W'']; subst.
    assert (Ln : le (b_next b) (time nxt) = true) by (eapply not_lt_le; eauto; [apply fin_ok, wf_time; exact Wn|apply fin_ok, next_fin; exact G]).
    constructor; [exact Ln|]. rewrite Forall_forall in *. intros x Hx. eapply (to_trans P ok TO); [| | |exact Ln|apply S4; exact Hx];
      apply fin_ok; [apply next_fin; exact G|apply wf_time; exact Wn|apply wf_time, W''; exact Hx]. }
  set (q := let '(end1, ended1) := q1 in match ev_cancel e with
    | Some c => if lt c (b_next b) then (c, true) else (end1, ended1)
    | None => (end1, ended1)
    end).
  assert (Qq : snd q = false -> fst q = b_next b /\ Forall (fun x => le (b_next b) (time x) = true) rest).
  { unfold q. destruct q1 as [x y]. destruct (ev_cancel e); [|exact Q1]. destruct (lt t (b_next b)); [discriminate|exact Q1]. }
  assert (Eq : (let '(end1, ended1) := q1 in
    let '(end_time, ended) := match ev_cancel e with
      | Some c => if lt c (b_next b) then (c, true) else (end1, ended1)
      | None => (end1, ended1) end in (end_time, ended)) = q).
  { unfold q. destruct q1 as [x y]. destruct (ev_cancel e); [|reflexivity]. destruct (lt t (b_next b)); reflexivity. }
  assert (Main : forall en ended, q = (en, ended) -> exists r,
    (match p_last p, ev_constant e with
  | Some last, Some constant =>
      let start_time := ev_time e in
      let end_value := ev_value e in
      let diff := v_sub P (ev_value last) end_value in
      let f := set_target_sample P start_time constant end_value diff in
      do p1 <- sample_block P RQ p b en
                 (fun t => Ok (if t_lt P (t_sub P t start_time) (t_zero P) then p_intrinsic p else f t));
      if negb ended then
        let v := f (b_next b) in
        if v_lt P (v_abs P (v_sub P end_value v)) (v_snap P) then
          let p2 := set_intrinsic p1 end_value in
          let p3 := if v_eq P end_value (v_zero P)
                    then set_buffer p2 (map (fun x => if v_subnormal P x then v_zero P else x) (p_buffer p2)) else p2 in
          Ok (set_timeline p3 (simple SetValueAtTime end_value (b_next b) :: rest), true)
        else Ok (set_intrinsic p1 v, true)
      else
        let v := f en in
        Ok (set_last (set_timeline (set_intrinsic p1 v) rest) (Some (with_value (with_time e en) v)), false)
  | _, _ => Panic
  end) = Ok r /\ step_ok p b r).
  { intros en ended Eqq. destruct (last_some p e rest I E) as [last El]; [unfold needs_predecessor; rewrite Et; apply orb_true_r|]. rewrite El.
    destruct (wf_constant e We Et) as [c ->].
    cbv zeta. set (f := set_target_sample P (time e) c (ev_value e) (v_sub P (ev_value last) (ev_value e))).
    destruct (sample_block_ok p b en (fun t => Ok (if t_lt P (t_sub P t (time e)) (t_zero P) then p_intrinsic p else f t)) G R)
      as (p1 & Es & E1 & E2 & D & R1 & _ & F1); [eauto|]. rewrite Es. cbn [bind].
    destruct ended; cbn [negb].
    - eexists. split; [reflexivity|].
      split; [eapply inv_pop with (p1 := set_intrinsic p1 _); [exact I|exact E|repeat split; apply D]|].
      split; [exact R1|split; [repeat split; apply D|split; [discriminate|intros _; eapply pop_measure; [exact E|reflexivity]]]].
    - rewrite Eqq in Qq. destruct (Qq eq_refl) as [Een Fr]. cbn [fst] in Een. subst en.
      assert (Fl : full p1 b).
      { apply F1. apply full_index; [exact G|apply fin_ok, next_fin; exact G|]. eapply le_refl; [exact TO|]. apply fin_ok, next_fin. exact G. }
      destruct (v_lt P _ (v_snap P)).
      + eexists. split; [reflexivity|].
        set (p3 := if v_eq P (ev_value e) (v_zero P) then _ else _).
        assert (D3 : same_descriptor p p3 /\ p_last p3 = p_last p /\ length (p_buffer p3) = length (p_buffer p1)).
        { unfold p3. destruct (v_eq P _ _); cbn; rewrite ?map_length; (split; [repeat split; apply D|split; [exact E2|reflexivity]]). }
        destruct D3 as (D3 & L3 & B3). split.
        * apply inv_replace with (p := p) (e := e); try assumption; [congruence|].
          constructor; cbn; try (split; discriminate); try discriminate. apply next_fin. exact G.
        * unfold room, full in *. cbn [set_timeline p_buffer]. rewrite B3. split; [exact R1|]. split; [exact D3|].
          split; [intros _; exact Fl|discriminate].
      + eexists. split; [reflexivity|]. split; [eapply inv_same; [exact I|exact E1|exact E2|repeat split; apply D]|].
        split; [exact R1|]. split; [repeat split; apply D|]. split; [intros _; exact Fl|discriminate]. }
  destruct q1 as [en1 ended1] eqn:Eq1. unfold q in *. destruct (ev_cancel e) as [c|].
  - destruct (lt c (b_next b)); eapply Main; reflexivity.
  - eapply Main. reflexivity.
Qed.

Lemma do_event_ok : forall p b, inv p -> good_block b -> room p b -> exists r, do_event P RQ p b = Ok r /\ step_ok p b r.
Proof.
  intros p b I G R. unfold do_event. destruct (p_timeline p) as [|e rest] eqn:E.
  - unfold room in R. destruct (b_arate b) eqn:Ea.
    + rewrite extend_ok by (rewrite repeat_length; destruct G as [Hc _]; lia). cbn [bind]. eexists. split; [reflexivity|].
      split; [apply inv_same with (p := p); [exact I|reflexivity|reflexivity|repeat split; reflexivity]|]. unfold room, full. rewrite Ea.
      cbn [set_buffer p_buffer]. rewrite app_length, repeat_length. repeat split; try lia; try discriminate; reflexivity.
    + cbn [bind]. eexists. split; [reflexivity|]. split; [exact I|]. unfold room, full. rewrite Ea. repeat split; intros; try assumption; try discriminate; reflexivity.
  - pose proof (i_wf p I) as W. rewrite E in W. inversion W as [|? ? We W']; subst. destruct (wf_type e We) as [N1 N2].
    destruct (ev_type e) eqn:Et; try congruence.
    + apply do_set_value_ok; assumption.
    + apply do_set_value_ok; assumption.
    + apply do_linear_ok; assumption.
    + apply do_exponential_ok; assumption.
    + apply do_target_ok; assumption.
    + apply do_curve_ok; assumption.
Qed.

Lemma same_trans : forall p1 p2 p3, same_descriptor p1 p2 -> same_descriptor p2 p3 -> same_descriptor p1 p3.
Proof. unfold same_descriptor. intros p1 p2 p3 (A & B & C & D) (A' & B' & C' & D'). repeat split; congruence. Qed.

Lemma do_events_ok : forall fuel p b, inv p -> good_block b -> room p b -> measure p < fuel ->
  exists p', do_events P RQ fuel p b = Ok p' /\ inv p' /\ full p' b /\ same_descriptor p p'.
Proof.
  induction fuel as [|fuel IH]; intros p b I G R M; [lia|]. cbn [do_events].
  destruct (do_event_ok p b I G R) as ([p1 stop] & -> & I1 & R1 & D1 & F1 & M1). cbn [bind fst snd]. destruct stop.
  - exists p1. auto.
  - destruct (IH p1 b I1 G R1) as (p' & H1 & H2 & H3 & H4); [specialize (M1 eq_refl); lia|].
    exists p'. split; [exact H1|]. split; [exact H2|]. split; [exact H3|]. exact (same_trans p p1 p' D1 H4).
Qed.

Lemma compute_buffer_ok : forall p t dt, inv p -> block_ok P ok t dt RQ ->
  exists p', compute_buffer P RQ p t dt RQ = Ok p' /\ inv p' /\ same_descriptor p p' /\
    (length (p_buffer p') = 1 \/ p_arate p' = true /\ length (p_buffer p') = RQ).
Proof.
  intros p t dt I B. unfold compute_buffer.
  destruct (v_clamp P (p_intrinsic p) (p_min p) (p_max p)) as [cur|] eqn:Ec; [|exfalso; exact (i_clamp p I _ Ec)].
  cbn [from_option bind]. set (p1 := set_buffer (set_current p cur) []).
  assert (I1 : inv p1) by (apply inv_same with (p := p); [exact I|reflexivity|reflexivity|repeat split; reflexivity]).
  assert (Main : forall p2 (I2 : inv p2) (D2 : same_descriptor p1 p2) (R2 : room p2 (mk_block t dt RQ (p_arate p2) (t_fma P dt (t_of_nat P RQ) t))),
    exists p', do_events P RQ (2 * length (p_timeline p2) + 1) p2 (mk_block t dt RQ (p_arate p2) (t_fma P dt (t_of_nat P RQ) t)) = Ok p' /\
     inv p' /\ same_descriptor p p' /\ (length (p_buffer p') = 1 \/ p_arate p' = true /\ length (p_buffer p') = RQ)).
  { intros p2 I2 D2 R2.
    destruct (do_events_ok (2 * length (p_timeline p2) + 1) p2 (mk_block t dt RQ (p_arate p2) (t_fma P dt (t_of_nat P RQ) t)) I2) as (p' & H1 & H2 & H3 & H4).
    - split; [cbn; lia|]. split; [reflexivity|]. exact B.
    - exact R2.
    - pose proof (measure_le p2). lia.
    - exists p'. split; [exact H1|]. split; [exact H2|]. split; [exact (same_trans p p2 p' (same_trans p p1 p2 (same_refl p) D2) H4)|].
      unfold full in H3. cbn [b_arate b_count] in H3. destruct H4 as (_ & _ & _ & Ha). destruct (p_arate p2) eqn:Ea; [right; split; congruence|left; exact H3]. }
  destruct (match p_timeline p1 with [] => true | e :: _ => if is_ramp (ev_type e) then false else le (t_fma P dt (t_of_nat P RQ) t) (time e) end) eqn:Ek.
  - rewrite orb_true_r. rewrite extend_ok by (cbn; lia). cbn [bind]. eexists. split; [reflexivity|].
    split; [apply inv_same with (p := p1); [exact I1|reflexivity|reflexivity|repeat split; reflexivity]|]. split; [repeat split; reflexivity|]. left. reflexivity.
  - rewrite orb_false_r. destruct (p_arate p1) eqn:Ea; cbn [negb bind].
    + apply Main; [exact I1|apply same_refl|]. unfold room. cbn [b_arate b_count]. rewrite Ea. cbn. lia.
    + rewrite extend_ok by (cbn; lia). cbn [bind]. apply Main.
      * apply inv_same with (p := p1); [exact I1|reflexivity|reflexivity|repeat split; reflexivity].
      * repeat split; reflexivity.
      * unfold room. cbn [b_arate set_buffer p_arate]. rewrite Ea. reflexivity.
Qed.

Lemma mix_ok : forall p input silent, length input = RQ ->
  (length (p_buffer p) = 1 \/ p_arate p = true /\ length (p_buffer p) = RQ) ->
  exists out, mix_to_output P p input silent = Ok out /\ (length out = 1 \/ length out = RQ).
Proof.
  intros p input silent Hi Hb. unfold mix_to_output. destruct (Nat.eqb (length (p_buffer p)) 1) eqn:E.
  - apply Nat.eqb_eq in E. cbn [orb]. destruct (p_buffer p) as [|v l]; [discriminate|].
    destruct input as [|i0 input]; [cbn in Hi; lia|].
    destruct (silent || negb (p_arate p)); eexists; (split; [reflexivity|]); [left; reflexivity|right; rewrite map_length; exact Hi].
  - apply Nat.eqb_neq in E. destruct Hb as [Hb|[Ha Hb]]; [congruence|]. rewrite Ha. cbn [orb negb]. eexists. split; [reflexivity|].
    right. rewrite app_length, map_length, combine_length, skipn_length. lia.
Qed.

(** ** Histories *)
Definition curve_free (o : @pop T V) : Prop := match o with Schedule c => is_curve_call c = true -> curves = true | _ => True end.

Lemma pstep_ok : forall p o, inv p -> op_ok P ok RQ p o -> curve_free o ->
  exists p' outs, pstep P RQ p o = Ok (p', outs) /\ inv p' /\ Forall (fun out => length out = 1 \/ length out = RQ) outs.
Proof.
  intros p o I Ho Hc. destruct o as [c|a|t dt input silent]; cbn [pstep op_ok curve_free] in *.
  - destruct (call_event P c) as [e|] eqn:E; [|exists p, []; split; [reflexivity|split; [exact I|constructor]]].
    destruct (call_event_wf c e E Hc) as (K & Hf & Hn & Hz). specialize (Ho e E).
    destruct (ev_type e) eqn:Et;
    match goal with
      | H : ev_type e = CancelScheduled |- _ => unfold handle_incoming_event; rewrite H;
          destruct (cancel_inv p (time e) I Hf) as (p' & -> & I' & _)
      | H : ev_type e = CancelAndHold |- _ => unfold handle_incoming_event; rewrite H;
          destruct (hold_inv p (time e) I Hf Ho) as (p' & -> & I' & _)
      | _ => destruct K as [K|[K|K]]; try discriminate; destruct Ho as [H1 H2];
          destruct (schedule_inv p e I K Hn Hz H1 H2) as (p' & -> & I' & _)
      end; cbn [bind]; exists p', []; (split; [reflexivity|split; [exact I'|constructor]]).
  - exists (set_rate p a), []. split; [reflexivity|]. split; [|constructor]. destruct I. constructor; assumption.
  - destruct Ho as [Hb Hi]. unfold process. destruct (compute_buffer_ok p t dt I Hb) as (p' & -> & I' & _ & Hl). cbn [bind].
    destruct (mix_ok p' input silent Hi Hl) as (out & -> & Ho). cbn [bind fst snd].
    exists p', [out]. split; [reflexivity|]. split; [exact I'|]. constructor; [exact Ho|constructor].
Qed.

Lemma prun_ok : forall os p, inv p -> legal P ok RQ p os -> Forall curve_free os ->
  exists p' outs, prun P RQ p os = Ok (p', outs) /\ inv p' /\ Forall (fun out => length out = 1 \/ length out = RQ) outs.
Proof.
  induction os as [|o os IH]; intros p I L C; [exists p, []; split; [reflexivity|split; [exact I|constructor]]|].
  destruct L as [Ho L]. inversion C; subst. destruct (pstep_ok p o I Ho) as (p1 & o1 & E & I1 & F1); [assumption|].
  cbn [prun]. rewrite E in *. cbn [bind fst snd]. destruct (IH p1 I1 L) as (p2 & o2 & -> & I2 & F2); [assumption|].
  cbn [bind fst snd]. exists p2, (o1 ++ o2). split; [reflexivity|]. split; [exact I2|]. apply Forall_app. split; assumption.
Qed.

Lemma new_inv : forall a d lo hi, (forall x, v_clamp P x lo hi <> None) -> inv (new_param a d lo hi).
Proof. intros. constructor; cbn; try constructor; try assumption. Qed.

End Safety.
