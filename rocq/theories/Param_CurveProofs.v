(** The values an AudioParam computes are the automation curve (exact arithmetic). *)
From Coq Require Import List Arith Bool ZArith QArith Qround Qabs Qfield Lqa Lia Sorted.
From Verif Require Import Param_Model Param_Inst Param_Spec Param_TimelineProofs Param_CurveSpec Param_ExactProofs Param_SafetyProofs.
Import ListNotations.
Local Open Scope Q_scope.

Section Curve.
Variable Q_exp : Q -> Q.
Variable Q_powf : Q -> Q -> Q.
Notation P := (exact_ops Q_exp Q_powf).
Notation event := (@event Q Q).
Notation param := (@param Q Q).
Variable dt : Q.
Hypothesis dt_pos : 0 < dt.
Variable RQ : nat.
Hypothesis RQ_pos : (0 < RQ)%nat.
Notation ftime := (frame_time dt).
Notation near := (nearest dt).
Notation TO := (exact_time_order Q_exp Q_powf).

(** ** Events and specification events; [w] is the time that stands for "now" *)
Record rel (w : Q) (e : event) (s : sev) : Prop := {
  r_kind : match s_kind s with Jump => ev_type e = SetValue \/ ev_type e = SetValueAtTime | Linear => ev_type e = LinearRamp end;
  r_value : ev_value e == s_value s;
  r_cancel : ev_cancel e = None;
  r_time : if Qeq_bool (ev_time e) 0 then s_time s == w else s_time s = ev_time e
}.

Definition at_frame (t0 v0 : Q) (l : list sev) (f : Z) : Q :=
  curve (fun e => Z.leb (near (s_time e)) f) t0 v0 l (ftime f).

Lemma at_frame_reached : forall t0 v0 e l f, (near (s_time e) <= f)%Z -> at_frame t0 v0 (e :: l) f = at_frame (s_time e) (s_value e) l f.
Proof. intros. unfold at_frame. cbn [curve]. apply Z.leb_le in H. rewrite H. reflexivity. Qed.
Lemma at_frame_before : forall t0 v0 e l f, (f < near (s_time e))%Z ->
  at_frame t0 v0 (e :: l) f = match s_kind e with Jump => v0 | Linear => v0 + (s_value e - v0) * ((ftime f - t0) / (s_time e - t0)) end.
Proof. intros. unfold at_frame. cbn [curve]. apply Z.leb_gt in H. rewrite H. reflexivity. Qed.

Lemma curve_comp : forall reached l t0 v0 t0' v0' t, t0 == t0' -> v0 == v0' -> curve reached t0 v0 l t == curve reached t0' v0' l t.
Proof.
  intros reached l. induction l as [|e l IH]; intros t0 v0 t0' v0' t H1 H2; cbn [curve]; [exact H2|].
  destruct (reached e); [apply IH; reflexivity|]. destruct (s_kind e); [exact H2|]. rewrite H1, H2. reflexivity.
Qed.

(** ** Lists of samples *)
Definition agree (F : Z) (C : Z -> Q) (k : nat) (vs : list Q) : Prop :=
  forall i, (i < length vs)%nat -> nth i vs 0 == C (F + Z.of_nat (k + i))%Z.

Lemma agree_app : forall F C vs ws, agree F C 0 vs -> agree F C (length vs) ws -> agree F C 0 (vs ++ ws).
Proof.
  intros F C vs ws H1 H2 i Hi. destruct (Nat.lt_ge_cases i (length vs)) as [L|L].
  - rewrite app_nth1 by exact L. apply H1. exact L.
  - rewrite app_nth2 by exact L. rewrite app_length in Hi. rewrite (H2 (i - length vs)%nat) by lia.
    replace (0 + i)%nat with (length vs + (i - length vs))%nat by lia. reflexivity.
Qed.

Lemma samples_agree : forall n time f vs F k C, samples P n time dt (fun t => Ok (f t)) = Ok vs ->
  time == ftime (F + Z.of_nat k) -> (forall t t', t == t' -> f t == f t') ->
  (forall i, (i < n)%nat -> f (ftime (F + Z.of_nat (k + i))) == C (F + Z.of_nat (k + i))%Z) ->
  agree F C k vs /\ length vs = n.
Proof.
  induction n as [|n IH]; intros time f vs F k C H Ht Hf HC; cbn [samples bind] in H.
  - inversion H; subst. split; [intros i Hi; cbn in Hi; lia|reflexivity].
  - destruct (samples P n (t_add P time dt) dt (fun t => Ok (f t))) as [ws| |] eqn:E; try discriminate. cbn [bind] in H. inversion H; subst; clear H.
    destruct (IH (t_add P time dt) f ws F (S k) C E) as [H1 H2].
    + cbn [t_add exact_ops]. rewrite Ht. replace (F + Z.of_nat (S k))%Z with (F + Z.of_nat k + 1)%Z by lia.
      rewrite (frame_time_plus dt (F + Z.of_nat k) 1). change (inject_Z 1) with 1. ring.
    + exact Hf.
    + intros i Hi. replace (S k + i)%nat with (k + S i)%nat by lia. apply HC. lia.
    + split; [|cbn; lia]. intros i Hi. destruct i as [|i]; cbn [nth].
      * rewrite Nat.add_0_r. rewrite (Hf time _ Ht). specialize (HC 0%nat). rewrite Nat.add_0_r in HC. apply HC. lia.
      * cbn in Hi. rewrite (H1 i) by lia. replace (S k + i)%nat with (k + S i)%nat by lia. reflexivity.
Qed.

(** ** The loop over the events of a block *)
Definition not_linear_head (l : list sev) : Prop := match l with e :: _ => s_kind e = Jump | [] => True end.

Record mid (w : Q) (F : Z) (C : Z -> Q) (p : param) (l : list sev) (t0 v0 : Q) : Prop := {
  m_rel : Forall2 (rel w) (p_timeline p) l;
  m_future : forall f, (F + Z.of_nat (length (p_buffer p)) <= f)%Z -> C f == at_frame t0 v0 l f;
  m_done : agree F C 0 (p_buffer p);
  m_len : (length (p_buffer p) <= RQ)%nat;
  m_last : match p_last p with Some e => ev_time e == t0 /\ ev_value e == v0 | None => not_linear_head l end;
  m_intrinsic : not_linear_head l -> p_intrinsic p == v0
}.

(** the state after the block *)
Record over (w : Q) (F : Z) (C : Z -> Q) (p : param) (l : list sev) (t0 v0 : Q) : Prop := {
  o_rel : Forall2 (rel w) (p_timeline p) l;
  o_future : forall f, (F + Z.of_nat RQ <= f)%Z -> C f == at_frame t0 v0 l f;
  o_done : agree F C 0 (p_buffer p);
  o_len : length (p_buffer p) = RQ;
  o_last : match p_last p with Some e => ev_time e == t0 /\ ev_value e == v0 | None => not_linear_head l end;
  o_intrinsic : not_linear_head l -> p_intrinsic p == v0;
  o_later : Forall (fun s => ftime (F + Z.of_nat RQ) <= s_time s) l;
  o_nonzero : Forall (fun e => Qeq_bool (ev_time e) 0 = false) (p_timeline p)
}.

(** what does not change: range, default, rate *)
Definition frozen (p p' : param) : Prop :=
  p_min p' = p_min p /\ p_max p' = p_max p /\ p_default p' = p_default p /\ p_arate p' = p_arate p.

Definition block_at (F : Z) (b : @block Q) : Prop :=
  b_time b == ftime F /\ b_dt b = dt /\ b_count b = RQ /\ b_arate b = true /\ b_next b == ftime (F + Z.of_nat RQ).

Lemma idx : forall F b t s, block_at F b -> t == s -> end_index P b t = Z.to_nat (Z.min (near s - F) (Z.of_nat RQ)).
Proof.
  intros F [bt d c a nx] t s (H1 & H2 & H3 & H4 & H5) Ht. cbn [b_time b_dt b_count b_arate b_next] in *. subst d c.
  apply exact_end_index; assumption.
Qed.

Lemma repeat_agree : forall F C v n k, (forall i, (i < n)%nat -> C (F + Z.of_nat (k + i))%Z == v) -> agree F C k (repeat v n).
Proof.
  intros F C v n k H i Hi. rewrite repeat_length in Hi. rewrite (H i Hi).
  assert (E : nth i (repeat v n) 0 = v); [|rewrite E; reflexivity].
  revert i Hi. clear. induction n; intros [|i] Hi; cbn; try lia; [reflexivity|]. apply IHn. lia.
Qed.

Lemma extend_ok' : forall (p : param) vs, (length (p_buffer p) + length vs <= RQ)%nat -> extend RQ p vs = Ok (set_buffer p (p_buffer p ++ vs)).
Proof. intros p vs H. unfold extend. apply Nat.leb_le in H. rewrite H. reflexivity. Qed.

(** times of the remaining events *)
Definition sorted_from (t : Q) (l : list sev) : Prop := StronglySorted (fun a b => s_time a <= s_time b) l /\ Forall (fun s => t <= s_time s) l.

Lemma step_jump : forall w F C p b e rest s l t0 v0, block_at F b -> w == ftime F -> (0 <= F)%Z -> sorted_from w (s :: l) ->
  p_timeline p = e :: rest -> s_kind s = Jump -> mid w F C p (s :: l) t0 v0 ->
  exists p', frozen p p' /\
    ((do_set_value P RQ p b e rest = Ok (p', true) /\ p_timeline p' = p_timeline p /\ over w F C p' (s :: l) t0 v0) \/
     (do_set_value P RQ p b e rest = Ok (p', false) /\ p_timeline p' = rest /\ mid w F C p' l (s_time s) (s_value s) /\ p_last p' <> None)).
Proof.
  intros w F C p b e rest s l t0 v0 B Hw HF [Hs Hl] Et Ks [M1 M2 M3 M4 M5 M6].
  rewrite Et in M1. inversion M1 as [|? ? ? ? R Rest]; subst. pose proof R as [R1 R2 R3 R4].
  unfold do_set_value. cbn [t_eq t_zero t_lt exact_ops].
  set (t := if Qeq_bool (ev_time e) 0 then b_time b else ev_time e).
  assert (Ht : t == s_time s).
  { unfold t. destruct (Qeq_bool (ev_time e) 0); [destruct B as [-> _]; rewrite R4, Hw; reflexivity|rewrite R4; reflexivity]. }
  rewrite (idx F b t (s_time s) B Ht). pose proof B as (B1 & B2 & B3 & B4 & B5). rewrite B4.
  set (ix := Z.to_nat (Z.min (near (s_time s) - F) (Z.of_nat RQ))).
  specialize (M6 Ks).
  rewrite extend_ok' by (rewrite repeat_length; lia). cbn [bind].
  set (vs := repeat (p_intrinsic p) (ix - length (p_buffer p))).
  assert (Ag : agree F C 0 (p_buffer p ++ vs)).
  { apply agree_app; [exact M3|]. apply repeat_agree. intros i Hi.
    rewrite M2 by lia. rewrite at_frame_before by lia. rewrite Ks, M6. reflexivity. }
  destruct (Q_lt (b_next b) t) eqn:L.
  - apply Q_lt_spec in L. rewrite B5, Ht in L. eexists. split; [|left; split; [reflexivity|split; [reflexivity|]]]; [repeat split; reflexivity|].
    assert (Hn : (F + Z.of_nat RQ <= near (s_time s))%Z) by (apply (nearest_ge dt dt_pos); lra).
    inversion Hs as [|? ? Hs1 Hs2]; subst.
    assert (Lt : Forall (fun s0 => ftime (F + Z.of_nat RQ) <= s_time s0) (s :: l)).
    { constructor; [lra|]. eapply Forall_impl; [|exact Hs2]. cbn. intros a Ha. lra. }
    constructor; cbn [set_buffer p_timeline p_buffer p_last p_intrinsic].
    + rewrite Et. exact M1.
    + intros f Hf. apply M2. lia.
    + exact Ag.
    + rewrite app_length. unfold vs. rewrite repeat_length. lia.
    + exact M5.
    + intros _. exact M6.
    + exact Lt.
    + (* no event at time zero is left *)
      rewrite Et. assert (Pos : 0 < ftime (F + Z.of_nat RQ)).
      { unfold frame_time. apply Qmult_lt_0_compat; [change 0 with (inject_Z 0); rewrite <- Zlt_Qlt; lia|exact dt_pos]. }
      clear - M1 Lt Pos Hw RQ_pos dt_pos. revert M1 Lt. generalize (s :: l). intros L R. revert R. generalize (e :: rest). intros tl R.
      induction R as [|x y tl L R1 R2 IH]; intro Lt; constructor.
      * inversion Lt as [|? ? Hy Hly]; subst. destruct R1 as [_ _ _ R4]. destruct (Qeq_bool (ev_time x) 0); [|reflexivity]. exfalso.
        rewrite R4, Hw in Hy. unfold frame_time in Hy.
        assert (inject_Z F < inject_Z (F + Z.of_nat RQ)) by (rewrite <- Zlt_Qlt; lia).
        assert (inject_Z F * dt < inject_Z (F + Z.of_nat RQ) * dt) by (apply Qmult_lt_compat_r; assumption). lra.
      * apply IH. inversion Lt; assumption.
  - apply Q_lt_false in L. rewrite B5, Ht in L. eexists. split; [|right; split; [reflexivity|]]; [repeat split; reflexivity|].
    assert (Hn : (near (s_time s) <= F + Z.of_nat RQ)%Z) by (apply (nearest_le dt dt_pos); exact L).
    split; [reflexivity|]. split; [|discriminate].
    constructor; cbn [set_last set_timeline set_intrinsic set_buffer p_timeline p_buffer p_last p_intrinsic].
    + exact Rest.
    + rewrite app_length. unfold vs. rewrite repeat_length. intros f Hf. rewrite M2 by lia. rewrite at_frame_reached by lia. reflexivity.
    + exact Ag.
    + rewrite app_length. unfold vs. rewrite repeat_length. lia.
    + destruct (Qeq_bool t (ev_time e)) eqn:Eq; cbn [with_time ev_time ev_value]; rewrite R2; (split; [|reflexivity]); [|exact Ht].
      apply Qeq_bool_iff in Eq. rewrite <- Eq. exact Ht.
    + intros _. rewrite R2. reflexivity.
Qed.

Lemma nonzero_later : forall w F tl L, w == ftime F -> Forall2 (rel w) tl L -> Forall (fun s => ftime (F + Z.of_nat RQ) <= s_time s) L ->
  Forall (fun e => Qeq_bool (ev_time e) 0 = false) tl.
Proof.
  intros w F tl L Hw R. induction R as [|x y tl L R1 R2 IH]; intro Lt; constructor.
  - inversion Lt as [|? ? Hy Hly]; subst. destruct R1 as [_ _ _ R4]. destruct (Qeq_bool (ev_time x) 0); [|reflexivity]. exfalso.
    rewrite R4, Hw in Hy. unfold frame_time in Hy.
    assert (inject_Z F < inject_Z (F + Z.of_nat RQ)) by (rewrite <- Zlt_Qlt; lia).
    assert (inject_Z F * dt < inject_Z (F + Z.of_nat RQ) * dt) by (apply Qmult_lt_compat_r; assumption). lra.
  - apply IH. inversion Lt; assumption.
Qed.

Lemma ramp_time : forall w F e s, w == ftime F -> (0 <= F)%Z -> rel w e s -> s_kind s = Linear -> s_time s == ev_time e \/ Qeq_bool (ev_time e) 0 = true.
Proof.
  intros w F e s Hw HF [_ _ _ R4] K. destruct (Qeq_bool (ev_time e) 0); [right; reflexivity|left; rewrite R4; reflexivity].
Qed.

(** a ramp at time zero is only possible in the first block, where it is exact as well *)
Definition zero_now (w : Q) (l : list event) : Prop :=
  Forall (fun e => ev_type e = LinearRamp -> Qeq_bool (ev_time e) 0 = true -> w == 0) l.

Lemma step_linear : forall w F C p b e rest s l t0 v0, block_at F b -> w == ftime F -> (0 <= F)%Z -> sorted_from w (s :: l) ->
  p_timeline p = e :: rest -> s_kind s = Linear -> zero_now w (p_timeline p) -> mid w F C p (s :: l) t0 v0 ->
  exists p', frozen p p' /\
    ((do_linear_ramp P RQ p b e rest = Ok (p', true) /\ p_timeline p' = p_timeline p /\ over w F C p' (s :: l) t0 v0) \/
     (do_linear_ramp P RQ p b e rest = Ok (p', false) /\ p_timeline p' = rest /\ mid w F C p' l (s_time s) (s_value s) /\ p_last p' <> None)).
Proof.
  intros w F C p b e rest s l t0 v0 B Hw HF [Hs Hl] Et Ks Hz [M1 M2 M3 M4 M5 M6].
  rewrite Et in M1. inversion M1 as [|? ? ? ? R Rest]; subst. pose proof R as [R1 R2 R3 R4]. rewrite Ks in R1.
  unfold do_linear_ramp. destruct (p_last p) as [last|] eqn:El; [|cbn in M5; congruence]. destruct M5 as [L1 L2].
  rewrite R3.
  assert (Ht : ev_time e == s_time s).
  { rewrite Et in Hz. inversion Hz as [|? ? Hz1 _]; subst. destruct (Qeq_bool (ev_time e) 0) eqn:E0; [|rewrite R4; reflexivity].
    rewrite R4. apply Qeq_bool_iff in E0. rewrite E0. symmetry. apply Hz1; [exact R1|reflexivity]. }
  set (f := linear_ramp_sample P (ev_time last) (t_sub P (ev_time e) (ev_time last)) (ev_value last) (v_sub P (ev_value e) (ev_value last))).
  assert (Hf : forall t t', t == t' -> f t == f t').
  { intros t t' H. unfold f, linear_ramp_sample. cbn. rewrite H. reflexivity. }
  assert (HC : forall fr, (F + Z.of_nat (length (p_buffer p)) <= fr)%Z -> (fr < near (s_time s))%Z -> f (ftime fr) == C fr).
  { intros fr H1 H2. rewrite (M2 fr H1). rewrite at_frame_before by exact H2. rewrite Ks. unfold f, linear_ramp_sample. cbn.
    rewrite R2, Ht, L1, L2. ring. }
  pose proof B as (B1 & B2 & B3 & B4 & B5).
  pose proof (idx F b (ev_time e) (s_time s) B Ht) as Ix.
  assert (Sm : exists p1, sample_block P RQ p b (ev_time e) (fun t => Ok (f t)) = Ok p1 /\ p_timeline p1 = p_timeline p /\
     frozen p p1 /\ p_last p1 = p_last p /\ agree F C 0 (p_buffer p1) /\
     length (p_buffer p1) = Nat.max (length (p_buffer p)) (Z.to_nat (Z.min (near (s_time s) - F) (Z.of_nat RQ)))).
  { unfold sample_block. rewrite B4, Ix. set (ix := Z.to_nat (Z.min (near (s_time s) - F) (Z.of_nat RQ))).
    destruct (Nat.ltb (length (p_buffer p)) ix) eqn:E.
    - apply Nat.ltb_lt in E. rewrite B2.
      destruct (samples P (ix - length (p_buffer p)) (t_fma P (t_of_nat P (length (p_buffer p))) dt (b_time b)) dt (fun t => Ok (f t))) as [vs| |] eqn:Es.
      + destruct (samples_agree _ _ f vs F (length (p_buffer p)) C Es) as [A1 A2].
        * cbn. rewrite B1, (frame_time_plus dt). ring.
        * exact Hf.
        * intros i Hi. apply HC; lia.
        * cbn [bind]. rewrite extend_ok' by lia. cbn [bind]. eexists. split; [reflexivity|].
          cbn [set_intrinsic set_buffer p_timeline p_last p_buffer]. repeat split; try reflexivity; try assumption; [apply agree_app; assumption|].
          rewrite app_length. lia.
      + exfalso. clear - Es. revert Es. generalize (t_fma P (t_of_nat P (length (p_buffer p))) dt (b_time b)). generalize (ix - length (p_buffer p))%nat.
        induction n; intros t H; cbn [samples bind] in H; [discriminate|].
        destruct (samples P n (t_add P t dt) dt (fun t1 => Ok (f t1))) eqn:E; cbn [bind] in H; try discriminate. eapply IHn. exact E.
      + exfalso. clear - Es. revert Es. generalize (t_fma P (t_of_nat P (length (p_buffer p))) dt (b_time b)). generalize (ix - length (p_buffer p))%nat.
        induction n; intros t H; cbn [samples bind] in H; [discriminate|].
        destruct (samples P n (t_add P t dt) dt (fun t1 => Ok (f t1))) eqn:E; cbn [bind] in H; try discriminate. eapply IHn. exact E.
    - apply Nat.ltb_ge in E. exists p. repeat split; try reflexivity; [exact M3|lia]. }
  destruct Sm as (p1 & -> & T1 & Fz & T2 & A & Len). cbn [bind].
  cbn [t_le exact_ops]. destruct (Qle_bool (b_next b) (ev_time e)) eqn:L.
  - apply Qle_bool_iff in L. rewrite B5, Ht in L. eexists. split; [|left; split; [reflexivity|split; [exact T1|]]]; [repeat split; apply Fz|].
    assert (Hn : (F + Z.of_nat RQ <= near (s_time s))%Z) by (apply (nearest_ge dt dt_pos); lra).
    inversion Hs as [|? ? Hs1 Hs2]; subst.
    assert (Lt : Forall (fun s0 => ftime (F + Z.of_nat RQ) <= s_time s0) (s :: l)).
    { constructor; [lra|]. eapply Forall_impl; [|exact Hs2]. cbn. intros a Ha. lra. }
    constructor; cbn [set_intrinsic p_timeline p_buffer p_last p_intrinsic].
    + rewrite T1, Et. exact M1.
    + intros fr Hf2. apply M2. lia.
    + exact A.
    + rewrite Len. lia.
    + rewrite T2, El. split; assumption.
    + cbn. congruence.
    + exact Lt.
    + rewrite T1, Et. eapply nonzero_later; [exact Hw|exact M1|exact Lt].
  - apply Qle_bool_false in L. rewrite B5, Ht in L. eexists. split; [|right; split; [reflexivity|]]; [repeat split; apply Fz|].
    assert (Hn : (near (s_time s) <= F + Z.of_nat RQ)%Z) by (apply (nearest_le dt dt_pos); lra).
    split; [reflexivity|]. split; [|discriminate].
    constructor; cbn [set_last set_timeline set_intrinsic p_timeline p_buffer p_last p_intrinsic].
    + exact Rest.
    + rewrite Len. intros fr Hf2. rewrite M2 by lia. rewrite at_frame_reached by lia. reflexivity.
    + exact A.
    + rewrite Len. lia.
    + split; [exact Ht|rewrite R2; reflexivity].
    + intros _. rewrite R2. reflexivity.
Qed.

Lemma frozen_trans : forall p1 p2 p3, frozen p1 p2 -> frozen p2 p3 -> frozen p1 p3.
Proof. unfold frozen. intros p1 p2 p3 (A & B & D & E) (A' & B' & D' & E'). repeat split; congruence. Qed.

(** the last event of a list *)
Definition upd (_ : Q * Q) (s : sev) : Q * Q := (s_time s, s_value s).
Definition last_of (a : Q * Q) (l : list sev) : Q * Q := fold_left upd l a.

Lemma loop : forall l fuel w F C p b t0 v0, block_at F b -> w == ftime F -> (0 <= F)%Z -> sorted_from w l ->
  zero_now w (p_timeline p) -> mid w F C p l t0 v0 -> (length l < fuel)%nat ->
  exists p' l1 l2 t1 v1, do_events P RQ fuel p b = Ok p' /\ frozen p p' /\ l = l1 ++ l2 /\ over w F C p' l2 t1 v1 /\
    (match l1 with [] => p_last p' = p_last p | _ => p_last p' <> None end) /\ Forall (fun s => s_time s <= ftime (F + Z.of_nat RQ)) l1 /\ (t1, v1) = last_of (t0, v0) l1 /\
    (exists tl, p_timeline p = tl ++ p_timeline p').
Proof.
  induction l as [|s l IH]; intros fuel w F C p b t0 v0 B Hw HF Hs Hz M Hfu; (destruct fuel as [|fuel]; [cbn in Hfu; lia|]); cbn [do_events].
  - unfold do_event. pose proof M as [M1 M2 M3 M4 M5 M6]. inversion M1 as [E|]; subst. pose proof B as (B1 & B2 & B3 & B4 & B5). rewrite B4, B3.
    rewrite extend_ok' by (rewrite repeat_length; lia). cbn [bind snd fst].
    eexists _, [], [], t0, v0. split; [reflexivity|]. split; [repeat split; reflexivity|]. split; [reflexivity|]. split; [|split; [reflexivity|split; [apply Forall_nil|split; [reflexivity|exists (@nil event); cbn; exact E]]]].
    constructor; cbn [set_buffer p_timeline p_buffer p_last p_intrinsic].
    + rewrite <- E. constructor.
    + intros f Hf. apply M2. lia.
    + apply agree_app; [exact M3|]. apply repeat_agree. intros i Hi. rewrite M2 by lia. unfold at_frame. cbn [curve]. rewrite M6 by exact I. reflexivity.
    + rewrite app_length, repeat_length. lia.
    + exact M5.
    + exact M6.
    + constructor.
    + rewrite <- E. constructor.
  - pose proof (m_rel _ _ _ _ _ _ _ M) as M1. inversion M1 as [|e ? rest ? R Rest E]; subst. symmetry in E.
    assert (Step : exists p', frozen p p' /\
       (((do r <- do_event P RQ p b; if snd r then Ok (fst r) else do_events P RQ fuel (fst r) b) = Ok p' /\ over w F C p' (s :: l) t0 v0 /\ p_last p' = p_last p /\ p_timeline p' = p_timeline p) \/
        ((do r <- do_event P RQ p b; if snd r then Ok (fst r) else do_events P RQ fuel (fst r) b) = do_events P RQ fuel p' b /\
           p_timeline p' = rest /\ mid w F C p' l (s_time s) (s_value s) /\ p_last p' <> None /\ s_time s <= ftime (F + Z.of_nat RQ)))).
    { unfold do_event. rewrite E. destruct (s_kind s) eqn:Ks.
      - destruct (step_jump w F C p b e rest s l t0 v0 B Hw HF Hs E Ks M) as (p' & Fz & [(H1 & H0 & H2)|(H1 & H2 & H3 & H4)]); exists p'; (split; [exact Fz|]).
        + left. rewrite E in H0. assert (Hl : p_last p' = p_last p).
          { unfold do_set_value in H1. pose proof B as (_ & _ & _ & B4 & _). rewrite B4 in H1. unfold extend in H1. destruct (Nat.leb _ _); [|discriminate].
            cbn [bind] in H1. destruct (t_lt P _ _); inversion H1; reflexivity. }
          destruct R as [Rk _ _ _]. rewrite Ks in Rk. destruct Rk as [-> | ->]; rewrite H1; cbn [bind snd fst]; auto 8.
        + right. assert (Hle : s_time s <= ftime (F + Z.of_nat RQ)).
          { unfold do_set_value in H1. pose proof B as (B1 & _ & _ & B4 & B5). rewrite B4 in H1. unfold extend in H1. destruct (Nat.leb _ _); [|discriminate].
            cbn [bind] in H1. cbn [t_lt t_eq t_zero exact_ops] in H1. destruct (Q_lt (b_next b) _) eqn:L; [discriminate|]. apply Q_lt_false in L.
            destruct R as [_ _ _ R4]. destruct (Qeq_bool (ev_time e) 0).
            - rewrite R4, Hw. unfold frame_time. apply Qmult_le_compat_r; [|lra]. rewrite <- Zle_Qle. lia.
            - rewrite R4, <- B5. exact L. }
          destruct R as [Rk _ _ _]. rewrite Ks in Rk. destruct Rk as [-> | ->]; rewrite H1; cbn [bind snd fst]; auto 8.
      - destruct (step_linear w F C p b e rest s l t0 v0 B Hw HF Hs E Ks Hz M) as (p' & Fz & [(H1 & H0 & H2)|(H1 & H2 & H3 & H4)]); exists p'; (split; [exact Fz|]).
        + left. rewrite E in H0. assert (Hl : p_last p' = p_last p).
          { unfold do_linear_ramp in H1. destruct (p_last p) as [la|] eqn:El; [|discriminate]. destruct R as [_ _ R3 _]. rewrite R3 in H1.
            unfold sample_block in H1. pose proof B as (_ & _ & _ & B4 & _). rewrite B4 in H1.
            destruct (Nat.ltb _ _).
            - destruct (samples _ _ _ _ _); try discriminate. cbn [bind] in H1. unfold extend in H1. destruct (Nat.leb _ _); [|discriminate].
              cbn [bind] in H1. destruct (t_le P _ _); inversion H1; cbn; exact El.
            - cbn [bind] in H1. destruct (t_le P _ _); inversion H1; cbn; exact El. }
          destruct R as [Rk _ _ _]. rewrite Ks in Rk. rewrite Rk, H1. cbn [bind snd fst]; auto 8.
        + right. assert (Hle : s_time s <= ftime (F + Z.of_nat RQ)).
          { unfold do_linear_ramp in H1. destruct (p_last p) as [la|] eqn:El; [|discriminate]. destruct R as [R1 _ R3 R4]. rewrite R3 in H1.
            destruct (sample_block P RQ p b (ev_time e) _); try discriminate. cbn [bind] in H1. cbn [t_le exact_ops] in H1.
            destruct (Qle_bool (b_next b) (ev_time e)) eqn:L; [discriminate|]. apply Qle_bool_false in L. pose proof B as (_ & _ & _ & _ & B5). rewrite B5 in L.
            rewrite Ks in R1. destruct (Qeq_bool (ev_time e) 0) eqn:E0.
            - rewrite R4, Hw. unfold frame_time. apply Qmult_le_compat_r; [|lra]. rewrite <- Zle_Qle. lia.
            - rewrite R4. lra. }
          destruct R as [Rk _ _ _]. rewrite Ks in Rk. rewrite Rk, H1. cbn [bind snd fst]; auto 8. }
    destruct Step as (p' & Fz & [(S1 & S2 & S3 & S6)|(S1 & S2 & S3 & S4 & S5)]).
    + exists p', [], (s :: l), t0, v0. split; [exact S1|]. split; [exact Fz|]. split; [reflexivity|]. split; [exact S2|]. split; [exact S3|split; [apply Forall_nil|split; [reflexivity|exists (@nil event); rewrite S6, E; reflexivity]]].
    + assert (Hs' : sorted_from w l) by (destruct Hs as [Ha Hb]; inversion Ha; inversion Hb; split; assumption).
      assert (Hz' : zero_now w (p_timeline p')) by (rewrite S2; rewrite E in Hz; inversion Hz; assumption).
      destruct (IH fuel w F C p' b (s_time s) (s_value s) B Hw HF Hs' Hz' S3) as (q & l1 & l2 & t1 & v1 & Q1 & Q2 & Q3 & Q4 & Q5 & Q6 & Q7 & (tl & Q8)); [cbn in Hfu; lia|].
      exists q, (s :: l1), l2, t1, v1. rewrite S1. split; [exact Q1|]. split; [eapply frozen_trans; eassumption|].
      split; [rewrite Q3; reflexivity|]. split; [exact Q4|]. split; [destruct l1; [rewrite Q5; exact S4|exact Q5]|split; [constructor; assumption|split; [exact Q7|exists (e :: tl); cbn [app]; rewrite <- Q8, S2; reflexivity]]].
Qed.

Lemma curve_app : forall reached l1 l2 t0 v0 t, Forall (fun s => reached s = true) l1 ->
  curve reached t0 v0 (l1 ++ l2) t = curve reached (fst (last_of (t0, v0) l1)) (snd (last_of (t0, v0) l1)) l2 t.
Proof.
  intros reached l1. induction l1 as [|s l1 IH]; intros l2 t0 v0 t H; cbn [app curve]; [reflexivity|].
  inversion H as [|? ? H1 H2]; subst. rewrite H1. rewrite IH by exact H2. reflexivity.
Qed.

(** ** The state between quanta *)
Variables dflt lo hi : Q.
Hypothesis lo_hi : lo <= hi.
Notation now := (now dt RQ).

Record st (n : nat) (E : list sev) (p : param) : Prop := {
  st_range : p_min p = lo /\ p_max p = hi /\ p_arate p = true;
  st_model_sorted : time_sorted P (p_timeline p);
  st_split : exists D L t0 v0, E = D ++ L /\ (t0, v0) = last_of (0, dflt) D /\
    Forall (fun s => s_time s <= now n) D /\ sorted_from (now n) L /\
    Forall2 (rel (now n)) (p_timeline p) L /\
    match p_last p with Some e => D <> [] /\ ev_time e == t0 /\ ev_value e == v0 | None => D = [] /\ not_linear_head L end /\
    (not_linear_head L -> p_intrinsic p == v0);
  st_zero : zero_now (now n) (p_timeline p);
  st_first : n = 0%nat -> p_last p = None
}.

Lemma st_new : st 0 [] (new_param true dflt lo hi).
Proof.
  constructor; cbn; try (repeat split; reflexivity); try constructor; try (intros; reflexivity).
  exists [], [], 0, dflt. repeat split; try constructor.
Qed.

Lemma now_pos : forall n, 0 <= now n.
Proof. intro n. unfold Param_CurveSpec.now, frame_time, first_frame. apply Qmult_le_0_compat; [|lra]. change 0 with (inject_Z 0). rewrite <- Zle_Qle. lia. Qed.
Lemma now_next : forall n, now (S n) = ftime (first_frame RQ n + Z.of_nat RQ).
Proof. intro n. unfold Param_CurveSpec.now. f_equal. unfold first_frame. lia. Qed.
Lemma now_lt : forall n, now n < now (S n).
Proof.
  intro n. unfold Param_CurveSpec.now, frame_time. apply Qmult_lt_compat_r; [exact dt_pos|]. rewrite <- Zlt_Qlt. unfold first_frame. lia.
Qed.

(** ** Mixing *)
Lemma limit_clamped : forall p v v', p_min p = lo -> p_max p = hi -> v == v' -> limit P p v == clamped lo hi v'.
Proof.
  intros p v v' H1 H2 Hv. unfold limit, clamped. rewrite H1, H2. cbn. pose proof lo_hi.
  destruct (Qle_bool v lo) eqn:A; [apply Qle_bool_iff in A|apply Qle_bool_false in A].
  - assert (B : Qle_bool v' lo = true) by (apply Qle_bool_iff; lra). rewrite B.
    destruct (Qle_bool hi lo) eqn:G; [apply Qle_bool_iff in G|]; lra.
  - destruct (Qle_bool v' lo) eqn:B; [apply Qle_bool_iff in B; lra|].
    destruct (Qle_bool hi v) eqn:G; [apply Qle_bool_iff in G|apply Qle_bool_false in G];
      (destruct (Qle_bool hi v') eqn:G'; [apply Qle_bool_iff in G'|apply Qle_bool_false in G']); lra.
Qed.

Lemma Forall2_nth : forall (a b : list Q), length a = length b -> (forall i, (i < length a)%nat -> nth i a 0 == nth i b 0) -> Forall2 Qeq a b.
Proof.
  induction a as [|x a IH]; intros [|y b] H Hn; cbn in H; try lia; constructor; [apply (Hn 0%nat); cbn; lia|].
  apply IH; [lia|]. intros i Hi. apply (Hn (S i)). cbn. lia.
Qed.

Lemma nth_map_seq : forall (f : nat -> Q) n i, (i < n)%nat -> nth i (map f (seq 0 n)) 0 = f i.
Proof.
  intros f n i H. rewrite (nth_indep _ 0 (f 0%nat)) by (rewrite map_length, seq_length; exact H). rewrite map_nth, seq_nth by exact H. reflexivity.
Qed.
Lemma nth_repeat_Q : forall (v : Q) n i, (i < n)%nat -> nth i (repeat v n) 0 = v.
Proof. intros v n. induction n; intros [|i] H; cbn; try lia; [reflexivity|]. apply IHn. lia. Qed.

Lemma spread_full : forall out, length out = RQ -> spread RQ out = out.
Proof. intros [|v [|v' out]] H; try reflexivity. cbn in H. unfold spread. rewrite <- H. reflexivity. Qed.

Lemma mix : forall p input silent F C, p_min p = lo -> p_max p = hi -> p_arate p = true -> input_ok RQ input silent ->
  (length (p_buffer p) = 1%nat /\ (forall j, (j < RQ)%nat -> C (F + Z.of_nat j)%Z == nth 0 (p_buffer p) 0)) \/ (length (p_buffer p) = RQ /\ agree F C 0 (p_buffer p)) ->
  exists out, mix_to_output P p input silent = Ok out /\
    Forall2 Qeq (spread RQ out) (map (fun j => clamped lo hi (C (F + Z.of_nat j)%Z + nth j input 0)) (seq 0 RQ)).
Proof.
  intros p input silent F C H1 H2 H3 [I1 I2] Hb.
  assert (Hb' : (length (p_buffer p) = 1%nat /\ (forall j, (j < RQ)%nat -> C (F + Z.of_nat j)%Z == nth 0 (p_buffer p) 0)) \/ (length (p_buffer p) <> 1%nat /\ length (p_buffer p) = RQ /\ agree F C 0 (p_buffer p))).
  { destruct Hb as [Hb|[Hb1 Hb2]]; [left; exact Hb|]. destruct (Nat.eq_dec (length (p_buffer p)) 1) as [E|E]; [|right; auto].
    left. split; [exact E|]. intros j Hj. assert (j = 0)%nat by lia. subst j. symmetry. apply (Hb2 0%nat). lia. }
  unfold mix_to_output. rewrite H3. cbn [negb]. rewrite !orb_false_r.
  destruct Hb' as [[B1 B2]|(B0 & B1 & B2)].
  - rewrite B1. cbn [Nat.eqb]. destruct (p_buffer p) as [|v [|]]; cbn in B1; try lia. cbn [nth] in B2.
    destruct silent.
    + destruct input as [|i0 input]; [cbn in I1; lia|]. eexists. split; [reflexivity|].
      unfold spread. apply Forall2_nth; [rewrite repeat_length, map_length, seq_length; reflexivity|].
      intros i Hi. rewrite repeat_length in Hi. rewrite nth_repeat_Q, nth_map_seq by exact Hi. apply limit_clamped; try assumption.
      rewrite (B2 i Hi). cbn. specialize (I2 eq_refl). rewrite Forall_forall in I2.
      rewrite (I2 i0) by (left; reflexivity). rewrite (I2 (nth i (i0 :: input) 0)); [reflexivity|]. apply nth_In. lia.
    + eexists. split; [reflexivity|]. rewrite spread_full by (rewrite map_length; exact I1).
      apply Forall2_nth; [rewrite !map_length, seq_length; exact I1|]. intros i Hi. rewrite map_length in Hi.
      rewrite nth_map_seq by lia. rewrite (nth_indep _ 0 (limit P p (v_add P 0 v))) by (rewrite map_length; exact Hi).
      rewrite (map_nth (fun i0 => limit P p (v_add P i0 v))). apply limit_clamped; try assumption. rewrite (B2 i) by lia. cbn. ring.
  - apply Nat.eqb_neq in B0. rewrite B0. eexists. split; [reflexivity|].
    rewrite skipn_all2 by lia. rewrite app_nil_r.
    rewrite spread_full by (rewrite map_length, combine_length; lia).
    apply Forall2_nth; [rewrite !map_length, combine_length, seq_length; lia|]. intros i Hi. rewrite map_length, combine_length in Hi.
    rewrite nth_map_seq by lia.
    rewrite (nth_indep _ 0 ((fun ip => limit P p (v_add P (fst ip) (snd ip))) (0, 0))) by (rewrite map_length, combine_length; exact Hi).
    rewrite (map_nth (fun ip => limit P p (v_add P (fst ip) (snd ip)))). rewrite combine_nth by lia. apply limit_clamped; try assumption.
    cbn [fst snd]. rewrite (B2 i) by lia. cbn. ring.
Qed.

(** ** A quantum *)
Lemma rel_later : forall w w' tl L, Forall2 (rel w) tl L -> Forall (fun e => Qeq_bool (ev_time e) 0 = false) tl -> Forall2 (rel w') tl L.
Proof.
  intros w w' tl L R. induction R as [|x y tl L [A B D E] R IH]; intro H; constructor; inversion H as [|? ? H1 H2]; subst; [|apply IH; exact H2].
  constructor; try assumption. rewrite H1 in *. exact E.
Qed.

Lemma rel_length : forall w tl L, Forall2 (rel w) tl L -> length tl = length L.
Proof. intros w tl L R. induction R; cbn; lia. Qed.

Lemma play : forall n E p input silent, st n E p -> input_ok RQ input silent ->
  exists p' out, process P RQ p (now n) dt input silent = Ok (p', out) /\ st (S n) E p' /\
    Forall2 Qeq (spread RQ out) (map (fun j => clamped lo hi (frame_curve dt dflt E (first_frame RQ n + Z.of_nat j) + nth j input 0)) (seq 0 RQ)).
Proof.
  intros n E p input silent [(Rlo & Rhi & Rar) Hsrt (D & L & t0 & v0 & HE & Hlast & HD & HL & HR & Hla & Hin) Hz Hf] Hi.
  set (F := first_frame RQ n). set (C := frame_curve dt dflt E).
  assert (HC : forall f, (F <= f)%Z -> C f == at_frame t0 v0 L f).
  { intros f Hf2. unfold C, frame_curve. rewrite HE, curve_app.
    - rewrite <- Hlast. reflexivity.
    - eapply Forall_impl; [|exact HD]. cbn. intros s Hs. apply Z.leb_le. apply Z.le_trans with F; [|exact Hf2]. apply (nearest_le dt dt_pos). exact Hs. }
  assert (HF : (0 <= F)%Z) by (unfold F, first_frame; lia).
  assert (Nx : t_fma P dt (t_of_nat P RQ) (now n) == ftime (F + Z.of_nat RQ)) by (apply (exact_next Q_exp Q_powf); reflexivity).
  assert (Pos : 0 < ftime (F + Z.of_nat RQ)) by (unfold F; rewrite <- now_next; pose proof (now_pos n); pose proof (now_lt n); lra).
  unfold process, compute_buffer. cbn [v_clamp exact_ops]. rewrite Rlo, Rhi. pose proof lo_hi as Hlh. apply Qle_bool_iff in Hlh. rewrite Hlh. cbn [from_option bind].
  cbn [set_buffer set_current p_timeline p_arate p_intrinsic p_last p_buffer p_default p_min p_max]. rewrite Rar. cbn [negb orb].
  set (cur := if Q_lt (p_intrinsic p) lo then lo else if Q_lt hi (p_intrinsic p) then hi else p_intrinsic p).
  destruct (match p_timeline p with [] => true | e :: _ => if is_ramp (ev_type e) then false else t_le P (t_fma P dt (t_of_nat P RQ) (now n)) (ev_time e) end) eqn:Ec.
  - (* a constant block *)
    rewrite extend_ok' by (cbn; lia). cbn [bind].
    assert (K : not_linear_head L /\ Forall (fun s => ftime (F + Z.of_nat RQ) <= s_time s) L).
    { inversion HR as [E1 E2|e s tl L' R1 R2 E1 E2]; subst; [split; [exact I|constructor]|]. rewrite <- E1 in Ec.
      destruct (is_ramp (ev_type e)) eqn:Er; [discriminate|]. pose proof R1 as [A B G H].
      assert (Kj : s_kind s = Jump). { destruct (s_kind s); [reflexivity|]. rewrite A in Er. discriminate. }
      split; [exact Kj|]. cbn [t_le exact_ops] in Ec. apply Qle_bool_iff in Ec.
      assert (Hs : ftime (F + Z.of_nat RQ) <= s_time s).
      { destruct (Qeq_bool (ev_time e) 0) eqn:E0; [apply Qeq_bool_iff in E0; lra|]. rewrite H. lra. }
      constructor; [exact Hs|]. destruct HL as [HL _]. inversion HL as [|? ? _ HL2]; subst. eapply Forall_impl; [|exact HL2]. cbn. intros a Ha. lra. }
    destruct K as [K1 K2].
    match goal with |- context[set_buffer ?q ?vs] => set (p' := set_buffer q vs) end.
    destruct (mix p' input silent F C Rlo Rhi Rar Hi) as (out & Eo & Ho).
    { left. split; [reflexivity|]. intros j Hj. cbn [p' set_buffer p_buffer set_current app nth]. rewrite HC by lia. rewrite (Hin K1).
      destruct L as [|s L]; [reflexivity|]. rewrite at_frame_before.
      - cbn in K1. rewrite K1. reflexivity.
      - inversion K2 as [|? ? Hs _]; subst. pose proof (nearest_ge dt dt_pos _ _ Hs). lia. }
    rewrite Eo. cbn [bind]. exists p', out. split; [reflexivity|]. split; [|exact Ho].
    pose proof (nonzero_later (now n) F (p_timeline p) L (Qeq_refl _) HR K2) as Nz.
    constructor; cbn [p' set_buffer set_current p_timeline p_last p_intrinsic p_min p_max p_arate].
    + repeat split; assumption.
    + exact Hsrt.
    + exists D, L, t0, v0. rewrite now_next. fold F. repeat split; try assumption.
      * eapply Forall_impl; [|exact HD]. cbn. intros s Hs. pose proof (now_lt n) as Hn. rewrite now_next in Hn. fold F in Hn. lra.
      * exact (proj1 HL).
      * eapply rel_later; [exact HR|exact Nz].
    + unfold zero_now. eapply Forall_impl; [|exact Nz]. cbn. intros e H1 _ H2. congruence.
    + discriminate.
  - (* the events of the block *)
    cbn [bind].
    match goal with |- context[do_events P RQ ?fu0 ?q ?bb] => set (b := bb); set (fu := fu0); set (p1 := q) end.
    assert (B : block_at F b) by (repeat split; cbn; try reflexivity; try exact Rar; exact Nx).
    assert (M : mid (now n) F C p1 L t0 v0).
    { constructor; cbn [p1 set_buffer set_current p_timeline p_last p_intrinsic p_buffer length].
      - exact HR.
      - intros f Hf2. apply HC. lia.
      - intros i Hi2. cbn in Hi2. lia.
      - lia.
      - destruct (p_last p); [tauto|exact (proj2 Hla)].
      - exact Hin. }
    destruct (loop L fu (now n) F C p1 b t0 v0 B (Qeq_refl _) HF HL Hz M) as (p' & l1 & l2 & t1 & v1 & E1 & (Z1 & Z2 & Z3 & Z4) & E2 & Ov & La & Le & Eq & (tl & Tl)).
    { pose proof (rel_length _ _ _ HR) as Hl. change (length L < 2 * length (p_timeline p) + 1)%nat. lia. }
    rewrite E1. cbn [bind]. destruct Ov as [O1 O2 O3 O4 O5 O6 O7 O8].
    cbn [p1 set_buffer set_current p_min p_max p_arate p_last] in Z1, Z2, Z4, La.
    destruct (mix p' input silent F C) as (out & Eo & Ho); [congruence|congruence|congruence|exact Hi|right; split; assumption|].
    rewrite Eo. cbn [bind]. exists p', out. split; [reflexivity|]. split; [|exact Ho].
    constructor.
    + repeat split; congruence.
    + cbn [p1 set_buffer set_current p_timeline] in Tl. rewrite Tl in Hsrt. clear - Hsrt. induction tl as [|x tl IH]; [exact Hsrt|].
      apply IH. inversion Hsrt; assumption.
    + exists (D ++ l1), l2, t1, v1. rewrite now_next. fold F. split; [rewrite HE, E2, app_assoc; reflexivity|].
      split; [unfold last_of in *; rewrite fold_left_app, <- Hlast; exact Eq|].
      split; [apply Forall_app; split; [|exact Le]; eapply Forall_impl; [|exact HD]; cbn; intros s Hs; pose proof (now_lt n) as Hn; rewrite now_next in Hn; fold F in Hn; lra|].
      split; [split; [|exact O7]; destruct HL as [HL _]; rewrite E2 in HL; clear - HL; induction l1 as [|x l1 IH]; [exact HL|apply IH; inversion HL; assumption]|].
      split; [eapply rel_later; [exact O1|exact O8]|]. split; [|exact O6].
      destruct (p_last p') as [e|] eqn:El.
      * split; [|exact O5]. destruct l1 as [|x l1]; [|destruct D; discriminate]. rewrite app_nil_r. rewrite <- La in Hla. tauto.
      * destruct l1 as [|x l1]; [|congruence]. rewrite <- La in Hla. split; [rewrite app_nil_r; tauto|exact O5].
    + unfold zero_now. eapply Forall_impl; [|exact O8]. cbn. intros e H1 _ H2. congruence.
    + discriminate.
Qed.

(** ** A scheduling call *)
Lemma insert_app : forall s b1 b2, Forall (fun y => s_time y <= s_time s) b1 -> insert_stable s (b1 ++ b2) = b1 ++ insert_stable s b2.
Proof.
  intros s b1 b2 H. induction H as [|y b1 Hy H IH]; [reflexivity|]. cbn [app insert_stable]. apply Qle_bool_iff in Hy. rewrite Hy, IH. reflexivity.
Qed.
Lemma insert_front : forall s b, Forall (fun y => s_time s < s_time y) b -> insert_stable s b = s :: b.
Proof.
  intros s [|y b] H; [reflexivity|]. inversion H as [|? ? Hy _]; subst. cbn [insert_stable].
  destruct (Qle_bool (s_time y) (s_time s)) eqn:E; [apply Qle_bool_iff in E; lra|reflexivity].
Qed.

Definition event_of (s : sev) : event :=
  simple (match s_kind s with Jump => SetValueAtTime | Linear => LinearRamp end) (s_value s) (s_time s).

Lemma insert_ok : forall n E p s tl', st n E p -> plan_ok dt RQ n E s -> (s_kind s = Linear -> E <> []) ->
  placed P (event_of s) (p_timeline p) tl' -> st n (insert_stable s E) (set_timeline p tl').
Proof.
  intros n E p s tl' [Rg Hsrt (D & L & t0 & v0 & HE & Hlast & HD & HL & HR & Hla & Hin) Hz Hf] (G1 & G2 & G3) Hne Pl.
  pose proof (now_pos n) as Np.
  assert (So : time_sorted P tl').
  { eapply (placed_sorted P (fun _ => True)); [apply TO|exact Pl|exact Hsrt|apply Forall_forall; intros; exact I|exact I]. }
  destruct Pl as (a1 & a2 & A1 & A2 & A3 & A4). cbn [event_of simple ev_time t_le t_lt exact_ops] in A3, A4.
  rewrite A1 in HR. apply Forall2_app_inv_l in HR. destruct HR as (b1 & b2 & R1 & R2 & EL).
  assert (B1 : Forall (fun y => s_time y <= s_time s) b1).
  { clear - R1 A3 G1. induction R1 as [|x y a1 b1 [_ _ _ Rt] R1 IH]; constructor; inversion A3 as [|? ? Hx Hr]; subst; [|apply IH; exact Hr].
    apply Qle_bool_iff in Hx. destruct (Qeq_bool (ev_time x) 0); [rewrite Rt; exact G1|rewrite Rt; exact Hx]. }
  assert (B2 : Forall (fun y => s_time s < s_time y) b2).
  { clear - R2 A4 G1 Np. induction R2 as [|x y a1 b1 [_ _ _ Rt] R1 IH]; constructor; inversion A4 as [|? ? Hx Hr]; subst; [|apply IH; exact Hr].
    apply Q_lt_spec in Hx. destruct (Qeq_bool (ev_time x) 0) eqn:E0; [apply Qeq_bool_iff in E0; lra|rewrite Rt; exact Hx]. }
  assert (R : rel (now n) (event_of s) s).
  { constructor; cbn; try reflexivity; [destruct (s_kind s); auto|]. destruct (Qeq_bool (s_time s) 0) eqn:E0; [apply Qeq_bool_iff in E0; lra|reflexivity]. }
  constructor; cbn [set_timeline p_timeline p_last p_intrinsic p_min p_max p_arate]; try assumption.
  - exists D, (b1 ++ s :: b2), t0, v0. split.
    { rewrite HE, EL, insert_app; [|eapply Forall_impl; [|exact HD]; cbn; intros; lra]. rewrite insert_app by exact B1. rewrite insert_front by exact B2. reflexivity. }
    split; [exact Hlast|]. split; [exact HD|]. rewrite EL in HL. destruct HL as [HL1 HL2]. apply Forall_app in HL2. split.
    { split; [|apply Forall_app; split; [tauto|constructor; [exact G1|tauto]]].
      clear - HL1 B1 B2. induction b1 as [|y b1 IH]; cbn [app] in *.
      - constructor; [exact HL1|]. eapply Forall_impl; [|exact B2]. cbn. intros; lra.
      - inversion HL1 as [|? ? HL1' HL1'']; subst. inversion B1; subst. constructor; [apply IH; assumption|].
        apply Forall_app in HL1''. apply Forall_app. split; [tauto|constructor; tauto]. }
    split; [rewrite A2; apply Forall2_app; [exact R1|constructor; assumption]|].
    split.
    + destruct (p_last p); [exact Hla|]. destruct Hla as [-> Hla]. split; [reflexivity|]. rewrite EL in Hla.
      destruct b1 as [|y b1]; [|exact Hla]. cbn. destruct (s_kind s) eqn:Ks; [reflexivity|]. exfalso.
      destruct (G2 eq_refl (Hne eq_refl)) as (e0 & I0 & T0). rewrite HE, EL in I0. cbn in I0. rewrite Forall_forall in B2. specialize (B2 _ I0). lra.
    + intro Hj. apply Hin. rewrite EL. destruct b1 as [|y b1]; [|exact Hj]. cbn [app]. destruct b2 as [|r b2]; [exact I|]. cbn.
      destruct (s_kind r) eqn:Kr; [reflexivity|]. exfalso. inversion B2 as [|? ? Hr _]; subst.
      destruct n as [|n].
      * rewrite (Hf eq_refl) in Hla. destruct Hla as [_ Hla]. cbn in Hla. congruence.
      * specialize (G3 ltac:(lia) D r b2 eq_refl Kr HD). lra.
  - rewrite A1 in Hz. unfold zero_now in *. rewrite A2. apply Forall_app in Hz. apply Forall_app. split; [tauto|]. constructor; [|tauto].
    intros _ H0. cbn in H0. apply Qeq_bool_iff in H0. lra.
Qed.

Lemma checks_ok : forall w p L s, Forall2 (rel w) (p_timeline p) L -> curve_checks P p (event_of s) = Ok tt.
Proof.
  intros w p L s R. unfold curve_checks. assert (H : forallb (fun q => if etype_eqb (ev_type q) SetValueCurve then
      match ev_duration q with None => false | Some d => t_le P (ev_time (event_of s)) (ev_time q) || t_le P (t_add P (ev_time q) d) (ev_time (event_of s)) end else true) (p_timeline p) = true).
  { apply forallb_forall. intros q Hq. induction R as [|x y tl L [Rk _ _ _] R IH]; [destruct Hq|]. destruct Hq as [->|Hq]; [|apply IH; exact Hq].
    destruct (s_kind y); [destruct Rk as [-> | ->]|rewrite Rk]; reflexivity. }
  unfold event_of in *. destruct (s_kind s); cbn [simple ev_type etype_eqb bind]; rewrite H; reflexivity.
Qed.

Lemma schedule : forall n E p s, st n E p -> plan_ok dt RQ n E s ->
  exists p', handle_incoming_event P p (event_of s) = Ok p' /\ st n (plan dt RQ dflt n E s) p'.
Proof.
  intros n E p s Hst Hok. pose proof Hst as [Rg Hsrt (D & L & t0 & v0 & HE & Hlast & HD & HL & HR & Hla & Hin) Hz Hf].
  rewrite schedule_eq; [|unfold event_of; destruct (s_kind s); discriminate|unfold event_of; destruct (s_kind s); discriminate|eapply checks_ok; exact HR].
  assert (Ns : etype_eqb (ev_type (event_of s)) SetValue = false) by (unfold event_of; destruct (s_kind s); reflexivity).
  rewrite Ns.
  rewrite (sort_timeline_ok P any TO) by (apply Forall_forall; intros; exact I). cbn [bind].
  eexists. split; [reflexivity|].
  (* the list with the implicit event *)
  set (tl := with_implicit P p (event_of s)).
  set (E0 := match E, s_kind s with [], Linear => [mk_sev Jump dflt (now n)] | _, _ => E end).
  assert (S0 : st n E0 (set_timeline p tl) /\ plan_ok dt RQ n E0 s /\ (s_kind s = Linear -> E0 <> [])).
  { destruct E as [|x E].
    - symmetry in HE. apply app_eq_nil in HE. destruct HE as [-> ->]. inversion HR as [Et|]; subst.
      destruct (s_kind s) eqn:Ks.
      + assert (Etl : tl = p_timeline p). { unfold tl, with_implicit, event_of. rewrite <- Et, Ks. cbn. destruct (p_last p); reflexivity. }
        rewrite Etl. subst E0. cbn. replace (set_timeline p (p_timeline p)) with p by (destruct p; reflexivity). split; [exact Hst|]. split; [exact Hok|discriminate].
      + assert (Pl : p_last p = None) by (destruct (p_last p); [destruct Hla as [Hla _]; congruence|reflexivity]).
        assert (Etl : tl = [simple SetValue (p_intrinsic p) 0]). { unfold tl, with_implicit, event_of. rewrite <- Et, Pl, Ks. reflexivity. }
        rewrite Etl. subst E0. cbn. cbn in Hlast. inversion Hlast; subst. split.
        * constructor; cbn; try assumption; try (repeat constructor; fail).
          -- exists [], [mk_sev Jump dflt (now n)], 0, dflt. rewrite Pl. split; [reflexivity|]. split; [reflexivity|]. split; [apply Forall_nil|].
             split; [split; [repeat constructor|constructor; [apply Qle_refl|apply Forall_nil]]|].
             split; [constructor; [|constructor]; constructor; cbn; [left; reflexivity|apply Hin; exact I|reflexivity|reflexivity]|].
             split; [split; reflexivity|]. intros _. apply Hin. exact I.
          -- constructor; [|constructor]. intros H. discriminate.
        * split; [|discriminate]. destruct Hok as (G1 & G2 & G3). split; [exact G1|]. split.
          -- intros _ _. eexists. split; [left; reflexivity|]. cbn. exact G1.
          -- intros _ l1 r l2 El Kr _ _. destruct l1 as [|y [|z l1]]; inversion El; subst; cbn in Kr; discriminate.
    - assert (EE : E0 = x :: E) by reflexivity. rewrite EE.
      assert (Etl : tl = p_timeline p).
      { unfold tl, with_implicit. destruct (p_timeline p) as [|h t] eqn:Et; [|reflexivity]. inversion HR; subst. rewrite app_nil_r in HE.
        destruct (p_last p); [|destruct Hla; subst; discriminate]. unfold event_of. destruct (s_kind s); reflexivity. }
      rewrite Etl. replace (set_timeline p (p_timeline p)) with p by (destruct p; reflexivity). split; [exact Hst|]. split; [exact Hok|discriminate]. }
  destruct S0 as (S1 & S2 & S3).
  assert (Pl : placed P (event_of s) tl (sort_events P (tl ++ [event_of s]))).
  { apply (sort_placed P any TO); [exact (st_model_sorted _ _ _ S1)|apply Forall_forall; intros; exact I|exact I]. }
  pose proof (insert_ok n E0 (set_timeline p tl) s _ S1 S2 S3 Pl) as H. exact H.
Qed.

(** ** All histories *)
Theorem automation_curve : forall os n E p, st n E p -> plans_ok dt RQ dflt n E os ->
  exists p' outs, prun P RQ p (to_ops dt RQ n os) = Ok (p', outs) /\
    Forall2 (Forall2 Qeq) (map (spread RQ) outs) (expected dt RQ dflt lo hi n E os).
Proof.
  induction os as [|[s|input silent] os IH]; intros n E p Hst Hok; cbn [to_ops prun expected plans_ok] in *.
  - exists p, []. split; [reflexivity|constructor].
  - destruct Hok as [H1 H2]. destruct (schedule n E p s Hst H1) as (p1 & E1 & S1).
    destruct (IH n _ p1 S1 H2) as (p' & outs & E2 & F2).
    assert (Ec : call_event P (match s_kind s with Jump => C_set_value_at_time | Linear => C_linear_ramp end (s_value s) (s_time s)) = Some (event_of s)).
    { assert (Ht : Qle_bool 0 (s_time s) = true). { apply Qle_bool_iff. destruct H1 as [H1 _]. pose proof (now_pos n). lra. }
      unfold event_of. destruct (s_kind s); cbn; unfold valid_time; cbn; rewrite Ht; reflexivity. }
    cbn [pstep]. rewrite Ec, E1. cbn [bind fst snd]. rewrite E2. cbn [bind fst snd]. exists p', outs. split; [reflexivity|exact F2].
  - destruct Hok as [H1 H2]. destruct (play n E p input silent Hst H1) as (p1 & out & E1 & S1 & F1).
    destruct (IH (S n) E p1 S1 H2) as (p' & outs & E2 & F2).
    cbn [pstep]. rewrite E1. cbn [bind fst snd]. rewrite E2. cbn [bind fst snd app]. exists p', (out :: outs). split; [reflexivity|].
    cbn [map]. constructor; assumption.
Qed.

(** events on frames: the sampled curve is the curve of the specification *)
Lemma frame_curve_ideal : forall l d f, Forall (fun s => exists k, s_time s == ftime k) l -> frame_curve dt d l f = ideal_curve d l (ftime f).
Proof.
  unfold frame_curve, ideal_curve. intros l d f. generalize 0. revert d. induction l as [|s l IH]; intros d t0 H; [reflexivity|]. cbn [curve].
  inversion H as [|? ? (k & Hk) Hl]; subst.
  assert (E : Z.leb (near (s_time s)) f = Qle_bool (s_time s) (ftime f)).
  { rewrite (nearest_comp dt _ _ Hk), (nearest_frame dt dt_pos).
    destruct (Z.leb_spec k f) as [L|L]; symmetry.
    - apply Qle_bool_iff. rewrite Hk. unfold frame_time. apply Qmult_le_compat_r; [|lra]. rewrite <- Zle_Qle. exact L.
    - destruct (Qle_bool (s_time s) (ftime f)) eqn:E; [|reflexivity]. apply Qle_bool_iff in E. rewrite Hk in E. exfalso.
      assert (ftime f < ftime k); [|lra]. unfold frame_time. apply Qmult_lt_compat_r; [exact dt_pos|]. rewrite <- Zlt_Qlt. exact L. }
  rewrite E. destruct (Qle_bool (s_time s) (ftime f)); [apply IH; exact Hl|reflexivity].
Qed.
End Curve.
