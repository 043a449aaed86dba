(** Proofs for k-rate parameters: the events are handled as for an a-rate parameter (with frames as short as one
    likes), and the value at the beginning of a quantum is that of the curve. *)
From Coq Require Import List Arith Bool ZArith Reals Lia Lra Sorted.
From Flocq Require Import Core.
From Verif Require Import Common_Model Param_Model Param_Spec Param_Real Param_TimelineProofs Param_EnvelopeSpec Param_RealProofs Param_SafetyProofs
  Param_EnvelopeProofs Param_KrateSpec.
Import ListNotations.
Local Open Scope R_scope.
Notation event := (@event R R).
Notation param := (@param R R).
Notation P := real_ops.

(** ** The same events with and without samples *)
Definition agree (p q : param) : Prop :=
  p_timeline p = p_timeline q /\ p_last p = p_last q /\ p_intrinsic p = p_intrinsic q /\
  p_min p = p_min q /\ p_max p = p_max q /\ p_default p = p_default q.

(** all but the intrinsic value *)
Definition nearly (p q : param) : Prop :=
  p_timeline p = p_timeline q /\ p_last p = p_last q /\ p_min p = p_min q /\ p_max p = p_max q /\ p_default p = p_default q.
Lemma agree_nearly : forall p q, agree p q -> nearly p q.
Proof. unfold agree, nearly. tauto. Qed.

Lemma extend_nearly : forall RQ (p q : param) vs, extend RQ p vs = Ok q -> agree p q.
Proof. intros RQ p q vs H. unfold extend in H. destruct (Nat.leb _ _); [|discriminate]. injection H as <-. repeat split; reflexivity. Qed.
Lemma sample_nearly : forall RQ p q b t f, sample_block P RQ p b t f = Ok q -> nearly p q.
Proof.
  intros RQ p q b t f H. unfold sample_block in H. destruct (b_arate b); [|injection H as <-; repeat split; reflexivity].
  destruct (Nat.ltb _ _); [|injection H as <-; repeat split; reflexivity].
  destruct (samples P _ _ _ f) as [vs| | ]; try discriminate. cbn [bind] in H.
  destruct (extend RQ p vs) as [p'| | ] eqn:E; try discriminate. cbn [bind] in H. injection H as <-. apply extend_nearly in E.
  destruct E as (E1 & E2 & _ & E3 & E4 & E5). unfold nearly. cbn [set_intrinsic p_timeline p_last p_min p_max p_default]. auto.
Qed.
Lemma nearly_trans : forall p q r, nearly p q -> nearly q r -> nearly p r.
Proof. unfold nearly. intros p q r (A & B & C & D & E) (A' & B' & C' & D' & E'). repeat split; congruence. Qed.
Lemma intrinsic_agree : forall p q v, nearly p q -> agree (set_intrinsic p v) (set_intrinsic q v).
Proof. unfold nearly, agree. intros p q v (A & B & C & D & E). cbn. repeat split; assumption. Qed.
Lemma timeline_agree : forall p q l, agree p q -> agree (set_timeline p l) (set_timeline q l).
Proof. unfold agree. intros p q v (A & B & C & D & E & F). cbn. repeat split; assumption. Qed.
Lemma last_agree : forall p q l, agree p q -> agree (set_last p l) (set_last q l).
Proof. unfold agree. intros p q v (A & B & C & D & E & F). cbn. repeat split; assumption. Qed.
Lemma buffer_agree : forall p q l l', agree p q -> agree (set_buffer p l) (set_buffer q l').
Proof. unfold agree. intros p q v v' (A & B & C & D & E & F). cbn. repeat split; assumption. Qed.
Lemma agree_refl : forall p, agree p p.
Proof. repeat split; reflexivity. Qed.
Lemma agree_trans : forall p q r, agree p q -> agree q r -> agree p r.
Proof. unfold agree. intros p q r (A & B & C & D & E & F) (A' & B' & C' & D' & E' & F'). repeat split; congruence. Qed.

Definition like (b b' : @block R) : Prop := b_time b = b_time b' /\ b_next b = b_next b' /\ b_arate b = false.

Lemma like_event : forall RQ RQ' p q b b' q' fl, agree p q -> like b b' -> do_event P RQ' q b' = Ok (q', fl) ->
  exists p', do_event P RQ p b = Ok (p', fl) /\ agree p' q'.
Proof.
  intros RQ RQ' p q b b' q' fl A (L1 & L2 & L3) H. pose proof A as (A1 & A2 & A3 & A4 & A5 & A6). unfold do_event in *. rewrite A1.
  destruct (p_timeline q) as [|e rest].
  { rewrite L3. cbn [bind]. exists p. split.
    - destruct (b_arate b'); [destruct (extend _ _ _); try discriminate|]; cbn [bind] in H; injection H as _ <-; reflexivity.
    - destruct (b_arate b'); [destruct (extend RQ' q _) as [q1| | ] eqn:E; try discriminate; apply extend_nearly in E|]; cbn [bind] in H; injection H as <- <-; [|exact A].
      eapply agree_trans; eassumption. }
  assert (SB : forall t f, sample_block P RQ p b t f = Ok p) by (intros; unfold sample_block; rewrite L3; reflexivity).
  assert (Nq : forall q1 t f, sample_block P RQ' q b' t f = Ok q1 -> nearly p q1).
  { intros q1 t f Hs. apply sample_nearly in Hs. eapply nearly_trans; [apply agree_nearly; exact A|exact Hs]. }
  destruct (ev_type e).
  - unfold do_set_value in *. rewrite L1, L2, L3. cbn [bind].
    set (tm := if t_eq P (ev_time e) (t_zero P) then b_time b' else ev_time e) in *.
    assert (exists q1, agree p q1 /\ (if t_lt P (b_next b') tm then Ok (q1, true) else
      Ok (set_last (set_timeline (set_intrinsic q1 (ev_value e)) rest) (Some (if t_eq P tm (ev_time e) then e else with_time e tm)), false)) = Ok (q', fl)) as (q1 & Aq & Hq).
    { destruct (b_arate b'); [destruct (extend RQ' q _) as [q1| | ] eqn:E; try discriminate; apply extend_nearly in E|]; cbn [bind] in H.
      - exists q1. split; [eapply agree_trans; eassumption|exact H].
      - exists q. split; assumption. }
    destruct (t_lt P (b_next b') tm); injection Hq as <- <-; eexists; (split; [reflexivity|]); [exact Aq|].
    apply last_agree, timeline_agree, intrinsic_agree, agree_nearly. exact Aq.
  - unfold do_set_value in *. rewrite L1, L2, L3. cbn [bind].
    set (tm := if t_eq P (ev_time e) (t_zero P) then b_time b' else ev_time e) in *.
    assert (exists q1, agree p q1 /\ (if t_lt P (b_next b') tm then Ok (q1, true) else
      Ok (set_last (set_timeline (set_intrinsic q1 (ev_value e)) rest) (Some (if t_eq P tm (ev_time e) then e else with_time e tm)), false)) = Ok (q', fl)) as (q1 & Aq & Hq).
    { destruct (b_arate b'); [destruct (extend RQ' q _) as [q1| | ] eqn:E; try discriminate; apply extend_nearly in E|]; cbn [bind] in H.
      - exists q1. split; [eapply agree_trans; eassumption|exact H].
      - exists q. split; assumption. }
    destruct (t_lt P (b_next b') tm); injection Hq as <- <-; eexists; (split; [reflexivity|]); [exact Aq|].
    apply last_agree, timeline_agree, intrinsic_agree, agree_nearly. exact Aq.
  - unfold do_linear_ramp in *. rewrite A2. destruct (p_last q) as [la|]; [|discriminate]. cbv zeta in *. rewrite SB, L2. cbn [bind].
    destruct (sample_block P RQ' q b' _ _) as [q1| | ] eqn:E; try discriminate. apply Nq in E. cbn [bind] in H.
    destruct (t_le P (b_next b') _).
    + injection H as <- <-. eexists. split; [reflexivity|]. apply intrinsic_agree. exact E.
    + destruct (ev_cancel e); injection H as <- <-; (eexists; split; [reflexivity|]); apply last_agree, timeline_agree, intrinsic_agree; exact E.
  - unfold do_exponential_ramp in *. rewrite A2. destruct (p_last q) as [la|]; [|discriminate]. cbv zeta in *. rewrite SB, L2.
    destruct (_ || _); [injection H as <- <-; eexists; split; [reflexivity|]; apply timeline_agree; exact A|]. cbn [bind].
    destruct (sample_block P RQ' q b' _ _) as [q1| | ] eqn:E; try discriminate. apply Nq in E. cbn [bind] in H.
    destruct (t_le P (b_next b') _).
    + injection H as <- <-. eexists. split; [reflexivity|]. apply intrinsic_agree. exact E.
    + destruct (ev_cancel e); injection H as <- <-; (eexists; split; [reflexivity|]); apply last_agree, timeline_agree, intrinsic_agree; exact E.
  - discriminate.
  - unfold do_set_target in *. cbv zeta in *. rewrite A2, L1, L2.
    destruct (match rest with [] => _ | _ => _ end) as [end1 ended1]. destruct (match ev_cancel e with Some _ => _ | None => _ end) as [et ended].
    destruct (p_last q) as [la|]; [|discriminate]. destruct (ev_constant e) as [tc|]; [|discriminate]. rewrite SB. cbn [bind].
    destruct (sample_block P RQ' q b' _ _) as [q1| | ] eqn:E; try discriminate. apply Nq in E. cbn [bind] in H.
    destruct (negb ended).
    + destruct (v_lt P _ _).
      * pose proof (intrinsic_agree _ _ (ev_value e) E) as Ei.
        destruct (v_eq P (ev_value e) (v_zero P)); injection H as <- <-; (eexists; split; [reflexivity|]); apply timeline_agree; [|exact Ei].
        eapply (buffer_agree (set_intrinsic p (ev_value e)) (set_intrinsic q1 (ev_value e))). exact Ei.
      * injection H as <- <-. eexists. split; [reflexivity|]. apply intrinsic_agree; exact E.
    + injection H as <- <-. eexists. split; [reflexivity|]. apply last_agree, timeline_agree, intrinsic_agree; exact E.
  - discriminate.
  - unfold do_value_curve in *. destruct (ev_duration e) as [d|]; [|discriminate]. destruct (ev_values e) as [vs|]; [|discriminate]. cbv zeta in *. rewrite SB, L2. cbn [bind].
    destruct (sample_block P RQ' q b' _ _) as [q1| | ] eqn:E; try discriminate. apply Nq in E. cbn [bind] in H.
    destruct (t_le P (b_next b') _).
    + destruct (value_curve_sample P _ _ _ _) as [v| | ]; try discriminate. cbn [bind] in *. injection H as <- <-. eexists. split; [reflexivity|]. apply intrinsic_agree. exact E.
    + destruct (match ev_cancel e with Some _ => _ | None => _ end) as [v| | ]; try discriminate. cbn [bind] in *. injection H as <- <-.
      eexists. split; [reflexivity|]. apply last_agree, timeline_agree, intrinsic_agree; exact E.
Qed.

Lemma like_events : forall RQ RQ' fuel p q b b' q', agree p q -> like b b' -> do_events P RQ' fuel q b' = Ok q' ->
  exists p', do_events P RQ fuel p b = Ok p' /\ agree p' q'.
Proof.
  intros RQ RQ'. induction fuel as [|fuel IH]; intros p q b b' q' A L H; [discriminate|]. cbn [do_events] in *.
  destruct (do_event P RQ' q b') as [[q1 fl]| | ] eqn:E; try discriminate. cbn [bind fst snd] in H.
  destruct (like_event RQ RQ' p q b b' q1 fl A L E) as (p1 & E1 & A1). rewrite E1. cbn [bind fst snd].
  destruct fl; [injection H as <-; exists p1; auto|]. eapply IH; eassumption.
Qed.

(** ** The value between two quanta *)
Section Code.
Variable dt : R.
Hypothesis dt_pos : 0 < dt.
Variable RQ : nat.
Hypothesis RQ_pos : (0 < RQ)%nat.
Notation now := (now dt RQ).
Variable N : nat.
Variable h : R.
Hypothesis h_small : h <= INR RQ * dt.

(** an event that is not at the beginning of a quantum *)
Definition off (e : event) : Prop := ev_type e = SetTarget \/ forall k, ev_time e <> now k.
(** a time is at least [h] behind the beginning of a quantum or not behind it *)
Definition sep (x : R) : Prop := forall k, (k <= N)%nat -> x <= now k \/ now k + h <= x.
Definition apart (e : event) : Prop :=
  ev_cancel e = None /\ sep (ev_time e) /\ match ev_duration e with Some d => sep (ev_time e + d) | None => True end.
Lemma sep_now : forall j, sep (now j).
Proof.
  intros j k _. destruct (le_lt_dec j k) as [L|L]; [left; apply (now_mono dt dt_pos RQ RQ_pos); exact L|right].
  apply Rle_trans with (now (S k)); [rewrite !(now_eq dt RQ), S_INR; lra|apply (now_mono dt dt_pos RQ RQ_pos); lia].
Qed.
Lemma sep_zero : sep 0.
Proof. replace 0 with (now 0%nat); [apply sep_now|]. rewrite (now_eq dt RQ). cbn. ring. Qed.

Definition sepS (s : sev) : Prop := sep (s_time s) /\ sep (s_end s).

Definition is_jump (e : event) : Prop := ev_type e = SetValue \/ ev_type e = SetValueAtTime.
Definition kin (n : nat) (p : param) : Prop :=
  match p_timeline p with
  | [] => True
  | e :: _ =>
      match ev_type e with
      | SetValue | SetValueAtTime => off e \/ (ev_value e = p_intrinsic p /\ (ev_time e = 0 \/ ev_time e = now n))
      | LinearRamp => off e /\ exists la, p_last p = Some la /\
          p_intrinsic p = linear_ramp_sample P (ev_time la) (ev_time e - ev_time la) (ev_value la) (ev_value e - ev_value la) (now n)
      | ExponentialRamp => off e /\ exists la, p_last p = Some la /\
          p_intrinsic p = exponential_ramp_sample P (ev_time la) (ev_time e - ev_time la) (ev_value la) (ev_value e / ev_value la) (now n)
      | SetTarget => now n < ev_time e \/ exists la tc, p_last p = Some la /\ ev_constant e = Some tc /\
          p_intrinsic p = set_target_sample P (ev_time e) tc (ev_value e) (ev_value la - ev_value e) (now n)
      | SetValueCurve => off e /\ (now n < ev_time e \/ exists d vs, ev_duration e = Some d /\ ev_values e = Some vs /\
          value_curve_sample P (ev_time e) d vs (now n) = Ok (p_intrinsic p))
      | CancelScheduled | CancelAndHold => False
      end
  end.
Definition headok (n : nat) (p : param) : Prop :=
  match p_timeline p with [] => True | e :: _ => off e \/ (is_jump e /\ (ev_time e = 0 \/ ev_time e = now n)) end.
Definition clean (p : param) : Prop := Forall apart (p_timeline p) /\ Forall off (tl (p_timeline p)).

Lemma kin_headok : forall n p, kin n p -> headok n p.
Proof.
  intros n p H. unfold kin, headok, is_jump in *. destruct (p_timeline p) as [|e tl]; [exact I|].
  destruct (ev_type e) eqn:E; try tauto. left. left. exact E.
Qed.

Lemma clean_tail : forall p e rest, p_timeline p = e :: rest -> clean p -> apart e /\ Forall apart rest /\ Forall off rest /\ Forall off (tl rest).
Proof.
  intros p e rest E [H1 H2]. rewrite E in *. cbn [tl] in H2. split; [exact (Forall_inv H1)|]. split; [exact (Forall_inv_tail H1)|]. split; [exact H2|].
  destruct rest; [constructor|exact (Forall_inv_tail H2)].
Qed.
Lemma headok_off : forall n (p : param), Forall off (p_timeline p) -> headok n p.
Proof. intros n p H. unfold headok. destruct (p_timeline p); [exact I|]. left. exact (Forall_inv H). Qed.

Definition kblk (n : nat) : @block R := mk_block (now n) dt RQ false (now (S n)).

Lemma kstep : forall n p p' fl, clean p -> headok n p -> do_event P RQ p (kblk n) = Ok (p', fl) ->
  clean p' /\ if fl then kin (S n) p' else headok n p'.
Proof.
  intros n p p' fl C Hh H. unfold do_event in H. pose proof (now_lt dt dt_pos RQ RQ_pos n (S n) ltac:(lia)) as Lt. pose proof (now_pos dt dt_pos RQ RQ_pos n) as Np.
  destruct (p_timeline p) as [|e rest] eqn:Et.
  { cbn [kblk b_arate bind] in H. injection H as <- <-. split; [exact C|]. unfold kin. rewrite Et. exact I. }
  destruct (clean_tail p e rest Et C) as (Ap & Ar & Fo & Fo2). unfold headok in Hh. rewrite Et in Hh.
  assert (SB : forall t f, sample_block P RQ p (kblk n) t f = Ok p) by reflexivity.
  assert (Pop : forall q la fl', (set_last (set_timeline q rest) la, false) = (p', fl') -> fl' = false /\ clean p' /\ headok n p').
  { intros q la fl' E. injection E as <- <-. split; [reflexivity|]. split.
    - split; cbn [set_last set_timeline p_timeline]; assumption.
    - apply headok_off. exact Fo. }
  assert (Jmp : do_set_value P RQ p (kblk n) e rest = Ok (p', fl) -> is_jump e -> clean p' /\ if fl then kin (S n) p' else headok n p').
  { intros Hj Ty. unfold do_set_value in Hj. cbn [kblk b_arate b_time b_next bind t_eq t_zero t_lt real_ops] in Hj.
    set (tm := if R_eq (ev_time e) 0 then now n else ev_time e) in *.
    destruct (R_lt (now (S n)) tm) eqn:Lt2.
    - injection Hj as <- <-. split; [exact C|]. apply R_lt_true in Lt2. unfold kin. rewrite Et.
      assert (O : off e).
      { destruct Hh as [O|[_ [O|O]]]; [exact O| |].
        - unfold tm in Lt2. rewrite O in Lt2. destruct (R_eq 0 0) eqn:E0; lra.
        - unfold tm in Lt2. destruct (R_eq (ev_time e) 0); lra. }
      destruct Ty as [-> | ->]; left; exact O.
    - destruct (Pop (set_intrinsic p (ev_value e)) (Some (if R_eq tm (ev_time e) then e else with_time e tm)) fl) as (-> & Q1 & Q2); [congruence|]. split; assumption. }
  assert (Oe : ~ is_jump e -> off e) by (intro Nj; destruct Hh as [O|[O _]]; [exact O|contradiction]).
  destruct Ap as (Nc & Se & Sd).
  destruct (ev_type e) eqn:Ty.
  - apply Jmp; [exact H|left; exact Ty].
  - apply Jmp; [exact H|right; exact Ty].
  - assert (O : off e) by (apply Oe; unfold is_jump; rewrite Ty; intros [X|X]; discriminate).
    unfold do_linear_ramp in H. destruct (p_last p) as [la|] eqn:El; [|discriminate]. rewrite Nc in H. rewrite SB in H. cbn [bind kblk b_next t_le t_sub v_sub real_ops] in H.
    destruct (R_le (now (S n)) (ev_time e)).
    + injection H as <- <-. split; [exact C|]. unfold kin. cbn [set_intrinsic p_timeline p_last p_intrinsic]. rewrite Et, Ty. split; [exact O|].
      exists la. split; [exact El|reflexivity].
    + destruct (Pop (set_intrinsic p (ev_value e)) (Some e) fl) as (-> & Q1 & Q2); [congruence|]. split; assumption.
  - assert (O : off e) by (apply Oe; unfold is_jump; rewrite Ty; intros [X|X]; discriminate).
    unfold do_exponential_ramp in H. destruct (p_last p) as [la|] eqn:El; [|discriminate]. rewrite Nc in H. rewrite SB in H. cbn [bind kblk b_next t_le t_sub v_sub v_div v_eq v_lt v_mul v_zero real_ops] in H.
    destruct (R_eq (ev_value la) 0 || R_lt (ev_value la * ev_value e) 0).
    + injection H as <- <-. split.
      * split; cbn [set_timeline p_timeline tl]; [|exact Fo]. constructor; [|exact Ar]. split; [reflexivity|]. split; [exact Se|exact I].
      * unfold headok. cbn [set_timeline p_timeline]. left. right. destruct O as [O|O]; [congruence|exact O].
    + destruct (R_le (now (S n)) (ev_time e)).
      * injection H as <- <-. split; [exact C|]. unfold kin. cbn [set_intrinsic p_timeline p_last p_intrinsic]. rewrite Et, Ty. split; [exact O|].
        exists la. split; [exact El|reflexivity].
      * destruct (Pop (set_intrinsic p (ev_value e)) (Some e) fl) as (-> & Q1 & Q2); [congruence|]. split; assumption.
  - discriminate.
  - unfold do_set_target in H. rewrite Nc in H.
    destruct (match rest with [] => _ | _ => _ end) as [et ended].
    destruct (p_last p) as [la|] eqn:El; [|discriminate]. destruct (ev_constant e) as [tc|] eqn:Ec; [|discriminate]. rewrite SB in H. cbn [bind] in H.
    destruct ended; cbn [negb] in H.
    + match type of H with Ok (set_last (set_timeline ?q _) ?la0, _) = _ => destruct (Pop q la0 fl) as (-> & Q1 & Q2); [congruence|] end. split; assumption.
    + match type of H with (if ?c then _ else _) = _ => destruct c end.
      * assert (Hs : exists q, (set_timeline q (simple SetValueAtTime (ev_value e) (now (S n)) :: rest), true) = (p', fl) /\ p_intrinsic q = ev_value e).
        { destruct (v_eq P (ev_value e) (v_zero P)).
          - eexists. split; [injection H; intros; rewrite <- H0, <- H1; reflexivity|reflexivity].
          - eexists. split; [injection H; intros; rewrite <- H0, <- H1; reflexivity|reflexivity]. }
        destruct Hs as (q & Eq & Iq). injection Eq as <- <-. split.
        -- split; cbn [set_timeline p_timeline tl]; [|exact Fo]. constructor; [|exact Ar]. split; [reflexivity|]. split; [apply sep_now|exact I].
        -- unfold kin. cbn [set_timeline p_timeline p_intrinsic simple ev_type ev_value ev_time]. right. split; [symmetry; exact Iq|right; reflexivity].
      * injection H as <- <-. split; [exact C|]. unfold kin. cbn [set_intrinsic p_timeline p_last p_intrinsic]. rewrite Et, Ty. right.
        exists la, tc. split; [exact El|]. split; [exact Ec|reflexivity].
  - discriminate.
  - assert (O : off e) by (apply Oe; unfold is_jump; rewrite Ty; intros [X|X]; discriminate).
    unfold do_value_curve in H. destruct (ev_duration e) as [d|] eqn:Ed; [|discriminate]. destruct (ev_values e) as [vs|] eqn:Ev; [|discriminate].
    rewrite Nc in H. rewrite SB in H. cbn [bind kblk b_next t_le t_add real_ops] in H.
    destruct (R_le (now (S n)) (ev_time e + d)).
    + destruct (value_curve_sample P (ev_time e) d vs (now (S n))) as [v| | ] eqn:Es; try discriminate. cbn [bind] in H. injection H as <- <-.
      split; [exact C|]. unfold kin. cbn [set_intrinsic p_timeline p_last p_intrinsic]. rewrite Et, Ty. split; [exact O|]. right. exists d, vs. auto.
    + destruct (from_option (nth_error vs (length vs - 1))) as [v| | ]; try discriminate. cbn [bind] in H.
      match type of H with Ok (set_last (set_timeline ?q _) ?la0, _) = _ => destruct (Pop q la0 fl) as (-> & Q1 & Q2); [congruence|] end. split; assumption.
Qed.

Lemma ksteps : forall fuel n p p', clean p -> headok n p -> do_events P RQ fuel p (kblk n) = Ok p' -> clean p' /\ kin (S n) p'.
Proof.
  induction fuel as [|fuel IH]; intros n p p' C H E; [discriminate|]. cbn [do_events] in E.
  destruct (do_event P RQ p (kblk n)) as [[p1 fl]| | ] eqn:E1; try discriminate. cbn [bind fst snd] in E.
  destruct (kstep n p p1 fl C H E1) as [C1 H1]. destruct fl; [injection E as <-; auto|]. eapply IH; eassumption.
Qed.
End Code.

(** ** The value of a k-rate parameter is that of the curve *)
Section Level.
Variable dt : R.
Hypothesis dt_pos : 0 < dt.
Variable RQ : nat.
Hypothesis RQ_pos : (0 < RQ)%nat.
Notation now := (now dt RQ).
Notation value := (value dt RQ).
Notation curve := (curve dt RQ).
Notation level := (level dt RQ).
Variable N : nat.
Variable dflt : R.
Notation ph0 := (Hold 0 dflt).
Notation h := (dt / 2).
Notation sep := (sep dt RQ N h).
Notation core := (core dt RQ dflt).
Notation good_tail := (good_tail dt RQ).

Lemma half_small : h <= INR RQ * dt.
Proof. apply lt_INR in RQ_pos as H. cbn in H. pose proof (le_INR 1 RQ ltac:(lia)) as H1. cbn in H1. nra. Qed.

Notation sepS := (sepS dt RQ N h).
Definition offS (s : sev) : Prop := match s_shape s with Target _ _ => True | _ => forall k, s_time s <> now k end.

Lemma near_sep : forall n x, (n <= N)%nat -> sep x -> Z.leb (nearest dt x) (first_frame RQ n) = if Rle_dec x (now n) then true else false.
Proof.
  intros n x Hn Hs. destruct (Rle_dec x (now n)) as [L|L].
  - apply Z.leb_le. apply near_le; assumption.
  - apply Z.leb_gt. destruct (Hs n Hn) as [X|X]; [tauto|]. unfold nearest. apply Z.lt_le_trans with (first_frame RQ n + 1)%Z; [lia|].
    apply floor_IZR_le. rewrite plus_IZR. unfold Param_EnvelopeSpec.now, frame_time in X.
    assert (IZR (first_frame RQ n) + / 2 <= x / dt); [|lra]. apply Rmult_le_reg_r with dt; [exact dt_pos|]. unfold Rdiv. rewrite Rmult_assoc, Rinv_l, Rmult_1_r by lra. lra.
Qed.

Lemma curve_level : forall n l ph, (n <= N)%nat -> Forall sepS l -> curve ph l (first_frame RQ n) = level ph l (now n).
Proof.
  intros n l. induction l as [|s l IH]; intros ph Hn H; [reflexivity|]. pose proof (Forall_inv H) as [S1 S2]. apply Forall_inv_tail in H.
  cbn [Param_EnvelopeSpec.curve Param_KrateSpec.level]. rewrite near_sep by assumption. destruct (Rle_dec (s_end s) (now n)); [apply IH; assumption|].
  unfold during, within. change (frame_time dt (first_frame RQ n)) with (now n). destruct (start ph) as [t0 v0]. destruct (s_shape s); try reflexivity.
  rewrite near_sep by assumption. destruct (Rle_dec (s_time s) (now n)) as [L|L]; [|reflexivity]. destruct (Rlt_dec (now n) (s_time s)); [lra|reflexivity].
Qed.

Lemma value_at_start : forall n v0 v tc, (v = v0 \/ 1 / 10000000000 <= Rabs (v - v0)) -> value (Decay (now n) v0 v tc) (now n) = v0.
Proof.
  intros n v0 v tc H. cbn [Param_EnvelopeSpec.value]. destruct (Rlt_dec (now n) (now n)); [lra|].
  rewrite (qstart_in dt dt_pos RQ RQ_pos n) by (pose proof (now_lt dt dt_pos RQ RQ_pos n (S n) ltac:(lia)); lra).
  destruct (settledb _ _ _ _ _) eqn:E; [|apply approach_start]. apply settledb_true in E. destruct E as [_ E]. rewrite approach_start in E. destruct H; lra.
Qed.

(** nothing happens exactly now *)
Lemma level_quiet : forall n l ph, good_tail n ph l -> Forall (fun s => now n <= s_time s) l -> Forall offS l ->
  (match ph with Hold t _ => t = now n | Decay t _ _ _ => t <= now n end) -> level ph l (now n) = value ph (now n).
Proof.
  intros n l. induction l as [|s l IH]; intros ph G L O Hp; [reflexivity|]. destruct G as (A & B & T & G).
  pose proof (Forall_inv L) as L1. cbv beta in L1. apply Forall_inv_tail in L. pose proof (Forall_inv O) as O1. apply Forall_inv_tail in O.
  cbn [Param_KrateSpec.level]. destruct s as [sh T0]. unfold offS, s_end in *. cbn [s_shape s_time] in *.
  destruct sh as [v|v|v|v tc|vs d].
  - specialize (O1 n). destruct (Rle_dec T0 (now n)); [lra|]. unfold within. destruct (start ph). reflexivity.
  - specialize (O1 n). destruct (Rle_dec T0 (now n)); [lra|]. destruct B as [B _]. destruct ph as [t v0|]; [|destruct B; discriminate].
    unfold within. cbn [start s_shape s_time Param_EnvelopeSpec.value]. subst t. unfold Rdiv. rewrite Rminus_eq_0, Rmult_0_l. ring.
  - specialize (O1 n). destruct (Rle_dec T0 (now n)); [lra|]. destruct B as [B _]. destruct ph as [t v0|]; [|destruct B; discriminate].
    unfold within. cbn [start s_shape s_time Param_EnvelopeSpec.value]. subst t. destruct (Req_EM_T v0 0); [reflexivity|]. destruct (Rlt_dec _ _); [reflexivity|].
    unfold Rdiv. rewrite Rminus_eq_0, Rmult_0_l. unfold Rpower. rewrite Rmult_0_l, exp_0. ring.
  - destruct (Rle_dec T0 (now n)) as [L2|L2].
    + assert (T0 = now n) by lra. subst T0. destruct B as [_ B]. cbn [s_shape s_time] in B. rewrite IH; [|exact G|exact L|exact O|].
      * unfold pass. cbn [s_shape s_time]. apply value_at_start. exact B.
      * unfold pass. cbn [s_shape s_time]. lra.
    + unfold within. destruct (start ph). reflexivity.
  - specialize (O1 n). destruct A as [_ A]. cbn in A. destruct (Rle_dec (T0 + d) (now n)); [lra|]. unfold within. destruct (start ph). cbn [s_shape s_time].
    destruct (Rle_dec T0 (now n)); [lra|reflexivity].
Qed.

Lemma off_rel : forall w e s, rel1 w e s -> off dt RQ e -> offS s.
Proof.
  intros w e s [[[_ M] _] T] H. unfold offS. rewrite T. destruct (s_shape s); try exact I; (destruct H as [H|H]; [|exact H]).
  - destruct M as [[M|M] _]; congruence.
  - destruct M as [M _]; congruence.
  - destruct M as [M _]; congruence.
  - destruct M as [M _]; congruence.
Qed.
Lemma off_rels : forall w tl l, Forall2 (rel1 w) tl l -> Forall (off dt RQ) tl -> Forall offS l.
Proof.
  intros w tl l H. induction H as [|e s tl l R H IH]; intros F; constructor.
  - eapply off_rel; [exact R|exact (Forall_inv F)].
  - apply IH. exact (Forall_inv_tail F).
Qed.
Lemma sep_rel : forall n e s, rel (now n) e s -> apart dt RQ N h e -> sepS s.
Proof.
  intros n e s [[_ M] T] (_ & A & B). assert (St : sep (s_time s)).
  { destruct (s_shape s); try (rewrite T; exact A). rewrite T. destruct (R_eq (ev_time e) 0); [|exact A]. apply sep_now; [exact dt_pos|exact RQ_pos|apply half_small]. }
  split; [exact St|]. unfold s_end. destruct (s_shape s); try exact St. destruct M as (_ & M & _). rewrite M in B. rewrite T. exact B.
Qed.
Lemma sep_rels : forall n tl l, rels (now n) tl l -> Forall (apart dt RQ N h) tl -> Forall sepS l.
Proof.
  intros n [|e tl] [|s l] H F; try contradiction; [constructor|]. destruct H as [H1 H2]. constructor; [eapply sep_rel; [exact H1|exact (Forall_inv F)]|].
  apply Forall_inv_tail in F. clear H1. induction H2 as [|e1 s1 tl l [R _] H IH]; constructor.
  - eapply sep_rel; [exact R|exact (Forall_inv F)].
  - apply IH. exact (Forall_inv_tail F).
Qed.

Lemma off_later : forall n e s, rel (now n) e s -> off dt RQ e -> ev_type e <> SetTarget -> now n <= s_time s -> now n < s_time s /\ s_time s = ev_time e.
Proof.
  intros n e s [_ T] O Ty L. destruct O as [O|O]; [contradiction|].
  assert (Z0 : ev_time e <> 0). { intro Z. apply (O 0%nat). rewrite Z, (now_eq dt RQ). cbn. ring. }
  assert (Ts : s_time s = ev_time e).
  { destruct (s_shape s); try exact T. destruct (R_eq (ev_time e) 0) eqn:E0; [apply R_eq_true in E0; contradiction|exact T]. }
  split; [|exact Ts]. specialize (O n). lra.
Qed.

Lemma level_now : forall n E p l t0 v0, core n 0 E p l t0 v0 -> kin dt RQ n p -> clean dt RQ N h p ->
  level (Hold t0 v0) l (now n) = p_intrinsic p.
Proof.
  intros n E p l t0 v0 [C1 C2 C3 C4 C5 C6 C7 C8 C9 C10] Hk [Ha Ho]. unfold kin in Hk.
  destruct (p_timeline p) as [|e tl] eqn:Et, l as [|s l]; try contradiction; [symmetry; exact C5|].
  destruct C1 as [R1 R2]. pose proof R1 as [[Rc Rm] Rt]. destruct C6 as (G1 & G2 & G3). destruct C7 as [L1 L2]. cbn [List.tl] in Ho.
  pose proof (off_rels _ _ _ R2 Ho) as Os. change (Z.of_nat 0) with 0%Z in C5. rewrite Z.add_0_r in C5. change (frame_time dt (first_frame RQ n)) with (now n) in C5.
  destruct s as [sh T0]. unfold s_end in *. cbn [s_shape s_time Param_KrateSpec.level needs_last] in *. unfold s_end. cbn [s_shape s_time].
  destruct sh as [v|v|v|v tc|vs d].
  - destruct Rm as [Ty Rv].
    assert (Hk' : off dt RQ e \/ (ev_value e = p_intrinsic p /\ (ev_time e = 0 \/ ev_time e = now n))) by (destruct Ty as [Ty|Ty]; rewrite Ty in Hk; exact Hk).
    assert (Nt : ev_type e <> SetTarget) by (destruct Ty; congruence).
    destruct Hk' as [O|[Hv Ht]].
    + destruct (off_later _ _ _ R1 O Nt L1) as [X _]. cbn [s_time] in X. destruct (Rle_dec T0 (now n)); [lra|].
      unfold within. cbn [start s_shape Param_EnvelopeSpec.value]. destruct C5 as [C5|C5]; [lra|symmetry; exact C5].
    + assert (Tn : T0 = now n). { rewrite Rt. destruct Ht as [Ht|Ht]; rewrite Ht; [destruct (R_eq 0 0) eqn:E0; [reflexivity|apply R_eq_false in E0; tauto]|]. destruct (R_eq (now n) 0); reflexivity. }
      destruct (Rle_dec T0 (now n)); [|lra]. unfold pass in G3 |- *. cbn [s_shape s_time] in G3 |- *. rewrite level_quiet; [|exact G3|exact L2|exact Os|exact Tn].
      cbn [Param_EnvelopeSpec.value]. congruence.
  - destruct Rm as [Ty Rv]. rewrite Ty in Hk. destruct Hk as (O & la & El & Hi). rewrite El in C4. destruct C4 as [Lt Lv].
    destruct (off_later _ _ _ R1 O ltac:(congruence) L1) as [X Tt]. cbn [s_time] in X, Tt. destruct (Rle_dec T0 (now n)); [lra|].
    unfold within. cbn [start s_shape s_time]. rewrite Hi, Lt, Lv, Rv, <- Tt. unfold linear_ramp_sample. cbn. ring.
  - destruct Rm as [Ty Rv]. rewrite Ty in Hk. destruct Hk as (O & la & El & Hi). rewrite El in C4. destruct C4 as [Lt Lv].
    destruct (off_later _ _ _ R1 O ltac:(congruence) L1) as [X Tt]. cbn [s_time] in X, Tt. destruct (Rle_dec T0 (now n)); [lra|].
    unfold within. cbn [start s_shape s_time]. destruct (Req_EM_T v0 0); [symmetry; apply C5; tauto|]. destruct (Rlt_dec (v0 * v) 0); [symmetry; apply C5; tauto|].
    rewrite Hi, Lt, Lv, Rv, <- Tt. reflexivity.
  - destruct Rm as (Ty & Rv & Rtc). rewrite Ty in Hk. destruct (Rle_dec T0 (now n)) as [L|L].
    + destruct Hk as [Hk|(la & tc' & El & Etc & Hi)]; [lra|]. rewrite El in C4. destruct C4 as [Lt Lv]. rewrite Rtc in Etc. injection Etc as <-.
      unfold pass in G3 |- *. cbn [s_shape s_time Param_EnvelopeSpec.value] in G3 |- *. rewrite level_quiet; [|exact G3|exact L2|exact Os|exact L].
      rewrite (value_decay dt dt_pos RQ RQ_pos T0 v0 v tc n (now n)); [|intro Hs; apply C8; assumption|pose proof (now_lt dt dt_pos RQ RQ_pos n (S n) ltac:(lia)); lra|exact L].
      rewrite Hi, Lv, Rv, <- Rt. unfold set_target_sample, approach. cbn. ring.
    + unfold within. cbn [start s_shape Param_EnvelopeSpec.value]. destruct C5 as [C5|C5]; [lra|symmetry; exact C5].
  - destruct Rm as (Ty & Rd & Rvs). rewrite Ty in Hk. destruct Hk as [O Hk]. destruct G1 as [G1 G1'].
    assert (Ki : T0 <= now n -> curve_at T0 d vs (now n) = p_intrinsic p).
    { intro L. destruct Hk as [Hk|(d' & vs' & Ed & Ev & Hi)]; [lra|]. rewrite Rd in Ed. rewrite Rvs in Ev. injection Ed as <-. injection Ev as <-.
      rewrite <- Rt in Hi. rewrite (curve_sample RQ) in Hi by assumption. congruence. }
    destruct (Rle_dec (T0 + d) (now n)) as [L|L].
    + unfold pass in G3 |- *. cbn [s_shape s_time] in G3 |- *. rewrite level_quiet; [|exact G3|exact L2|exact Os|lra].
      cbn [Param_EnvelopeSpec.value]. rewrite <- Ki by lra. unfold curve_at. destruct (Rle_dec d (now n - T0)); [reflexivity|lra].
    + unfold within. cbn [start s_shape s_time Param_EnvelopeSpec.value]. destruct (Rle_dec T0 (now n)) as [L3|L3]; [apply Ki; exact L3|].
      destruct C5 as [C5|C5]; [lra|symmetry; exact C5].
Qed.

(** the value played *)
Lemma level_played : forall n E p, (n <= N)%nat -> (exists l t0 v0, core n 0 E p l t0 v0 /\ t0 <= now n) -> Forall sepS E ->
  kin dt RQ n p -> clean dt RQ N h p -> level ph0 E (now n) = p_intrinsic p.
Proof.
  intros n E p Hn (l & t0 & v0 & C & _) SE Hk Hc. rewrite <- (level_now n E p l t0 v0 C Hk Hc).
  rewrite <- !curve_level; try assumption; [|eapply sep_rels; [exact (c_rel _ _ _ _ _ _ _ _ _ _ C)|exact (proj1 Hc)]].
  pose proof (c_future _ _ _ _ _ _ _ _ _ _ C [] (first_frame RQ n) (suffix_nil _ _ _ n E)) as H. rewrite !app_nil_r in H. apply H. cbn. lia.
Qed.
End Level.

(** ** Shorter frames *)
Section Fine.
Variable dt : R.
Hypothesis dt_pos : 0 < dt.
Variable RQ : nat.
Hypothesis RQ_pos : (0 < RQ)%nat.
Variable m : nat.
Hypothesis m_pos : (0 < m)%nat.
Notation dt' := (dt / INR m).
Notation RQ' := (m * RQ)%nat.

Lemma m_R : 0 < INR m.
Proof. apply lt_INR in m_pos as H. cbn in H. exact H. Qed.
Lemma dt'_pos : 0 < dt'.
Proof. pose proof m_R. apply Rdiv_lt_0_compat; assumption. Qed.
Lemma RQ'_pos : (0 < RQ')%nat.
Proof. apply Nat.mul_pos_pos; assumption. Qed.
Lemma quantum_fine : INR RQ' * dt' = INR RQ * dt.
Proof. pose proof m_R. rewrite mult_INR. field. lra. Qed.
Lemma now_fine : forall n, now dt' RQ' n = now dt RQ n.
Proof. intro n. rewrite !now_eq, quantum_fine. reflexivity. Qed.
Lemma value_fine : forall ph t, value dt' RQ' ph t = value dt RQ ph t.
Proof. intros [t0 v0|t0 v0 vt tc] t; [reflexivity|]. cbn [value]. unfold quantum_start. rewrite quantum_fine, now_fine. reflexivity. Qed.
Lemma pass_fine : forall ph s, pass dt' RQ' ph s = pass dt RQ ph s.
Proof. intros ph s. unfold pass. rewrite value_fine. reflexivity. Qed.
Lemma after_fine : forall l ph, after dt' RQ' ph l = after dt RQ ph l.
Proof. unfold after. induction l as [|s l IH]; intro ph; [reflexivity|]. cbn [fold_left]. rewrite pass_fine. apply IH. Qed.
Lemma level_fine : forall l ph t, level dt' RQ' ph l t = level dt RQ ph l t.
Proof.
  induction l as [|s l IH]; intros ph t; cbn [level]; [apply value_fine|]. rewrite pass_fine, IH. destruct (Rle_dec _ _); [reflexivity|].
  unfold within. destruct (start ph). rewrite value_fine. reflexivity.
Qed.
Lemma plan_ok_fine : forall dflt n l s, plan_ok dt RQ dflt n l s -> plan_ok dt' RQ' dflt n l s.
Proof.
  intros dflt n l s (A & B & F & T). unfold plan_ok, follows, in_time in *. rewrite !after_fine, !now_fine, value_fine. unfold quantum_start in *. rewrite quantum_fine, now_fine. auto.
Qed.
Lemma plan_fine : forall dflt n l s, plan dt' RQ' dflt n l s = plan dt RQ dflt n l s.
Proof. intros. unfold plan. rewrite now_fine. reflexivity. Qed.
Lemma setter_fine : forall n l v, setter dt' RQ' n l v = setter dt RQ n l v.
Proof. intros. unfold setter. rewrite now_fine. reflexivity. Qed.
Lemma setter_ok_fine : forall dflt n l, setter_ok dt RQ dflt n l -> setter_ok dt' RQ' dflt n l.
Proof. intros dflt n l H. unfold setter_ok in *. rewrite after_fine, now_fine. exact H. Qed.

Variable N : nat.
Lemma off_fine : forall e, off dt RQ e -> off dt' RQ' e.
Proof. intros e [H|H]; [left; exact H|right]. intro k. rewrite now_fine. apply H. Qed.
Lemma off_fine' : forall e, off dt' RQ' e -> off dt RQ e.
Proof. intros e [H|H]; [left; exact H|right]. intro k. rewrite <- now_fine. apply H. Qed.
Lemma sep_fine : forall h x, sep dt RQ N h x -> sep dt' RQ' N h x.
Proof. intros h x H k Hk. rewrite now_fine. apply H. exact Hk. Qed.
Lemma clean_fine : forall h p, clean dt RQ N h p -> clean dt' RQ' N h p.
Proof.
  intros h p [A B]. split; [|eapply Forall_impl; [|exact B]; apply off_fine]. eapply Forall_impl; [|exact A]. intros e (H1 & H2 & H3).
  split; [exact H1|]. split; [apply sep_fine; exact H2|]. destruct (ev_duration e); [apply sep_fine; exact H3|exact I].
Qed.
Lemma kin_fine : forall n p, kin dt RQ n p -> kin dt' RQ' n p.
Proof.
  intros n p H. unfold kin in *. rewrite !now_fine. destruct (p_timeline p) as [|e tl]; [exact I|].
  destruct (ev_type e); try exact H; try (destruct H as [H1 H2]; split; [apply off_fine; exact H1|exact H2]); (destruct H as [H|H]; [left; apply off_fine; exact H|right; exact H]).
Qed.

(** ** Quanta *)
Variables dflt lo hi : R.
Hypothesis lo_hi : lo <= hi.
Notation h := (dt' / 2).
Notation st := (st dt' RQ' dflt lo hi).
Notation core := (core dt' RQ' dflt).

Lemma h_small : h <= INR RQ * dt.
Proof. rewrite <- quantum_fine. apply half_small; [exact dt'_pos|exact RQ'_pos]. Qed.

Record kst (n : nat) (E : list sev) (p : param) : Prop := {
  k_rate : p_arate p = false;
  k_st : st n E (set_rate p true);
  k_clean : clean dt RQ N h p;
  k_kin : kin dt RQ n p;
  k_sep : Forall (sepS dt' RQ' N h) E
}.

Lemma st_agree : forall n E p q, agree p q -> p_arate p = true -> st n E q -> st n E p.
Proof.
  intros n E p q (A1 & A2 & A3 & A4 & A5 & A6) Ra [(S1 & S2 & S3) (l & t0 & v0 & [C1 C2 C3 C4 C5 C6 C7 C8 C9 C10] & Ht)].
  constructor; [split; [congruence|split; [congruence|exact Ra]]|]. exists l, t0, v0. split; [|exact Ht]. constructor; try assumption; rewrite ?A1, ?A2, ?A3; assumption.
Qed.

Lemma kbuffer : forall n p p' fl, do_event P RQ p (kblk dt RQ n) = Ok (p', fl) -> p_buffer p' = p_buffer p /\ p_arate p' = p_arate p.
Proof.
  intros n p p' fl H. unfold do_event in H. assert (SB : forall t f, sample_block P RQ p (kblk dt RQ n) t f = Ok p) by reflexivity.
  destruct (p_timeline p) as [|e rest]; [cbn [kblk b_arate bind] in H; injection H as <- <-; auto|].
  destruct (ev_type e); try discriminate.
  - unfold do_set_value in H. cbn [kblk b_arate bind] in H. destruct (t_lt P _ _); injection H as <- <-; auto.
  - unfold do_set_value in H. cbn [kblk b_arate bind] in H. destruct (t_lt P _ _); injection H as <- <-; auto.
  - unfold do_linear_ramp in H. destruct (p_last p); [|discriminate]. cbv zeta in H. rewrite SB in H. cbn [bind] in H.
    destruct (t_le P _ _); [|destruct (ev_cancel e)]; injection H as <- <-; auto.
  - unfold do_exponential_ramp in H. destruct (p_last p); [|discriminate]. cbv zeta in H. rewrite SB in H. cbn [bind] in H. destruct (_ || _); [injection H as <- <-; auto|].
    destruct (t_le P _ _); [|destruct (ev_cancel e)]; injection H as <- <-; auto.
  - unfold do_set_target in H. destruct (match rest with [] => _ | _ => _ end) as [end1 ended1]. destruct (match ev_cancel e with Some _ => _ | None => _ end) as [et ended].
    destruct (p_last p); [|discriminate]. destruct (ev_constant e); [|discriminate]. cbv zeta in H. rewrite SB in H. cbn [bind] in H.
    destruct (negb ended); [|injection H as <- <-; auto]. destruct (v_lt P _ _); [|injection H as <- <-; auto].
    destruct (v_eq P (ev_value e) (v_zero P)); injection H as <- <-; [|auto]. split; [|reflexivity].
    cbn [set_timeline set_buffer set_intrinsic p_buffer]. apply map_id.
  - unfold do_value_curve in H. destruct (ev_duration e); [|discriminate]. destruct (ev_values e); [|discriminate]. cbv zeta in H. rewrite SB in H. cbn [bind] in H.
    destruct (t_le P _ _).
    + destruct (value_curve_sample P _ _ _ _); try discriminate. cbn [bind] in H. injection H as <- <-. auto.
    + destruct (match ev_cancel e with Some _ => _ | None => _ end); try discriminate. cbn [bind] in H. injection H as <- <-. auto.
Qed.
Lemma kbuffers : forall fuel n p p', do_events P RQ fuel p (kblk dt RQ n) = Ok p' -> p_buffer p' = p_buffer p /\ p_arate p' = p_arate p.
Proof.
  induction fuel as [|fuel IH]; intros n p p' E; [discriminate|]. cbn [do_events] in E.
  destruct (do_event P RQ p (kblk dt RQ n)) as [[p1 fl]| | ] eqn:E1; try discriminate. cbn [bind fst snd] in E. apply kbuffer in E1. destruct E1 as [B1 B2].
  destruct fl; [injection E as <-; auto|]. apply IH in E. destruct E as [B3 B4]. split; congruence.
Qed.

Lemma kplay : forall n E p input silent, (n <= N)%nat -> kst n E p -> input_ok RQ input silent ->
  exists p', process P RQ p (now dt RQ n) dt input silent = Ok (p', [clamped lo hi (level dt RQ (Hold 0 dflt) E (now dt RQ n) + nth 0 input 0)]) /\ kst (S n) E p'.
Proof.
  intros n E p input silent Hn [Kr Ks Kc Kk Ke] [Il _]. pose proof Ks as [(Rlo & Rhi & _) Kcore].
  assert (Hv : level dt RQ (Hold 0 dflt) E (now dt RQ n) = p_intrinsic p).
  { rewrite <- level_fine, <- now_fine. apply (level_played dt' dt'_pos RQ' RQ'_pos N dflt n E (set_rate p true)); try assumption.
    - apply kin_fine in Kk. exact Kk.
    - apply clean_fine in Kc. exact Kc. }
  destruct (play dt' dt'_pos RQ' RQ'_pos dflt lo hi lo_hi n E (set_rate p true) (repeat 0 RQ') true Ks) as (q' & out & Ep & Sq & _).
  { split; [apply repeat_length|]. intros _. apply Forall_forall. intros x Hx. apply repeat_spec in Hx. exact Hx. }
  unfold process in Ep. destruct (compute_buffer P RQ' (set_rate p true) (now dt' RQ' n) dt' RQ') as [q1| | ] eqn:Eq; try discriminate.
  cbn [bind] in Ep. destruct (mix_to_output P q1 _ _); try discriminate. cbn [bind] in Ep. injection Ep as -> _.
  cbn [set_rate p_min p_max] in Rlo, Rhi. unfold process, compute_buffer in *.
  cbn [v_clamp real_ops] in *. cbn [set_rate p_intrinsic p_min p_max] in Eq. rewrite Rlo, Rhi in *. destruct (Rle_dec lo hi) as [_|X]; [|tauto]. cbn [from_option bind] in *.
  rewrite (block_next dt RQ) . rewrite (block_next dt' RQ') in Eq.
  cbn [set_buffer set_current set_rate p_timeline p_arate p_intrinsic p_last p_buffer p_default p_min p_max] in *. rewrite Kr. cbn [negb orb] in *.
  set (cur := Rmin (Rmax (p_intrinsic p) lo) hi) in *. rewrite now_fine in Eq.
  set (cst := match p_timeline p with [] => true | e :: _ => if is_ramp (ev_type e) then false else t_le P (now dt RQ (S n)) (ev_time e) end) in *.
  rewrite (extend_ok' RQ) by (cbn; lia). cbn [bind].
  match goal with |- context[set_buffer ?q ?vs] => set (p2 := set_buffer q vs) end.
  assert (Goal2 : exists p', (if cst then Ok p2 else do_events P RQ (2 * length (p_timeline p2) + 1) p2 (mk_block (now dt RQ n) dt RQ (p_arate p2) (now dt RQ (S n)))) = Ok p' /\
    agree p' q' /\ clean dt RQ N h p' /\ kin dt RQ (S n) p' /\ p_buffer p' = [p_intrinsic p] /\ p_arate p' = false).
  { destruct cst eqn:Ec.
    - exists p2. split; [reflexivity|]. split.
      + rewrite (extend_ok' RQ') in Eq by (cbn; pose proof RQ'_pos; lia). cbn [bind] in Eq. injection Eq as <-. repeat split; reflexivity.
      + split; [exact Kc|]. split; [|split; [reflexivity|exact Kr]].
        destruct Kcore as (l & t0 & v0 & C & Ht0). pose proof (c_rel _ _ _ _ _ _ _ _ _ _ C) as C1. pose proof (c_intr _ _ _ _ _ _ _ _ _ _ C) as C5. pose proof (c_last _ _ _ _ _ _ _ _ _ _ C) as C4.
        pose proof (now_lt dt dt_pos RQ RQ_pos n (S n) ltac:(lia)) as Lt. pose proof (now_pos dt dt_pos RQ RQ_pos n) as Np.
        unfold cst in Ec. unfold kin in *. cbn [p2 set_buffer set_current set_rate p_timeline p_last p_intrinsic] in *.
        destruct (p_timeline p) as [|e tl]; [exact I|]. destruct l as [|s l]; [contradiction|]. destruct C1 as [[[_ M] T] _].
        destruct (ev_type e) eqn:Ty; cbn [is_ramp t_le real_ops] in Ec; try discriminate; try contradiction; apply R_le_true in Ec.
        * destruct Kk as [Kk|[_ [Kk|Kk]]]; [left; exact Kk|exfalso; lra|exfalso; lra].
        * destruct Kk as [Kk|[_ [Kk|Kk]]]; [left; exact Kk|exfalso; lra|exfalso; lra].
        * destruct (Rle_lt_dec (ev_time e) (now dt RQ (S n))) as [L|L]; [right|left; exact L].
          destruct (s_shape s) eqn:Sh; [destruct M as [[M|M] _]; congruence|destruct M as [M _]; congruence|destruct M as [M _]; congruence| |destruct M as [M _]; congruence].
          cbn [needs_last] in C4. rewrite Sh in C4. destruct (p_last p) as [la|]; [|discriminate]. destruct C4 as [_ Lv]. destruct M as (_ & Mv & Mc).
          exists la, tc. split; [reflexivity|]. split; [exact Mc|]. assert (Et : ev_time e = now dt RQ (S n)) by lra. rewrite Et, Lv, Mv. unfold set_target_sample.
          cbn [v_fma v_of_t t_exp t_neg t_div t_sub real_ops]. unfold Rdiv. rewrite Rminus_eq_0, Rmult_0_l, Ropp_0, exp_0.
          change (Z.of_nat 0) with 0%Z in C5. rewrite Z.add_0_r in C5. change (frame_time dt' (first_frame RQ' n)) with (now dt' RQ' n) in C5. rewrite now_fine in C5.
          destruct C5 as [C5|C5]; [lra|]. rewrite C5. ring.
        * destruct Kk as [Kk _]. split; [exact Kk|]. destruct Kk as [Kk|Kk]; [congruence|]. specialize (Kk (S n)). left. lra.
    - cbn [bind] in Eq. cbn [set_buffer set_current p_timeline p_arate] in Eq. rewrite now_fine in Eq.
      match type of Eq with do_events _ _ ?fu ?q ?bb = _ => destruct (like_events RQ RQ' fu p2 q (kblk dt RQ n) bb q') as (p' & E1 & A1);
        [repeat split; reflexivity|repeat split; reflexivity|exact Eq|] end.
      exists p'. unfold p2 at 3. cbn [set_buffer set_current p_arate]. rewrite Kr. fold (kblk dt RQ n).
      change (p_timeline p2) with (p_timeline p). split; [exact E1|]. split; [exact A1|].
      destruct (ksteps dt dt_pos RQ RQ_pos N h h_small _ n p2 p' Kc (kin_headok dt RQ n p Kk) E1) as [Q1 Q2].
      destruct (kbuffers _ n p2 p' E1) as [B1 B2]. split; [exact Q1|]. split; [exact Q2|]. split; [exact B1|]. rewrite B2. exact Kr. }
  destruct Goal2 as (p' & -> & A1 & Q1 & Q2 & B1 & B2). cbn [bind].
  assert (Mx : mix_to_output P p' input silent = Ok [clamped lo hi (p_intrinsic p + nth 0 input 0)]).
  { unfold mix_to_output. rewrite B1, B2. cbn [length Nat.eqb orb negb]. rewrite orb_true_r. destruct input as [|i0 input]; [cbn in Il; lia|].
    destruct Sq as [(S1 & S2 & _) _]. destruct A1 as (_ & _ & _ & A4 & A5 & _). rewrite (limit_clamped lo hi) by congruence. reflexivity. }
  rewrite Mx, Hv. cbn [bind]. exists p'. split; [reflexivity|]. constructor; try assumption.
  apply (st_agree _ _ _ q'); [|reflexivity|exact Sq]. exact A1.
Qed.

(** ** Scheduling *)
Lemma apart_event : forall s, sepS dt RQ N h s -> apart dt RQ N h (event_of s).
Proof. intros [sh T] [S1 S2]. unfold apart, event_of, s_end in *. destruct sh; cbn in *; auto. Qed.
Lemma kplan_off : forall n l s, kplan_ok dt RQ dflt n l s -> off dt RQ (event_of s).
Proof. intros n l [sh T] H. unfold off, event_of, kplan_ok in *. destruct sh; cbn in *; tauto. Qed.

Lemma sepS_fine : forall s, sepS dt RQ N h s -> sepS dt' RQ' N h s.
Proof. intros s [A B]. split; apply sep_fine; assumption. Qed.
Lemma sepS_jump : forall n v, sepS dt' RQ' N h (mk_sev (Jump v) (now dt RQ n)).
Proof. intros n v. split; cbn; rewrite <- now_fine; apply sep_now; try exact dt'_pos; try exact RQ'_pos; apply half_small; try exact dt'_pos; exact RQ'_pos. Qed.

Lemma kschedule : forall n E p s, kst n E p -> plan_ok dt RQ dflt n E s -> kplan_ok dt RQ dflt n E s -> sepS dt RQ N h s ->
  exists p', handle_incoming_event P p (event_of s) = Ok p' /\ kst n (plan dt RQ dflt n E s) p'.
Proof.
  intros n E p s [Kr Ks Kc Kk Ke] Pk Kp Hs. pose proof Ks as [_ (l & t0 & v0 & C & Ht0)].
  pose proof (plan_ok_fine _ _ _ _ Pk) as Pf. destruct (schedule dt' dt'_pos RQ' RQ'_pos dflt lo hi n E (set_rate p true) s Ks Pf) as (q' & Eq & Sq).
  destruct Pf as (G1 & G2 & G3 & G4). destruct (checks_ok dt' dt'_pos RQ' RQ'_pos dflt n E (set_rate p true) l t0 v0 s C G2 G3) as [Ck Tm].
  assert (T1 : ev_type (event_of s) <> CancelScheduled) by (unfold event_of; destruct (s_shape s); discriminate).
  assert (T2 : ev_type (event_of s) <> CancelAndHold) by (unfold event_of; destruct (s_shape s); discriminate).
  assert (T3 : etype_eqb (ev_type (event_of s)) SetValue = false) by (unfold event_of; destruct (s_shape s); reflexivity).
  rewrite (schedule_eq P (set_rate p true) (event_of s) T1 T2 Ck) in Eq. rewrite (schedule_eq P p (event_of s) T1 T2 Ck). rewrite T3 in *.
  change (with_implicit P (set_rate p true) (event_of s)) with (with_implicit P p (event_of s)) in Eq.
  set (w := with_implicit P p (event_of s)) in *.
  assert (Ws : time_sorted P w /\ Forall (fun x => ev_time x <= ev_time (event_of s)) w).
  { rewrite event_time. unfold w, with_implicit. pose proof (now_pos dt' dt'_pos RQ' RQ'_pos n) as Np. pose proof (c_sorted _ _ _ _ _ _ _ _ _ _ C) as So. cbn [set_rate p_timeline] in So, Tm.
    destruct (p_timeline p); [|split; assumption]. destruct (_ || _); [|split; constructor]. split; [repeat constructor|]. constructor; [cbn; lra|constructor]. }
  rewrite (sort_append w (event_of s) (proj1 Ws) (proj2 Ws)) in *. cbn [bind] in *. injection Eq as <-.
  eexists. split; [reflexivity|]. rewrite <- (plan_fine dflt n E s). constructor.
  - exact Kr.
  - exact Sq.
  - pose proof (apart_event s Hs) as Ap. pose proof (kplan_off n E s Kp) as Of. destruct Kc as [Ka Kb]. unfold clean. cbn [set_timeline p_timeline].
    assert (Wa : Forall (apart dt RQ N h) w /\ Forall (off dt RQ) (tl w)).
    { unfold w, with_implicit. destruct (p_timeline p); [|split; assumption]. destruct (_ || _); [|split; constructor]. split; [|constructor].
      constructor; [|constructor]. split; [reflexivity|]. split; [|exact I]. cbn. apply sep_zero; [exact dt_pos|exact RQ_pos|exact h_small]. }
    destruct Wa as [Wa Wo]. split; [apply Forall_app; split; [exact Wa|constructor; [exact Ap|constructor]]|].
    destruct w; cbn [app tl]; [constructor|]. apply Forall_app. split; [exact Wo|constructor; [exact Of|constructor]].
  - unfold kin in *. cbn [set_timeline p_timeline p_last p_intrinsic]. unfold w, with_implicit in *. rewrite T3.
    pose proof (c_rel _ _ _ _ _ _ _ _ _ _ C) as C1. pose proof (c_intr _ _ _ _ _ _ _ _ _ _ C) as C5. pose proof (c_last _ _ _ _ _ _ _ _ _ _ C) as C4. pose proof (c_first _ _ _ _ _ _ _ _ _ _ C) as C10.
    pose proof (c_akin _ _ _ _ _ _ _ _ _ _ C) as C9. cbn [set_rate p_timeline p_intrinsic p_last] in C1, C4, C5, C10.
    destruct (p_timeline p) as [|e tl] eqn:Et; [|exact Kk]. destruct l as [|x l]; [|contradiction]. cbn in C5.
    destruct ((match p_last p with None => is_ramp (ev_type (event_of s)) | _ => false end) || etype_eqb (ev_type (event_of s)) SetTarget) eqn:Im.
    + cbn [app simple ev_type ev_value ev_time t_zero real_ops]. right. split; [reflexivity|left; reflexivity].
    + cbn [app]. rewrite now_fine in G2. unfold kplan_ok in Kp.
      assert (Ri : is_slope s = true -> exists la, p_last p = Some la /\ ev_time la = now dt RQ n /\ ev_value la = p_intrinsic p).
      { intro Sl. apply orb_false_iff in Im. destruct Im as [Im _]. destruct (p_last p) as [la|].
        - exists la. split; [reflexivity|]. destruct C4 as [L1 L2]. split; [|congruence]. rewrite L1.
          destruct G3 as [G3 _]. rewrite after_fine in *. unfold is_slope in Sl.
          assert (Fr : E = [] \/ now dt RQ n <= phase_from (after dt RQ (Hold 0 dflt) E)) by (destruct (s_shape s); try discriminate; tauto).
          destruct Fr as [Fr|Fr]; [contradiction|]. rewrite now_fine in Ht0.
          destruct C9 as [A|(t1 & v1 & vt & tc & b & A1 & _)].
          + cbn in A. rewrite <- A in Fr. cbn in Fr. lra.
          + rewrite A1 in G3. destruct G3 as [_ G3]. unfold is_slope in G3. destruct (s_shape s); discriminate.
        - exfalso. unfold is_slope, event_of in *. destruct (s_shape s); discriminate. }
      destruct s as [sh T]. unfold event_of, is_slope in *. cbn [s_shape s_time] in *. destruct sh as [v|v|v|v tc|vs d]; cbn [simple ev_type ev_value ev_time] in *.
      * left. right. exact Kp.
      * destruct (Ri eq_refl) as (la & E1 & E2 & E3). split; [right; apply Kp|]. exists la. split; [exact E1|]. rewrite E2, E3. unfold linear_ramp_sample.
        cbn [v_fma v_of_t t_div t_sub real_ops]. unfold Rdiv. rewrite Rminus_eq_0, Rmult_0_l. ring.
      * destruct (Ri eq_refl) as (la & E1 & E2 & E3). split; [right; apply Kp|]. exists la. split; [exact E1|]. rewrite E2, E3. unfold exponential_ramp_sample.
        cbn [v_mul v_powf v_of_t t_div t_sub real_ops]. unfold R_powf, Rpower, Rdiv. rewrite Rminus_eq_0, !Rmult_0_l, exp_0. ring.
      * cbn [etype_eqb] in Im. rewrite orb_true_r in Im. discriminate.
      * split; [right; exact Kp|]. left. specialize (Kp n). lra.
  - rewrite plan_fine. unfold plan. pose proof (sepS_fine s Hs) as Sf. destruct E as [|x E].
    + destruct (is_slope s); [constructor; [apply sepS_jump|]|]; (constructor; [exact Sf|constructor]).
    + apply Forall_app. split; [exact Ke|constructor; [exact Sf|constructor]].
Qed.

Lemma kset_value : forall n E p v, kst n E p -> setter_ok dt RQ dflt n E ->
  exists p', handle_incoming_event P p (simple SetValue v 0) = Ok p' /\ kst n (setter dt RQ n E v) p'.
Proof.
  intros n E p v [Kr Ks Kc Kk Ke] Hs. pose proof Ks as [_ (l & t0 & v0 & C & Ht0)]. apply setter_ok_fine in Hs.
  pose proof (nothing_pending dt' RQ' dflt n E _ l t0 v0 C Hs). subst l.
  assert (Tl : p_timeline p = []).
  { pose proof (c_rel _ _ _ _ _ _ _ _ _ _ C) as Hr. cbn [set_rate p_timeline] in Hr. destruct (p_timeline p); [reflexivity|contradiction]. }
  destruct (set_value_ok dt' dt'_pos RQ' RQ'_pos dflt lo hi n E (set_rate p true) v Ks Hs) as (q' & Eq & Sq).
  assert (W : forall q, p_timeline q = [] -> handle_incoming_event P q (simple SetValue v 0) = Ok (set_timeline (set_intrinsic q v) [simple SetValue v 0])).
  { intros q Tq. rewrite schedule_eq; [|discriminate|discriminate|unfold curve_checks; rewrite Tq; reflexivity].
    unfold with_implicit. rewrite Tq. cbn [simple ev_type ev_value etype_eqb is_ramp orb].
    assert (X : (match p_last q with Some _ => false | None => false end) = false) by (destruct (p_last q); reflexivity). rewrite X. cbn [orb].
    pose proof (sort_append [] (simple SetValue v 0) (SSorted_nil _) (Forall_nil _)) as So. cbn [app] in *. unfold simple in *. rewrite So. reflexivity. }
  rewrite W in Eq by exact Tl. injection Eq as <-. rewrite W by exact Tl. eexists. split; [reflexivity|]. rewrite <- setter_fine. constructor.
  - exact Kr.
  - exact Sq.
  - split; cbn [set_timeline p_timeline tl]; [|constructor]. constructor; [|constructor]. split; [reflexivity|]. split; [|exact I]. cbn. apply sep_zero; [exact dt_pos|exact RQ_pos|exact h_small].
  - unfold kin. cbn [set_timeline p_timeline set_intrinsic p_intrinsic simple ev_type ev_value ev_time]. right. split; [reflexivity|left; reflexivity].
  - rewrite setter_fine. unfold setter. apply Forall_app. split; [exact Ke|constructor; [apply sepS_jump|constructor]].
Qed.

Lemma kst_new : kst 0 [] (new_param false dflt lo hi).
Proof.
  constructor.
  - reflexivity.
  - apply (st_new dt' dt'_pos RQ' RQ'_pos dflt lo hi).
  - split; constructor.
  - exact I.
  - constructor.
Qed.

Fixpoint quanta (os : list sop) : nat := match os with [] => 0 | Play _ _ :: os' => S (quanta os') | _ :: os' => quanta os' end.
Fixpoint planned (os : list sop) : list sev := match os with [] => [] | Plan s :: os' => s :: planned os' | _ :: os' => planned os' end.

Lemma krun : forall os n E p, kst n E p -> (n + quanta os <= N)%nat -> Forall (sepS dt RQ N h) (planned os) ->
  plans_ok dt RQ dflt n E os -> kplans_ok dt RQ dflt n E os ->
  exists p' outs, prun P RQ p (to_ops dt RQ n os) = Ok (p', outs) /\ outs = kexpected dt RQ dflt lo hi n E os.
Proof.
  induction os as [|o os IH]; intros n E p S0 Hn Hs H K; [exists p, []; split; reflexivity|].
  destruct o as [s|v|input silent]; cbn [to_ops prun pstep plans_ok kplans_ok kexpected quanta planned] in *.
  - destruct H as [H1 H2]. destruct K as [K1 K2]. pose proof (now_pos dt dt_pos RQ RQ_pos n) as Np.
    rewrite call_of_event by (try apply H1; destruct H1 as (_ & H1 & _); lra).
    destruct (kschedule n E p s S0 H1 K1 (Forall_inv Hs)) as (p' & -> & S1). cbn [bind fst snd]. destruct (IH n _ p' S1 Hn (Forall_inv_tail Hs) H2 K2) as (q & outs & -> & Ho).
    cbn [bind fst snd app]. exists q, outs. split; [reflexivity|exact Ho].
  - destruct H as [H1 H2]. cbn [call_event v_finite t_zero real_ops]. destruct (kset_value n E p v S0 H1) as (p' & -> & S1). cbn [bind fst snd].
    destruct (IH n _ p' S1 Hn Hs H2 K) as (q & outs & -> & Ho). cbn [bind fst snd app]. exists q, outs. split; [reflexivity|exact Ho].
  - destruct H as [H1 H2]. destruct (kplay n E p input silent ltac:(lia) S0 H1) as (p' & -> & S1). cbn [bind fst snd].
    destruct (IH (S n) E p' S1 ltac:(lia) Hs H2 K) as (q & outs & -> & Ho). cbn [bind fst snd app]. exists q. eexists. split; [reflexivity|]. rewrite Ho. reflexivity.
Qed.
End Fine.

(** ** Frames short enough for all events *)
Section Gap.
Variable dt : R.
Hypothesis dt_pos : 0 < dt.
Variable RQ : nat.
Lemma gap_one : forall N x, exists g, 0 < g /\ sep dt RQ N g x.
Proof.
  induction N as [|N IH]; intro x.
  - destruct (Rle_lt_dec x (now dt RQ 0)) as [L|L].
    + exists 1. split; [lra|]. intros k Hk. assert (k = 0)%nat by lia. subst k. left. exact L.
    + exists (x - now dt RQ 0). split; [lra|]. intros k Hk. assert (k = 0)%nat by lia. subst k. right. lra.
  - destruct (IH x) as (g & Hg & H). destruct (Rle_lt_dec x (now dt RQ (S N))) as [L|L].
    + exists g. split; [exact Hg|]. intros k Hk. destruct (Nat.eq_dec k (S N)); [subst k; left; exact L|apply H; lia].
    + exists (Rmin g (x - now dt RQ (S N))). split; [apply Rmin_glb_lt; lra|]. intros k Hk. pose proof (Rmin_l g (x - now dt RQ (S N))). pose proof (Rmin_r g (x - now dt RQ (S N))).
      destruct (Nat.eq_dec k (S N)); [subst k; right; lra|]. destruct (H k ltac:(lia)); [left|right]; lra.
Qed.
Lemma sep_less : forall N g g' x, g' <= g -> sep dt RQ N g x -> sep dt RQ N g' x.
Proof. intros N g g' x L H k Hk. destruct (H k Hk); [left|right]; lra. Qed.
Lemma gap_all : forall N l, exists g, 0 < g /\ Forall (sepS dt RQ N g) l.
Proof.
  intros N l. induction l as [|s l (g & Hg & IH)]; [exists 1; split; [lra|constructor]|].
  destruct (gap_one N (s_time s)) as (g1 & H1 & G1). destruct (gap_one N (s_end s)) as (g2 & H2 & G2).
  exists (Rmin g (Rmin g1 g2)). pose proof (Rmin_l g (Rmin g1 g2)). pose proof (Rmin_r g (Rmin g1 g2)). pose proof (Rmin_l g1 g2). pose proof (Rmin_r g1 g2).
  split; [repeat apply Rmin_glb_lt; assumption|]. constructor.
  - split; [apply sep_less with g1|apply sep_less with g2]; try assumption; lra.
  - eapply Forall_impl; [|exact IH]. intros x [A B]. split; apply sep_less with g; assumption.
Qed.
End Gap.

Lemma krate : forall dt RQ dflt lo hi os, 0 < dt -> (0 < RQ)%nat -> lo <= hi -> plans_ok dt RQ dflt 0 [] os -> kplans_ok dt RQ dflt 0 [] os ->
  exists p outs, prun P RQ (new_param false dflt lo hi) (to_ops dt RQ 0 os) = Ok (p, outs) /\ outs = kexpected dt RQ dflt lo hi 0 [] os.
Proof.
  intros dt RQ dflt lo hi os Hd Hr Hl H K. destruct (gap_all dt RQ (quanta os) (planned os)) as (g & Hg & Hs).
  destruct (archimed (dt / g)) as [Ar _]. set (m := Z.to_nat (up (dt / g))).
  assert (Dg : 0 < dt / g) by (apply Rdiv_lt_0_compat; assumption).
  assert (Up : (0 < up (dt / g))%Z) by (apply lt_IZR; lra).
  assert (Hm : (0 < m)%nat) by (unfold m; lia).
  assert (Rm : dt / g < INR m) by (rewrite INR_IZR_INZ; unfold m; rewrite Z2Nat.id by lia; exact Ar).
  assert (Small : dt / INR m / 2 <= g).
  { assert (dt / INR m < g); [|assert (0 < dt / INR m) by (apply Rdiv_lt_0_compat; lra); lra].
    apply Rmult_lt_reg_r with (INR m); [lra|]. unfold Rdiv at 1. rewrite Rmult_assoc, Rinv_l, Rmult_1_r by lra.
    apply Rmult_lt_reg_r with (/ g); [apply Rinv_0_lt_compat; exact Hg|]. rewrite (Rmult_comm g), Rmult_assoc, Rinv_r, Rmult_1_r by lra. exact Rm. }
  apply (krun dt Hd RQ Hr m Hm (quanta os) dflt lo hi Hl os 0 []); try assumption.
  - apply kst_new; assumption.
  - lia.
  - eapply Forall_impl; [|exact Hs]. intros x [A B]. split; apply sep_less with g; assumption.
Qed.

Lemma curve_level_one : forall dt RQ l ph n, 0 < dt ->
  Forall (fun s => (s_time s <= now dt RQ n \/ now dt RQ n + dt / 2 <= s_time s) /\ (s_end s <= now dt RQ n \/ now dt RQ n + dt / 2 <= s_end s)) l ->
  curve dt RQ ph l (first_frame RQ n) = level dt RQ ph l (now dt RQ n).
Proof.
  intros dt RQ l ph n Hd. revert ph. assert (Nr : forall x, x <= now dt RQ n \/ now dt RQ n + dt / 2 <= x ->
    Z.leb (nearest dt x) (first_frame RQ n) = if Rle_dec x (now dt RQ n) then true else false).
  { intros x Hx. destruct (Rle_dec x (now dt RQ n)) as [L|L].
    - apply Z.leb_le. apply near_le; assumption.
    - apply Z.leb_gt. destruct Hx as [X|X]; [tauto|]. unfold nearest. apply Z.lt_le_trans with (first_frame RQ n + 1)%Z; [lia|].
      apply floor_IZR_le. rewrite plus_IZR. unfold Param_EnvelopeSpec.now, frame_time in X.
      assert (IZR (first_frame RQ n) + / 2 <= x / dt); [|lra]. apply Rmult_le_reg_r with dt; [exact Hd|]. unfold Rdiv. rewrite Rmult_assoc, Rinv_l, Rmult_1_r by lra. lra. }
  induction l as [|s l IH]; intros ph H; [reflexivity|]. pose proof (Forall_inv H) as [S1 S2]. apply Forall_inv_tail in H.
  cbn [Param_EnvelopeSpec.curve Param_KrateSpec.level]. rewrite Nr by assumption. destruct (Rle_dec (s_end s) (now dt RQ n)); [apply IH; assumption|].
  unfold during, within. change (frame_time dt (first_frame RQ n)) with (now dt RQ n). destruct (start ph) as [t0 v0]. destruct (s_shape s); try reflexivity.
  rewrite Nr by assumption. destruct (Rle_dec (s_time s) (now dt RQ n)) as [L|L]; [|reflexivity]. destruct (Rlt_dec (now dt RQ n) (s_time s)); [lra|reflexivity].
Qed.
