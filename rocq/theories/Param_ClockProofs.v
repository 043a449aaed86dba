(** The properties of AudioParam on the clock of the render thread. *)
From Coq Require Import List Arith Bool ZArith QArith Reals Lia Lra Floats.SpecFloat.
From Flocq Require Import Core BinarySingleNaN.
From Verif Require Import Float_Model Float_Proofs Param_Model Param_Inst Param_Spec Param_ClockSpec Param_CurveSpec
  Param_TimelineProofs Param_SafetyProofs Param_RangeProofs Param_IeeeProofs Param_ExactProofs Param_OrderProofs.
Import ListNotations.

Section Clock.
Context {T V : Type}.
Variable P : @param_ops T V.
Variable RQ : nat.
Variable ok : T -> Prop.

Lemma on_clock_quantum : forall (time : Z -> T) dt (l : list (action T V)) n, (forall m, (n <= m < n + Z.of_nat (length l))%Z -> block_ok P ok (time m) dt RQ) ->
  inputs_ok RQ l -> Forall (@quantum_ok T V P RQ ok) (on_clock time dt n l).
Proof.
  intros time dt l. induction l as [|a l IH]; intros n Hb Hi; cbn [on_clock]; [constructor|]. inversion Hi as [|? ? H1 H2]; subst.
  cbn [length] in Hb. destruct a as [c|a|input silent]; constructor; try exact I; try (apply IH; [intros m Hm; apply Hb; lia|exact H2]).
  split; [apply Hb; lia|exact H1].
Qed.

Lemma calls_legal : forall os (p : @param T V), calls_ok P RQ p os -> Forall (quantum_ok P RQ ok) os -> legal P ok RQ p os.
Proof.
  induction os as [|o os IH]; intros p C Q; cbn [calls_ok legal] in *; [exact I|]. inversion Q as [|? ? Q1 Q2]; subst. destruct C as [C1 C2]. split.
  - destruct o; [exact C1|exact I|exact Q1].
  - destruct (pstep P RQ p o) as [[p' outs]| |]; [apply IH; assumption|exact I|exact I].
Qed.

Lemma on_clock_curves : forall (time : Z -> T) dt (l : list (action T V)) n, no_curves l -> Forall (curve_free false) (on_clock time dt n l).
Proof.
  intros time dt l. induction l as [|a l IH]; intros n H; cbn [on_clock]; [constructor|]. inversion H as [|? ? H1 H2]; subst.
  destruct a as [c|a|input silent]; constructor; try (apply IH; exact H2); try exact I.
  destruct c; cbn in *; try discriminate; try exact I.
Qed.
Lemma all_curve_free : forall os : list (@pop T V), Forall (curve_free true) os.
Proof. intro os. apply Forall_forall. intros o _. destruct o as [c| |]; [destruct c|exact I|exact I]; cbn; try exact I; reflexivity. Qed.
End Clock.

Section Ieee.
Variable f64_exp : f64 -> f64.
Variable f32_powf : f32 -> f32 -> f32.
Notation P := (ieee_ops f64_exp f32_powf).
Variable sr : f64.
Hypothesis Hsr : valid_sample_rate sr.

Lemma clock_block : forall n, (0 <= n < 2 ^ 41)%Z -> block_ok P not_nan (clock sr n) (frame_length sr) 128.
Proof. intros n Hn. apply grid_block_ok; [cbn; lia|]. apply clock_grid; [lia|apply Hsr|apply Hsr]. Qed.

Lemma valid_quanta : forall l, valid_actions l -> Forall (quantum_ok P 128 not_nan) (on_clock (clock sr) (frame_length sr) 0 l).
Proof. intros l [H1 H2]. apply on_clock_quantum; [|exact H1]. intros m Hm. apply clock_block. lia. Qed.

Lemma range_lt : forall dflt lo hi, valid_range dflt lo hi ->
  f32_lt dflt lo = false /\ f32_lt hi dflt = false /\ f32_lt hi lo = false.
Proof.
  intros dflt lo hi (F1 & F2 & F3 & H). unfold f32_lt, Bltb, SFltb.
  assert (K : forall x y : f32, is_finite x = true -> is_finite y = true -> (B2R y <= B2R x)%R -> Bltb x y = false).
  { intros x y Fx Fy Hxy. unfold Bltb, SFltb. pose proof (Bcompare_correct _ _ x y Fx Fy) as C. unfold Bcompare in C. rewrite C.
    destruct (Rcompare_spec (B2R x) (B2R y)) as [A|A|A]; try reflexivity. lra. }
  unfold Bltb, SFltb in K. repeat split; apply K; try assumption; lra.
Qed.

Lemma new_descriptor : forall a dflt lo hi, valid_range dflt lo hi -> descriptor_ok P (new_param a dflt lo hi).
Proof.
  intros a dflt lo hi H. pose proof (range_lt dflt lo hi H) as (L1 & L2 & L3). destruct H as (F1 & F2 & F3 & _).
  repeat split; try assumption. intro x. apply ieee_clamp; [exact L3| |]; [destruct lo|destruct hi]; try reflexivity; discriminate.
Qed.

Lemma not_lt_le32 : forall x y : f32, is_nan x = false -> is_nan y = false -> f32_lt x y = false -> f32_le y x = true.
Proof.
  intros x y Nx Ny H. unfold f32_lt, f32_le, Bltb, Bleb, SFltb, SFleb in *.
  assert (A : SpecFloat.SFcompare (B2SF y) (B2SF x) = match SpecFloat.SFcompare (B2SF x) (B2SF y) with Some c => Some (CompOpp c) | None => None end).
  { pose proof (Bcompare_swap _ _ x y) as S. unfold Bcompare in S. exact S. }
  rewrite A. destruct (SpecFloat.SFcompare (B2SF x) (B2SF y)) as [[]|] eqn:E; try reflexivity; try discriminate.
  exfalso. destruct x, y; try discriminate.
Qed.

Lemma running_in_range : forall a dflt lo hi l p outs, valid_range dflt lo hi -> valid_actions l ->
  running f64_exp f32_powf sr a dflt lo hi l = Ok (p, outs) ->
  Forall (fun out => Forall (fun v => is_nan v = false /\ f32_le lo v = true /\ f32_le v hi = true) out /\ (length out = 1 \/ length out = 128)%nat) outs.
Proof.
  intros a dflt lo hi l p outs Hr Hv H. unfold running in H.
  pose proof (prun_in_range P 128 ltac:(lia) not_nan (ieee_time_order f64_exp f32_powf) (ieee_value_order f64_exp f32_powf) (ieee_to_nat_le f64_exp f32_powf)
    _ _ _ _ H ltac:(constructor) (new_descriptor a dflt lo hi Hr) (valid_quanta l Hv)) as K.
  eapply Forall_impl; [|exact K]. intros out [A B]. split; [|exact B]. eapply Forall_impl; [|exact A].
  intros v (C1 & C2 & C3). cbn in *. assert (is_nan lo = false /\ is_nan hi = false) as [N1 N2].
  { destruct Hr as (_ & F2 & F3 & _). split; [destruct lo|destruct hi]; try reflexivity; discriminate. }
  split; [exact C1|]. split; apply not_lt_le32; assumption.
Qed.

Lemma running_ok : forall a dflt lo hi l, valid_range dflt lo hi -> valid_actions l -> no_curves l ->
  calls_ok P 128 (new_param a dflt lo hi) (on_clock (clock sr) (frame_length sr) 0 l) ->
  exists p outs, running f64_exp f32_powf sr a dflt lo hi l = Ok (p, outs) /\ Forall (fun out => length out = 1 \/ length out = 128)%nat outs.
Proof.
  intros a dflt lo hi l Hr Hv Hc Hl. unfold running.
  destruct (prun_ok P 128 ltac:(lia) not_nan (ieee_time_order f64_exp f32_powf) (ieee_to_nat_le f64_exp f32_powf) false ltac:(discriminate)
    (on_clock (clock sr) (frame_length sr) 0 l) (new_param a dflt lo hi)) as (p & outs & H1 & _ & H2).
  - apply new_inv. apply (new_descriptor a dflt lo hi Hr).
  - apply calls_legal; [exact Hl|apply valid_quanta; exact Hv].
  - apply on_clock_curves. exact Hc.
  - exists p, outs. split; assumption.
Qed.

Lemma reached_tidy : forall a dflt lo hi p, reached f64_exp f32_powf sr a dflt lo hi p -> tidy P p.
Proof.
  intros a dflt lo hi p (l & outs & Hv & H). unfold running in H.
  eapply (prun_tidy P 128 ltac:(lia) not_nan (ieee_time_order f64_exp f32_powf) (ieee_to_nat_le f64_exp f32_powf)); [exact H|apply new_tidy|apply valid_quanta; exact Hv].
Qed.
End Ieee.

Section Exact.
Variable Q_exp : Q -> Q.
Variable Q_powf : Q -> Q -> Q.
Notation P := (exact_ops Q_exp Q_powf).
Local Open Scope Q_scope.

Lemma exact_running_ok : forall RQ dt a dflt lo hi l, (0 < RQ)%nat -> 0 < dt -> lo <= hi -> inputs_ok RQ l ->
  calls_ok P RQ (new_param a dflt lo hi) (on_clock (exact_clock dt RQ) dt 0 l) ->
  exists p outs, prun P RQ (new_param a dflt lo hi) (on_clock (exact_clock dt RQ) dt 0 l) = Ok (p, outs) /\
    Forall (fun out => length out = 1%nat \/ length out = RQ) outs.
Proof.
  intros RQ dt a dflt lo hi l HR Hd Hlh Hi Hl.
  destruct (prun_ok P RQ HR any (exact_time_order Q_exp Q_powf) (exact_to_nat_le Q_exp Q_powf) true (fun _ => exact_curve_in_range Q_exp Q_powf)
    (on_clock (exact_clock dt RQ) dt 0 l) (new_param a dflt lo hi)) as (p & outs & H1 & _ & H2).
  - apply new_inv. apply exact_clamp. exact Hlh.
  - apply calls_legal; [exact Hl|]. apply on_clock_quantum; [|exact Hi]. intros m Hm. apply exact_block_ok with (F := (m * Z.of_nat RQ)%Z); [exact Hd|reflexivity].
  - apply all_curve_free.
  - exists p, outs. split; assumption.
Qed.
End Exact.

(** ** Deciding legality *)
Section Decide.
Context {T V : Type}.
Variable P : @param_ops T V.
Variable RQ : nat.
Definition call_okb (p : param) (c : @call T V) : bool :=
  match call_event P c with
  | None => true
  | Some e =>
    match ev_type e with
    | CancelScheduled => true
    | CancelAndHold => forallb (fun x => match ev_cancel x with Some c => t_le P c (ev_time e) | None => true end) (p_timeline p)
    | _ => (negb (needs_predecessor e) || match p_last p with Some _ => true | None => false end ||
            match p_timeline p with [] => true | h :: _ => t_le P (ev_time h) (ev_time e) end) &&
           match curve_checks P p e with Ok _ => true | _ => false end
    end
  end.
Lemma call_okb_ok : forall p c, call_okb p c = true -> call_ok P p c.
Proof.
  intros p c H e He. unfold call_okb in H. rewrite He in H.
  destruct (ev_type e); try exact I; try (apply andb_true_iff in H; destruct H as [H1 H2]; split;
    [intros N L; rewrite N, L in H1; cbn in H1; destruct (p_timeline p); [exact I|exact H1]
    |unfold no_overlap; destruct (curve_checks P p e) as [[]| |]; [reflexivity|discriminate|discriminate]]).
  apply Forall_forall. intros x Hx k Hk. rewrite forallb_forall in H. specialize (H x Hx). rewrite Hk in H. exact H.
Qed.
Fixpoint calls_okb (p : param) (os : list pop) : bool :=
  match os with
  | [] => true
  | o :: os' => match o with Schedule c => call_okb p c | _ => true end &&
                match pstep P RQ p o with Ok (p', _) => calls_okb p' os' | _ => true end
  end.
Lemma calls_okb_ok : forall os p, calls_okb p os = true -> calls_ok P RQ p os.
Proof.
  induction os as [|o os IH]; intros p H; [exact I|]. cbn [calls_okb calls_ok] in *. apply andb_true_iff in H. destruct H as [H1 H2]. split.
  - destruct o; try exact I. apply call_okb_ok, H1.
  - destruct (pstep P RQ p o) as [[p' ?]| |]; auto.
Qed.
End Decide.
