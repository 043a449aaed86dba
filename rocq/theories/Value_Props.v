(** The value and the automation rate of an AudioParam, as the control threads see them: theorems.

    C89 [value] reads as assigned or as played, within the nominal range; the automation rate is that of the last accepted call, on both
    sides.  For every interleaving of control threads and render thread. *)
From Coq Require Import List Arith Bool ZArith Lia Reals Lra.
From Coq Require Import SpecFloat.
From Flocq Require Import Core BinarySingleNaN.
From Verif Require Import Float_Model Common_Model Param_Model Param_Inst Param_Real Param_IeeeProofs Param_ClockSpec Param_ClockProofs Value_Model Value_Spec Value_Proofs Value_ReadProofs.
From Verif Require Param_Props.
Import ListNotations.

(** ** The range *)

(** Every value that is read is in the nominal range, or is NaN. *)
Theorem C89_value_in_range_partial : forall f64_exp f32_powf RQ arate fixed dflt lo hi l s o, valid_range dflt lo hi ->
  vrun (ieee_ops f64_exp f32_powf) RQ l (shared_new arate fixed dflt lo hi) = Ok (s, o) ->
  Forall (fun v => is_nan v = true \/ (f32_le lo v = true /\ f32_le v hi = true)) (values_read o).
Proof.
  intros f64_exp f32_powf RQ arate fixed dflt lo hi l s o (F1 & F2 & F3 & B1 & B2) H.
  assert (LE : forall x y : f32, is_finite x = true -> is_finite y = true -> (B2R x <= B2R y)%R -> f32_le x y = true).
  { intros x y Fx Fy Hxy. unfold f32_le, Bleb, SFleb. pose proof (Bcompare_correct _ _ x y Fx Fy) as C. unfold Bcompare in C. rewrite C. destruct (Rcompare_spec (B2R x) (B2R y)); try reflexivity. lra. }
  refine (range_run _ RQ lo hi _ _ l _ _ _ H _).
  - intros x c Hc. cbn [v_clamp ieee_ops] in Hc. unfold f32_clamp in Hc. rewrite (LE lo hi F2 F3 ltac:(lra)) in Hc. injection Hc as <-.
    destruct (is_nan x) eqn:Nx; [left; destruct x; try discriminate; destruct lo, hi; try discriminate; reflexivity|]. right.
    assert (TR : forall a b : f32, is_nan a = false -> is_nan b = false -> f32_lt a b = false -> f32_le b a = true).
    { intros a b Na Nb Hab. unfold f32_lt, f32_le, Bltb, Bleb, SFltb, SFleb in *. pose proof (Bcompare_swap _ _ a b) as S. unfold Bcompare in S.
      rewrite S. destruct (SFcompare (B2SF a) (B2SF b)) as [[]|] eqn:E; cbn [option_map CompOpp]; try reflexivity; try discriminate. destruct a as [| | |], b as [| | |]; discriminate. }
    assert (N1 : is_nan lo = false) by (destruct lo; try discriminate; reflexivity). assert (N2 : is_nan hi = false) by (destruct hi; try discriminate; reflexivity).
    destruct (f32_lt x lo) eqn:E1; [split; [apply LE; [exact F2|exact F2|lra]|apply LE; [exact F2|exact F3|lra]]|].
    destruct (f32_lt hi x) eqn:E2; [split; [apply LE; [exact F2|exact F3|lra]|apply LE; [exact F3|exact F3|lra]]|].
    split; [exact (TR _ _ Nx N1 E1)|exact (TR _ _ N2 Nx E2)].
  - repeat split. right. cbn. split; apply LE; try assumption; lra.
Qed.
Print Assumptions C89_value_in_range_partial.

Notation f := Param_Props.f.
Notation rate := Param_Props.rate.
Definition quiet (n : Z) : action f64 f32 := Play (clock rate n) (frame_length rate) (repeat f32_zero 128) true.
(** for each observation: a value, a rate, a refusal, or the first two values of a quantum *)
Definition shown (r : res (shared f64 f32 * list (seen f32))) : option (list (seen SpecFloat.spec_float)) :=
  match r with
  | Ok (_, o) => Some (map (fun s => match s with Value v => Value (B2SF v) | Rate_is a => Rate_is a | Refused => Refused | Played vs => Played (map B2SF (firstn 2 vs)) end) o)
  | _ => None
  end.
Definition history (f64_exp : f64 -> f64) (f32_powf : f32 -> f32 -> f32) (l : list (action f64 f32)) :=
  shown (vrun (ieee_ops f64_exp f32_powf) 128 l (shared_new true false (f 0) (f (-10)) (f 10))).
Definition played (xs : list f32) : seen SpecFloat.spec_float := Played (map B2SF xs).
Definition value (x : f32) : seen SpecFloat.spec_float := Value (B2SF x).
(** The value that is read may be NaN: a value curve may contain NaN, the processor replaces what it plays by the default value, but writes
    the value for the control thread without this replacement.  The parameter plays 0 and reads as NaN. *)
Theorem C89_value_never_nan_refuted : forall f64_exp f32_powf,
  history f64_exp f32_powf [Post (C_curve [f 1; B754_nan] (Param_Props.t 0) (Param_Props.t 1)); Receive; quiet 0; quiet 1; quiet 2; Read_value] =
  Some [played [f 0; f 0]; played [f 0; f 0]; played [f 0]; Value SpecFloat.S754_nan].
Proof. intros. vm_compute. reflexivity. Qed.
Print Assumptions C89_value_never_nan_refuted.

(** ** Reading back what was assigned *)

(** One control thread, and no quantum between an assignment and the arrival of its message (as in the suspensions of an offline context):
    what is read is the value assigned last, limited to the nominal range. *)
Theorem C89_reads_assigned_partial : forall f64_exp f32_powf arate fixed dflt lo hi l, valid_range dflt lo hi -> orderly is_finite 128 0 l ->
  exists s o, vrun (ieee_ops f64_exp f32_powf) 128 l (shared_new arate fixed dflt lo hi) = Ok (s, o) /\
    values_read o = last_assigned (fun v => if f32_lt v lo then lo else if f32_lt hi v then hi else v) dflt l.
Proof.
  intros f64_exp f32_powf arate fixed dflt lo hi l Hr H. pose proof (range_lt dflt lo hi Hr) as (L1 & L2 & _).
  assert (LE : f32_le lo hi = true).
  { destruct Hr as (F1 & F2 & F3 & B1 & B2). unfold f32_le, Bleb, SFleb. pose proof (Bcompare_correct _ _ lo hi F2 F3) as C. unfold Bcompare in C. rewrite C. destruct (Rcompare_spec (B2R lo) (B2R hi)); try reflexivity. lra. }
  apply reads_new; try assumption.
  - lia.
  - reflexivity.
  - apply ieee_to_nat_le.
  - intros x. cbn [v_clamp ieee_ops]. unfold f32_clamp. rewrite LE. reflexivity.
  - rewrite L1, L2. reflexivity.
Qed.
Print Assumptions C89_reads_assigned_partial.
Example C89_reads_assigned_example : forall f64_exp f32_powf,
  let l := [Read_value; Assign (f 3); Post (C_set_value (f 3)); Read_value; Assign (f 20); Post (C_set_value (f 20)); Receive; Read_value; Receive; quiet 0; Read_value; quiet 1; Read_value] in
  orderly is_finite 128 0 l /\ history f64_exp f32_powf l = Some [value (f 0); value (f 3); value (f 10); played [f 10; f 10]; value (f 10); played [f 10]; value (f 10)].
Proof. intros. split; [cbn; repeat split; reflexivity|vm_compute; reflexivity]. Qed.

(** A value that is not finite is refused, by either half of the assignment, and changes nothing. *)
Theorem C89_not_finite_refused : forall f64_exp f32_powf RQ (s : shared f64 f32) v, is_finite v = false ->
  vrun (ieee_ops f64_exp f32_powf) RQ [Assign v] s = Ok (s, [Refused]) /\ vrun (ieee_ops f64_exp f32_powf) RQ [Post (C_set_value v)] s = Ok (s, [Refused]).
Proof. intros f64_exp f32_powf RQ s v H. cbn [vrun vstep call_event v_finite ieee_ops]. unfold f32_is_finite. rewrite H. split; reflexivity. Qed.
Print Assumptions C89_not_finite_refused.
Example C89_not_finite_example : forall f64_exp f32_powf, history f64_exp f32_powf [Assign B754_nan; Read_value; Assign (B754_infinity false); Read_value] = Some [Refused; value (f 0); Refused; value (f 0)].
Proof. intros. vm_compute. reflexivity. Qed.

(** In a running context the render thread may render a quantum after the value was stored and before the message arrives: it
    overwrites the value.  [value = 5] reads as 5, then as 0, then as 5. *)
Theorem C89_reads_assigned_refuted : forall f64_exp f32_powf,
  history f64_exp f32_powf [Assign (f 5); Post (C_set_value (f 5)); Read_value; quiet 0; Read_value; Receive; quiet 1; Read_value] =
  Some [value (f 5); played [f 0]; value (f 0); played [f 5; f 5]; value (f 5)].
Proof. intros. vm_compute. reflexivity. Qed.
Print Assumptions C89_reads_assigned_refuted.

(** The value is stored before the message is sent, without a lock (as set_automation_rate has): of two threads that assign a value at the
    same time, one may store last and the other send last.  The value reads as 2 after both calls have returned, and becomes 1. *)
Theorem C89_concurrent_assignments_refuted : forall f64_exp f32_powf,
  history f64_exp f32_powf [Assign (f 1); Assign (f 2); Post (C_set_value (f 2)); Post (C_set_value (f 1)); Receive; Receive; Read_value; quiet 0; Read_value] =
  Some [value (f 2); played [f 1; f 1]; value (f 1)].
Proof. intros. vm_compute. reflexivity. Qed.
Print Assumptions C89_concurrent_assignments_refuted.

(** ** The value that is played *)

(** A k-rate parameter reads as the value of the last quantum, in exact arithmetic, after any history. *)
Theorem C89_krate_reads_played : forall RQ arate fixed dflt lo hi l time dt s o s' o', (0 < RQ)%nat ->
  vrun real_ops RQ l (shared_new arate fixed dflt lo hi) = Ok (s, o) -> s_queue s = [] -> rate_after fixed arate l = false ->
  vrun real_ops RQ [Play time dt (repeat 0%R RQ) true; Read_value] s = Ok (s', o') ->
  exists v, o' = [Played [v]; Value v].
Proof.
  intros RQ arate fixed dflt lo hi l time dt s o s' o' HQ H Q R H'.
  destruct (rate_run _ _ _ _ _ _ arate H ltac:(split; reflexivity)) as [[_ R2] _]. rewrite Q in R2. unfold last_rate in R2. cbn [fold_left shared_new s_fixed] in R2. rewrite R in R2.
  cbn [vrun] in H'. apply bind_ok in H'. destruct H' as ([s1 o1] & H1 & H'). cbn [vstep] in H1. apply bind_ok in H1. destruct H1 as ([p' out] & H1 & H2). injection H2 as <- <-. cbn [fst snd vstep bind app] in H'. injection H' as <- <-.
  cbn [s_param]. apply process_cell in H1. destruct H1 as (C & E1 & E2 & E3 & E4 & B & M). destruct (B R2) as [_ B2].
  unfold mix_to_output in M. rewrite (B2 ltac:(intros; reflexivity)), E4, R2 in M. destruct RQ as [|RQ]; [lia|]. cbn [length Nat.eqb negb orb repeat] in M. injection M as <-.
  exists (p_current p'). f_equal. f_equal. f_equal. unfold limit. rewrite E1, E2. cbn [v_nan v_min v_max v_add v_clamp real_ops] in *. destruct (Rle_dec _ _); [|discriminate]. injection C as <-. rewrite Rplus_0_r. reflexivity.
Qed.
Print Assumptions C89_krate_reads_played.

(** For an a-rate parameter the value is meant to be that of the first frame of the last quantum (comment at param.rs 377-387).  It is not if
    an event takes effect at this frame: the processor writes the value before it handles the events of the quantum.  [setValueAtTime(2)]
    at the start of the second quantum: the quantum plays 2, the parameter reads as 0. *)
Theorem C89_reads_first_frame_refuted : forall f64_exp f32_powf,
  history f64_exp f32_powf [Post (C_set_value_at_time (f 2) (clock rate 1)); Receive; quiet 0; Read_value; quiet 1; Read_value; quiet 2; Read_value] =
  Some [played [f 0]; value (f 0); played [f 2; f 2]; value (f 0); played [f 2]; value (f 2)].
Proof. intros. vm_compute. reflexivity. Qed.
Print Assumptions C89_reads_first_frame_refuted.

(** ** The automation rate *)

(** After any history: the rate that is read is that of the last accepted call (the mutex is held while the message is sent); a call is refused
    exactly if the rate is constrained and would change; once the messages have arrived, the render thread works at this rate: with k-rate
    each quantum has one value. *)
Theorem C89_automation_rate : forall T V (P : @param_ops T V) RQ arate fixed dflt lo hi l s o,
  vrun P RQ l (shared_new arate fixed dflt lo hi) = Ok (s, o) ->
  vstep P RQ Read_rate s = Ok (s, [Rate_is (rate_after fixed arate l)]) /\
  (forall a, exists s', vstep P RQ (Set_rate a) s = Ok (s', if fixed && negb (Bool.eqb a (rate_after fixed arate l)) then [Refused] else [])) /\
  (s_queue s = [] -> rate_after fixed arate l = false -> forall time dt input silent s' o', vstep P RQ (Play time dt input silent) s = Ok (s', o') -> exists v, o' = [Played [v]]).
Proof.
  intros T V P RQ arate fixed dflt lo hi l s o H. destruct (rate_run _ _ _ _ _ _ arate H ltac:(split; reflexivity)) as [R F]. cbn [shared_new s_fixed] in R, F.
  split; [|split].
  - cbn [vstep]. destruct R as [-> _]. reflexivity.
  - intros a. destruct (vstep P RQ (Set_rate a) s) as [[s' o']| |] eqn:E.
    + destruct (rate_step _ _ _ _ _ _ _ E R) as (_ & _ & Ho). rewrite F in Ho. exists s'. rewrite Ho. reflexivity.
    + cbn [vstep] in E. destruct (_ || _); discriminate.
    + cbn [vstep] in E. destruct (_ || _); discriminate.
  - intros Q K time dt input silent s' o' H1. destruct R as [_ R2]. rewrite Q in R2. unfold last_rate in R2. cbn [fold_left] in R2. rewrite K in R2.
    cbn [vstep] in H1. apply bind_ok in H1. destruct H1 as ([p' out] & H1 & H2). injection H2 as <- <-. cbn [snd].
    apply krate_one in H1; [|exact R2]. destruct out as [|v [|? ?]]; try discriminate. exists v. reflexivity.
Qed.
Print Assumptions C89_automation_rate.
Example C89_automation_rate_example : forall f64_exp f32_powf,
  history f64_exp f32_powf [Post (C_linear_ramp (f 8) (clock rate 2)); Receive; Read_rate; quiet 0; Set_rate false; Read_rate; Receive; quiet 1; Read_value] =
  Some [Rate_is true; played [f 0; f32_div (f 4) (f 128)]; Rate_is false; played [f 4]; value (f 4)] /\
  shown (vrun (ieee_ops f64_exp f32_powf) 128 [Set_rate false; Set_rate true; Read_rate] (shared_new true true (f 0) (f (-10)) (f 10))) = Some [Refused; Rate_is true].
Proof. intros. split; vm_compute; reflexivity. Qed.
