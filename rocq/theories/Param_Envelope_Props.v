(** C19, all kinds of events, over the real numbers. *)
From Coq Require Import List Arith Bool ZArith Reals Lra Lia.
From Flocq Require Import Core.
From Verif Require Import Common_Model Param_Model Param_Real Param_EnvelopeSpec Param_EnvelopeProofs.
Import ListNotations.
Local Open Scope R_scope.

(** Set-value events, linear and exponential ramps, targets and value curves, in any number of calls at any time,
    and the value setter, any number of quanta and any modulation: every frame has the value of the
    specification, clamped to the nominal range.  The conditions on the calls are those of [plans_ok]: events are
    added in the order of their times, a target or curve that lies ahead starts where its predecessor ends, and no ramp
    follows a target (the findings show that the code fails otherwise).
    Missing: rounding, cancelling; k-rate parameters: [C19_krate_partial]. *)
Theorem C19_envelope_partial : forall dt RQ dflt lo hi os,
  0 < dt -> (0 < RQ)%nat -> lo <= hi -> plans_ok dt RQ dflt 0 [] os ->
  exists p outs, prun real_ops RQ (new_param true dflt lo hi) (to_ops dt RQ 0 os) = Ok (p, outs) /\
    map (spread RQ) outs = expected dt RQ dflt lo hi 0 [] os.
Proof.
  intros dt RQ dflt lo hi os H1 H2 H3 H. apply (envelope dt H1 RQ H2 dflt lo hi H3 os 0 []); [|exact H]. apply st_new; assumption.
Qed.
Print Assumptions C19_envelope_partial.

(** The approach of a target ends by itself; this changes the value by less than 10^-10. *)
Theorem C19_settling_close : forall dt RQ t0 v0 vt tc t, 0 < dt -> (0 < RQ)%nat -> 0 < tc -> 0 <= t0 <= t ->
  Rabs (value dt RQ (Decay t0 v0 vt tc) t - approach t0 v0 vt tc t) < 1 / 10000000000.
Proof.
  intros dt RQ t0 v0 vt tc t H1 H2 H3 [H4 H5]. pose proof (settled_close dt H1 RQ H2 t0 v0 vt tc t H3 H4) as H.
  destruct (Rlt_dec t t0); [lra|exact H].
Qed.
Print Assumptions C19_settling_close.

(** an exponential ramp from the default value, a target at its end, a value curve during the approach, the setter *)
Definition show : list sop :=
  [Plan (mk_sev (Expo 8) 6); Plan (mk_sev (Target 0 2) 6); Play [0;0;0;0] true; Play [0;0;0;1] false;
   Plan (mk_sev (Curve [0; 4; 2] 2) 9); Play [0;0;0;0] true; Set_value 7; Play [0;0;0;0] true].
Definition shown : list sev :=
  [mk_sev (Jump 1) (now 1 4 0); mk_sev (Expo 8) 6; mk_sev (Target 0 2) 6; mk_sev (Curve [0; 4; 2] 2) 9; mk_sev (Jump 7) (now 1 4 3)].
Example C19_envelope_example : plans_ok 1 4 1 0 [] show /\
  curve 1 4 (Hold 0 1) shown 3 = 1 * Rpower (8 / 1) ((3 - 0) / (6 - 0)) /\
  curve 1 4 (Hold 0 1) shown 7 = 0 + (8 - 0) * exp (- ((7 - 6) / 2)) /\
  curve 1 4 (Hold 0 1) shown 10 = 4 /\ curve 1 4 (Hold 0 1) shown 12 = 7.
Proof.
  assert (N0 : now 1 4 0 = 0) by (cbv; lra). assert (N1 : now 1 4 1 = 4) by (unfold now, frame_time, first_frame; cbn; lra).
  assert (N2 : now 1 4 2 = 8) by (unfold now, frame_time, first_frame; cbn; lra). assert (N3 : now 1 4 3 = 12) by (unfold now, frame_time, first_frame; cbn; lra).
  assert (Nr : forall k, nearest 1 (IZR k) = k).
  { intro k. unfold nearest. apply Zfloor_imp. rewrite plus_IZR. lra. }
  split.
  - unfold show. cbn [plans_ok plan setter app is_slope s_shape]. unfold plan_ok, setter_ok, input_ok, in_time, follows, arguments_ok. cbn [after fold_left pass s_shape s_time value is_slope length].
    repeat split; try exact I; try lra; try lia; try discriminate; try (repeat constructor; fail); try (rewrite N2; lra).
    + right. rewrite Rminus_0_l, Rabs_Ropp, Rabs_right; lra.
    + right. left. split; [discriminate|reflexivity].
  - unfold shown. rewrite N0, N3. unfold curve, s_end, during, pass, frame_time. cbn [s_shape s_time start].
    replace (9 + 2) with 11 by lra. rewrite !Nr. cbn [Z.leb Z.compare Pos.compare Pos.compare_cont]. repeat split.
    + destruct (Req_EM_T 1 0); [lra|]. destruct (Rlt_dec (1 * 8) 0); [lra|]. f_equal. f_equal; lra.
    + unfold value at 1. destruct (Rlt_dec (7 * 1) 6); [lra|].
      assert (Q : quantum_start 1 4 (7 * 1) = 4).
      { unfold quantum_start. replace (Zfloor (7 * 1 / (INR 4 * 1))) with 1%Z; [exact N1|]. symmetry. apply Zfloor_imp. cbn. lra. }
      rewrite Q. unfold settledb. destruct (Rle_dec 6 4); [lra|]. unfold approach. cbn [value]. f_equal. f_equal. f_equal. lra.
    + destruct (Rlt_dec (10 * 1) 9); [lra|]. unfold curve_at. destruct (Rle_dec 2 (10 * 1 - 9)); [lra|].
      replace (Zfloor (INR (length [0; 4; 2] - 1) * (10 * 1 - 9) / 2)) with 1%Z; [change (Z.to_nat 1) with 1%nat; cbn [nth Nat.add length Nat.sub INR]; lra|]. symmetry. apply Zfloor_imp. cbn. lra.
Qed.
