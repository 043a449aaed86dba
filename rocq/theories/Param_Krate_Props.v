(** C19 for k-rate parameters, all kinds of events. *)
From Coq Require Import List Arith Bool ZArith QArith Reals Lra Lia.
From Flocq Require Import Core.
From Verif Require Import Common_Model Param_Model Param_Spec Param_Inst Param_Real Param_EnvelopeSpec Param_EnvelopeProofs Param_KrateSpec Param_KrateProofs.
From Verif Require Param_CurveSpec.
Import ListNotations.
Local Open Scope R_scope.

(** A k-rate parameter, any set-value events, ramps, targets and value curves in any number of calls at any time, the
    value setter, any number of quanta and any modulation: in every quantum the node gets the single value of the
    automation curve at the beginning of the quantum plus the first sample of the input, clamped to the nominal range.
    The conditions on the calls are those of the a-rate theorem ([plans_ok]) and those of [kplans_ok]: no event but a
    target lies exactly at the beginning of a quantum, and a ramp is scheduled before it starts (the findings
    [C19_krate_boundary_refuted] and [C19_krate_late_ramp_refuted] show that the code fails otherwise).
    Missing: rounding, cancelling. *)
Theorem C19_krate_partial : forall dt RQ dflt lo hi os,
  0 < dt -> (0 < RQ)%nat -> lo <= hi -> plans_ok dt RQ dflt 0 [] os -> kplans_ok dt RQ dflt 0 [] os ->
  exists p outs, prun real_ops RQ (new_param false dflt lo hi) (to_ops dt RQ 0 os) = Ok (p, outs) /\
    outs = kexpected dt RQ dflt lo hi 0 [] os.
Proof. exact krate. Qed.
Print Assumptions C19_krate_partial.

(** The curve of the a-rate theorem is the same curve, when no event falls into the half frame after a frame. *)
Theorem C19_frames_and_times : forall dt RQ l ph n, 0 < dt ->
  Forall (fun s => (s_time s <= now dt RQ n \/ now dt RQ n + dt / 2 <= s_time s) /\ (s_end s <= now dt RQ n \/ now dt RQ n + dt / 2 <= s_end s)) l ->
  curve dt RQ ph l (first_frame RQ n) = level dt RQ ph l (now dt RQ n).
Proof. exact curve_level_one. Qed.
Print Assumptions C19_frames_and_times.

(** a set value, a linear ramp, a target at its end, modulation, the range *)
Definition kshow : list sop :=
  [Plan (mk_sev (Jump 2) 1); Plan (mk_sev (Linear 8) 7); Plan (mk_sev (Target 0 2) 7); Play [0;0;0;0] true; Play [1/2;3;3;3] false; Play [0;0;0;0] true].
Definition kshown : list sev := [mk_sev (Jump 2) 1; mk_sev (Linear 8) 7; mk_sev (Target 0 2) 7].
Lemma off_grid : forall (z : Z) k, (z mod 4 <> 0)%Z -> IZR z <> now 1 4 k.
Proof.
  intros z k H E. unfold now, frame_time, first_frame in E. rewrite Rmult_1_r in E. apply eq_IZR in E. apply H. rewrite E, Nat2Z.inj_mul. apply Z.mod_mul. discriminate.
Qed.
Example C19_krate_example : plans_ok 1 4 1 0 [] kshow /\ kplans_ok 1 4 1 0 [] kshow /\
  kexpected 1 4 1 (-10) 10 0 [] kshow = [[1]; [5 + 1/2]; [8 * exp (- (1 / 2))]].
Proof.
  assert (N0 : now 1 4 0 = 0) by (cbv; lra). assert (N1 : now 1 4 1 = 4) by (unfold now, frame_time, first_frame; cbn; lra).
  assert (N2 : now 1 4 2 = 8) by (unfold now, frame_time, first_frame; cbn; lra).
  split; [|split].
  - unfold kshow. cbn [plans_ok plan app is_slope s_shape]. unfold plan_ok, input_ok, in_time, follows, arguments_ok. cbn [after fold_left pass s_shape s_time value is_slope length].
    rewrite N0. repeat split; try exact I; try lra; try lia; try discriminate; try (repeat constructor; fail).
    + right. rewrite Rminus_0_l, Rabs_Ropp, Rabs_right; lra.
    + right. left. split; [discriminate|reflexivity].
  - unfold kshow. cbn [kplans_ok plan app]. unfold kplan_ok. cbn [after fold_left pass s_shape s_time phase_from]. rewrite N0.
    split; [intro k; apply off_grid; discriminate|]. split; [split; [intro k; apply off_grid; discriminate|right; cbn; lra]|]. auto.
  - unfold kshow. cbn [kexpected plan app is_slope s_shape nth]. rewrite N0, N1, N2. cbn [level]. unfold s_end, within, pass. cbn [s_shape s_time start value].
    destruct (Rle_dec 1 0); [lra|]. destruct (Rle_dec 1 4); [|lra]. destruct (Rle_dec 7 4); [lra|]. destruct (Rle_dec 1 8); [|lra]. destruct (Rle_dec 7 8); [|lra]. destruct (Rlt_dec 8 7); [lra|].
    assert (Q : quantum_start 1 4 8 = 8).
    { unfold quantum_start. replace (Zfloor (8 / (INR 4 * 1))) with 2%Z; [exact N2|]. symmetry. apply Zfloor_imp. cbn. lra. }
    assert (X : exp (- (1)) <= exp (- (1/2)) <= 1).
    { split; [left; apply exp_increasing; lra|]. apply Rle_trans with (exp 0); [left; apply exp_increasing; lra|rewrite exp_0; lra]. }
    assert (X0 : 1 / 4 <= exp (- (1))).
    { rewrite exp_Ropp. assert (exp 1 <= 4) by (pose proof exp_le_3; lra). pose proof (exp_pos 1). unfold Rdiv. rewrite Rmult_1_l. apply Rinv_le_contravar; assumption. }
    assert (Ap : approach 7 8 0 2 8 = 8 * exp (- (1/2))) by (unfold approach; replace (8 - 7) with 1 by lra; ring).
    rewrite Q. unfold settledb. destruct (Rle_dec 7 8); [|lra]. rewrite Ap. destruct (Rlt_dec _ _) as [L|L].
    { exfalso. rewrite Rminus_0_l, Rabs_Ropp, Rabs_right in L; lra. }
    assert (Cl : forall x, -10 <= x <= 10 -> clamped (-10) 10 x = x) by (intros x Hx; unfold clamped; rewrite Rmax_left, Rmin_left; lra).
    rewrite !Cl by lra. f_equal; [f_equal; lra|]. f_equal; [f_equal; lra|]. f_equal. f_equal. lra.
Qed.

(** A ramp that is scheduled after its start, e.g. after the set-value event before it: the first quantum afterwards still
    has the old value (0 instead of 2), although the ramp is under way; an a-rate parameter is right. *)
Theorem C19_krate_late_ramp_refuted :
  let calls := [Schedule (C_set_value_at_time 0 0); Quantum 0 1 (repeat 0 4) true; Schedule (C_linear_ramp 8 16); Quantum 4 1 (repeat 0 4) true; Quantum 8 1 (repeat 0 4) true]%Q in
  (exists p outs, prun (exact_ops (fun x => x) (fun x _ => x)) 4 (new_param false 0 (-10) 10)%Q calls = Ok (p, outs) /\ map (map Qred) outs = [[0]; [0]; [4]]%Q) /\
  (exists p outs, prun (exact_ops (fun x => x) (fun x _ => x)) 4 (new_param true 0 (-10) 10)%Q calls = Ok (p, outs) /\ map (fun l => Qred (hd 0%Q l)) outs = [0; 2; 4]%Q) /\
  Param_CurveSpec.frame_curve 1 0 [Param_CurveSpec.mk_sev Param_CurveSpec.Jump 0 0; Param_CurveSpec.mk_sev Param_CurveSpec.Linear 8 16] 4 == 2.
Proof. split; [|split]; [eexists _, _; split; [vm_compute; reflexivity|]; vm_compute; reflexivity|eexists _, _; split; [vm_compute; reflexivity|]; vm_compute; reflexivity|vm_compute; reflexivity]. Qed.
Print Assumptions C19_krate_late_ramp_refuted.
