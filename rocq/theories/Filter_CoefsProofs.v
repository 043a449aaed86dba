(** The coefficients of the biquad filter are those of the specification, and stable. *)
From Coq Require Import List Arith Bool ZArith Lia Reals Lra Psatz.
From Verif Require Import Arith_Model Arith_Real Absn_ExactProofs Filter_Model Filter_Spec Filter_StableProofs.
Import ListNotations.
Local Open Scope R_scope.

Lemma w0_range : forall rate f0, 0 < f0 < rate / 2 -> 0 < 2 * PI * f0 / rate < PI.
Proof.
  intros rate f0 H. pose proof PI_RGT_0. assert (0 < rate) by lra. split.
  - apply Rdiv_lt_0_compat; [|assumption]. apply Rmult_lt_0_compat; lra.
  - apply Rmult_lt_reg_r with rate; [assumption|]. unfold Rdiv. rewrite Rmult_assoc, Rinv_l by lra. pose proof (Rmult_lt_compat_l PI f0 (rate / 2) ltac:(assumption) ltac:(lra)). lra.
Qed.
Lemma sin_pos : forall w, 0 < w < PI -> 0 < sin w. Proof. intros w [H1 H2]. apply sin_gt_0; assumption. Qed.
Lemma cos_range : forall w, 0 < w < PI -> -1 < cos w < 1.
Proof. intros w H. pose proof (sin_pos w H). pose proof (sin2_cos2 w) as E. unfold Rsqr in E. nra. Qed.
Lemma power_pos : forall x y, 0 < Rpower x y. Proof. intros. unfold Rpower. apply exp_pos. Qed.

Lemma clamp01_in : forall x, 0 < x < 1 -> clamp01 exact x = x.
Proof. intros x H. unfold clamp01. cbn [exact t_lt t_of_Z]. rewrite R_lt_false by lra. rewrite R_lt_false by lra. reflexivity. Qed.
Lemma norm_freq : forall rate f0, 0 < f0 < rate / 2 -> 0 < f0 / (rate / 2) < 1.
Proof.
  intros rate f0 H. assert (0 < rate) by lra. split; [apply Rdiv_lt_0_compat; lra|]. apply Rmult_lt_reg_r with (rate / 2); [lra|]. unfold Rdiv at 1. rewrite Rmult_assoc, Rinv_l by lra. lra.
Qed.
Lemma alpha_S_eq : forall w A, 0 < A -> sin w / 2 * sqrt ((A + / A) * (/ 1 - 1) + 2) = sin w / 2 * sqrt 2.
Proof. intros w A H. rewrite Rinv_1. replace ((A + / A) * (1 - 1) + 2) with 2 by ring. reflexivity. Qed.

Lemma cookbook_a0 : forall type_ rate f0 gain q, 0 < f0 < rate / 2 -> (needs_q type_ = true -> 0 < q) -> 0 < f_a0 (cookbook type_ rate f0 gain q).
Proof.
  intros type_ rate f0 gain q Hf Hq. unfold cookbook. cbv zeta. set (w := 2 * PI * f0 / rate). assert (Hw : 0 < w < PI) by (apply w0_range; exact Hf). pose proof (sin_pos w Hw) as Sp. pose proof (cos_range w Hw) as Cp.
  set (A := Rpower 10 (gain / 40)). assert (Ap : 0 < A) by apply power_pos. pose proof (power_pos 10 (q / 20)) as Qp.
  assert (Al : 0 < sin w / (2 * Rpower 10 (q / 20))) by (apply Rdiv_lt_0_compat; lra).
  assert (Sa : 0 < sqrt A) by (apply sqrt_lt_R0; exact Ap). assert (S2 : 0 < sqrt 2) by (apply sqrt_lt_R0; lra).
  assert (As : 0 < 2 * (sin w / 2 * sqrt ((A + / A) * (/ 1 - 1) + 2)) * sqrt A). { rewrite alpha_S_eq by exact Ap. repeat apply Rmult_lt_0_compat; lra. }
  destruct type_; cbn [f_a0]; try (cbn in Hq; specialize (Hq eq_refl); assert (0 < sin w / (2 * q)) by (apply Rdiv_lt_0_compat; lra)); try lra.
  - assert (0 < sin w / (2 * q) / A) by (apply Rdiv_lt_0_compat; lra). lra.
  - assert (0 < A + 1 + (A - 1) * cos w) by nra. lra.
  - assert (0 < A + 1 - (A - 1) * cos w) by nra. lra.
Qed.

Lemma norm_eq : forall X a Y b, a = b -> X = Y -> X * (1 / a) = Y / b. Proof. intros X a Y b -> ->. unfold Rdiv. ring. Qed.
Lemma coefs_cookbook : forall type_ rate f0 gain q, 0 < f0 < rate / 2 -> (needs_q type_ = true -> 0 < q) ->
  let s := cookbook type_ rate f0 gain q in
  calculate_coefs exact type_ rate f0 gain q = mk_coefs (f_b0 s / f_a0 s) (f_b1 s / f_a0 s) (f_b2 s / f_a0 s) (f_a1 s / f_a0 s) (f_a2 s / f_a0 s).
Proof.
  intros type_ rate f0 gain q Hf Hq. cbv zeta. pose proof (cookbook_a0 type_ rate f0 gain q Hf Hq) as P0. revert P0. unfold calculate_coefs, cookbook. cbn [exact t_div t_of_Z]. pose proof (norm_freq rate f0 Hf) as Nf. set (f := f0 / (rate / 2)) in *. rewrite (clamp01_in f Nf).
  assert (Wf : PI * f = 2 * PI * f0 / rate) by (unfold f; field; lra).
  assert (N1 : R_eq f 1 = false) by (unfold R_eq; destruct (Req_EM_T f 1); [lra|reflexivity]). assert (N0 : R_eq f 0 = false) by (unfold R_eq; destruct (Req_EM_T f 0); [lra|reflexivity]).
  assert (Nin : inner exact f = true) by (unfold inner; cbn [exact t_lt t_of_Z]; rewrite !R_lt_true by lra; reflexivity).
  pose proof (power_pos 10 (gain / 40)) as Ap.
  destruct type_; unfold lowpass_coefs, highpass_coefs, bandpass_coefs, notch_coefs, allpass_coefs, peaking_coefs, lowshelf_coefs, highshelf_coefs, normalize_coefs, alpha_q_db, shelf_alpha;
    cbn [exact t_eq t_lt t_of_Z t_PI t_mul t_div t_add t_sub t_sin t_cos t_pow t_sqrt t_neg f_a0 f_a1 f_a2 f_b0 f_b1 f_b2]; rewrite ?Nin, ?N1, ?N0, ?Wf, ?alpha_S_eq by exact Ap;
    set (w := 2 * PI * f0 / rate) in *; try (rewrite R_lt_true by (apply Hq; reflexivity)); try (rewrite R_lt_true by lra);
    intros P0; f_equal; apply norm_eq; first [ring|lra].
Qed.

Lemma coefs_stable : forall type_ rate f0 gain q, 0 < f0 < rate / 2 -> (needs_q type_ = true -> 0 < q) ->
  let k := calculate_coefs exact type_ rate f0 gain q in Rabs (k_a2 k) < 1 /\ Rabs (k_a1 k) < 1 + k_a2 k.
Proof.
  intros type_ rate f0 gain q Hf Hq. cbv zeta. rewrite coefs_cookbook by assumption. cbn [k_a1 k_a2]. pose proof (cookbook_a0 type_ rate f0 gain q Hf Hq) as P0. set (s := cookbook type_ rate f0 gain q) in *.
  assert (G : - f_a0 s < f_a2 s < f_a0 s /\ - (f_a0 s + f_a2 s) < f_a1 s < f_a0 s + f_a2 s).
  { unfold s, cookbook. cbv zeta. set (w := 2 * PI * f0 / rate). assert (Hw : 0 < w < PI) by (apply w0_range; exact Hf). pose proof (sin_pos w Hw) as Sp. pose proof (cos_range w Hw) as Cp.
    set (A := Rpower 10 (gain / 40)). assert (Ap : 0 < A) by apply power_pos. pose proof (power_pos 10 (q / 20)) as Qp.
    assert (Al : 0 < sin w / (2 * Rpower 10 (q / 20))) by (apply Rdiv_lt_0_compat; lra).
    assert (Sa : 0 < sqrt A) by (apply sqrt_lt_R0; exact Ap). assert (S2 : 0 < sqrt 2) by (apply sqrt_lt_R0; lra).
    assert (As : 0 < 2 * (sin w / 2 * sqrt ((A + / A) * (/ 1 - 1) + 2)) * sqrt A). { rewrite alpha_S_eq by exact Ap. repeat apply Rmult_lt_0_compat; lra. }
    destruct type_; cbn [f_a0 f_a1 f_a2]; try (cbn in Hq; specialize (Hq eq_refl); assert (0 < sin w / (2 * q)) by (apply Rdiv_lt_0_compat; lra)); try lra.
    - assert (0 < sin w / (2 * q) / A) by (apply Rdiv_lt_0_compat; lra). lra.
    - assert (0 < A * (1 + cos w)) by nra. assert (0 < A * (1 - cos w)) by nra. lra.
    - assert (0 < A * (1 + cos w)) by nra. assert (0 < A * (1 - cos w)) by nra. lra. }
  set (a0 := f_a0 s) in *. set (a1 := f_a1 s) in *. set (a2 := f_a2 s) in *. assert (I0 : 0 < / a0) by (apply Rinv_0_lt_compat; lra). assert (E0 : a0 * / a0 = 1) by (apply Rinv_r; lra).
  split; (unfold Rdiv; apply Rabs_def1; [apply Rmult_lt_reg_r with a0; [lra|]|apply Rmult_lt_reg_r with a0; [lra|]]).
  - rewrite Rmult_assoc, (Rmult_comm (/ a0)), E0. lra.
  - rewrite (Rmult_assoc a2), (Rmult_comm (/ a0)), E0. lra.
  - rewrite (Rmult_assoc a1), (Rmult_comm (/ a0)), E0, Rmult_plus_distr_r, (Rmult_assoc a2), (Rmult_comm (/ a0)), E0. lra.
  - rewrite (Rmult_assoc a1), (Rmult_comm (/ a0)), E0, Ropp_mult_distr_l_reverse, Rmult_plus_distr_r, (Rmult_assoc a2), (Rmult_comm (/ a0)), E0. lra.
Qed.

Lemma computed_freq_cents : forall f d, computed_freq exact f d = cents f d.
Proof.
  intros f d. unfold computed_freq, cents, v_zero. cbn [exact v_eq v_of_Z v_mul v_exp2 v_div]. unfold R_eq, R_exp2. destruct (Req_EM_T d 0) as [->|]; cbn [negb]; [|reflexivity]. unfold Rdiv. rewrite Rmult_0_l, Rpower_O by lra. ring.
Qed.

Lemma clamp01_high : forall x, 1 <= x -> clamp01 exact x = 1.
Proof. intros x H. unfold clamp01. cbn [exact t_lt t_of_Z]. rewrite R_lt_false by lra. unfold R_lt. destruct (Rlt_dec 1 x); [reflexivity|lra]. Qed.
Lemma clamp01_low : forall x, x <= 0 -> clamp01 exact x = 0.
Proof. intros x H. unfold clamp01. cbn [exact t_lt t_of_Z]. rewrite (R_lt_false 1 x) by lra. unfold R_lt. destruct (Rlt_dec x 0); lra. Qed.
Lemma div_high : forall a b, 0 < b -> b <= a -> 1 <= a / b.
Proof. intros a b H L. apply Rmult_le_reg_r with b; [exact H|]. unfold Rdiv. rewrite Rmult_assoc, Rinv_l by lra. lra. Qed.
Lemma div_low : forall a b, 0 < b -> a <= 0 -> a / b <= 0.
Proof. intros a b H L. apply Rmult_le_reg_r with b; [exact H|]. unfold Rdiv. rewrite Rmult_assoc, Rinv_l by lra. lra. Qed.
Lemma coefs_edge : forall type_ rate f0 gain q, 0 < rate -> rate / 2 <= f0 \/ (f0 <= 0 /\ type_ <> Lowpass) ->
  calculate_coefs exact type_ rate f0 gain q = mk_coefs (edge_gain type_ (if Rle_dec (rate / 2) f0 then true else false) gain) 0 0 0 0.
Proof.
  intros type_ rate f0 gain q Hr Hf. unfold calculate_coefs. cbn [exact t_div t_of_Z].
  assert (P : Rpower 10 (gain / 40) * Rpower 10 (gain / 40) = Rpower 10 (gain / 20)) by (rewrite <- Rpower_plus; f_equal; field).
  destruct Hf as [Hf|[Hf Ht]].
  - rewrite clamp01_high by (apply div_high; lra). destruct (Rle_dec (rate / 2) f0) as [_|N]; [|contradiction].
    assert (E1 : R_eq 1 1 = true) by (unfold R_eq; destruct (Req_EM_T 1 1); [reflexivity|contradiction]). assert (Ni : inner exact 1 = false) by (unfold inner; cbn [exact t_lt t_of_Z]; rewrite (R_lt_false 1 1) by lra; apply andb_false_r).
    destruct type_; unfold lowpass_coefs, highpass_coefs, bandpass_coefs, notch_coefs, allpass_coefs, peaking_coefs, lowshelf_coefs, highshelf_coefs; cbn [exact t_eq t_lt t_of_Z t_pow t_div t_mul edge_gain]; rewrite ?Ni, ?E1, ?P; reflexivity.
  - destruct (Rle_dec (rate / 2) f0) as [N|_]; [lra|]. rewrite clamp01_low by (apply div_low; lra).
    assert (E1 : R_eq 0 1 = false) by (unfold R_eq; destruct (Req_EM_T 0 1); [lra|reflexivity]). assert (E0 : R_eq 0 0 = true) by (unfold R_eq; destruct (Req_EM_T 0 0); [reflexivity|contradiction]). assert (Ni : inner exact 0 = false) by (unfold inner; cbn [exact t_lt t_of_Z]; rewrite (R_lt_false 0 0) by lra; reflexivity).
    destruct type_; [contradiction|..]; unfold lowpass_coefs, highpass_coefs, bandpass_coefs, notch_coefs, allpass_coefs, peaking_coefs, lowshelf_coefs, highshelf_coefs; cbn [exact t_eq t_lt t_of_Z t_pow t_div t_mul edge_gain]; rewrite ?Ni, ?E1, ?E0, ?(R_lt_false 0 0), ?P by lra; reflexivity.
Qed.
