(** Oscillators in exact arithmetic: the phase stays in [0,1) and no table look-up is out of bounds. *)
From Coq Require Import List Arith Bool ZArith Reals Lra Lia.
From Flocq Require Import Core.
From Verif Require Import Common_Model Arith_Model Arith_Real Source_Model Source_Spec Source_Proofs Osc_Proofs.
Import ListNotations.
Local Open Scope R_scope.

Definition phase_ok (p : R) : Prop := 0 <= p < 1.

Lemma frac_range : forall x, 0 <= x -> 0 <= x - IZR (Ztrunc x) < 1.
Proof. intros x H. rewrite Ztrunc_floor by exact H. pose proof (Zfloor_lb x). pose proof (Zfloor_ub x). lra. Qed.
Lemma frac_range_neg : forall x, x <= 0 -> -1 < x - IZR (Ztrunc x) <= 0.
Proof. intros x H. rewrite Ztrunc_ceil by exact H. pose proof (Zceil_ub x). assert (IZR (Zceil x) < x + 1); [|lra]. unfold Zceil. rewrite opp_IZR. pose proof (Zfloor_ub (- x)). lra. Qed.

Section Exact.
Variable sr : R.
Hypothesis Hsr : 0 < sr.
Notation A := exact.

Lemma unroll_phase_exact : forall p, -1 <= p < 2 -> phase_ok (unroll_phase A p).
Proof.
  intros p H. unfold unroll_phase, phase_ok. cbn [exact t_le t_lt t_sub t_add t_one t_zero t_of_Z]. unfold t_one, t_zero. cbn [exact t_of_Z]. unfold R_le, R_lt.
  destruct (Rle_dec 1 p); [lra|]. destruct (Rlt_dec p 0); lra.
Qed.
Lemma unroll_unbounded_exact : forall p, phase_ok (unroll_unbounded A p).
Proof.
  intros p. unfold unroll_unbounded, phase_ok. unfold t_one, t_zero. cbn [exact t_lt t_add t_of_Z t_rem1]. unfold R_lt, R_rem1.
  destruct (Rle_dec 0 p) as [H|H]; [pose proof (frac_range p H)|pose proof (frac_range_neg p ltac:(lra))]; destruct (Rlt_dec _ _); lra.
Qed.

Lemma table_exact : forall (w : list R) p, w <> [] -> phase_ok p -> exists v, table_sample A w p = Ok v.
Proof.
  intros w p Hw [H0 H1]. unfold table_sample. cbn [exact t_mul t_of_Z t_floor t_to_Z t_sub v_of_t v_fma v_sub v_mul]. set (n := length w).
  assert (Hn : (0 < n)%nat) by (unfold n; destruct w; [contradiction|cbn; lia]). assert (Hr : 0 < IZR (Z.of_nat n)) by (apply IZR_lt; lia).
  set (x := p * IZR (Z.of_nat n)). assert (Hx : 0 <= x < IZR (Z.of_nat n)) by (unfold x; split; nra).
  assert (Z0 : (0 <= Zfloor x)%Z) by (apply Zfloor_lub; exact (proj1 Hx)). assert (Z1 : (Zfloor x < Z.of_nat n)%Z) by (apply lt_IZR; eapply Rle_lt_trans; [apply Zfloor_lb|exact (proj2 Hx)]).
  unfold R_to_Z. rewrite Ztrunc_IZR, Z.max_r by exact Z0. unfold index.
  destruct (nth_error w (Z.to_nat (Zfloor x))) as [a|] eqn:E1; [|apply nth_error_None in E1; fold n in E1; lia]. cbn [from_option bind].
  match goal with |- context [nth_error w (Z.to_nat ?z)] => assert (B : (0 <= z < Z.of_nat n)%Z) by (destruct (Z.eqb_spec (Zfloor x + 1) (Z.of_nat n)); lia) end.
  match goal with |- context [nth_error w ?j] => destruct (nth_error w j) as [b|] eqn:E2; [|apply nth_error_None in E2; fold n in E2; lia] end. cbn [from_option bind]. eexists; reflexivity.
Qed.

Lemma half_incr : forall f d, t_le A (t_div A (t_of_v A sr) (t_of_Z A 2)) (t_abs A (computed_freq A f d)) = false -> -1/2 < computed_freq A f d / sr < 1/2.
Proof.
  intros f d H. cbn [exact t_le t_div t_of_v t_of_Z t_abs] in H. unfold R_le in H. destruct (Rle_dec _ _) as [|N]; [discriminate|]. apply Rnot_le_lt in N. apply Rabs_def2 in N. set (x := computed_freq _ f d) in *.
  assert (I : x / sr * sr = x) by (field; lra). split; apply Rmult_lt_reg_r with sr; try exact Hsr; rewrite I; lra.
Qed.

Lemma osc_exact : forall (table : list R) ty l, table <> [] -> ty <> Custom ->
  Forall (osc_action_ok A (fun w => w <> []) (fun _ _ => True) (fun _ => True)) l ->
  exists s f os, osc_run A sr table (osc_new A ty) 0 l = Ok (s, f, os) /\ phase_ok (os_phase s) /\ length os = osc_quanta l /\ Forall (fun o => length (o_output o) = 128%nat) os.
Proof.
  intros table ty l Ht Hty Hl.
  destruct (run_ok A sr table phase_ok (fun w => w <> []) (fun _ _ => True) (fun _ => True) (fun _ => True) (fun start time => time - start < / sr)) with (l := l) (s := osc_new A ty) (frame := 0%Z) as (s & f & os & E & G & L & F); auto.
  - intros w p. apply table_exact.
  - intros p f d P _. unfold unroll. destruct (t_le A _ _) eqn:E; [apply unroll_unbounded_exact|]. apply half_incr in E. apply unroll_phase_exact. cbn [exact t_add t_div t_of_v] in *. destruct P. lra.
  - intros frame i start _ _ _ H. cbn [exact t_lt t_add] in *. unfold R_lt in H. destruct (Rlt_dec _ _) in H; [|discriminate]. rewrite dt_exact. lra.
  - intros frame start _ _ H. cbn [exact t_lt] in H. unfold R_lt in H. destruct (Rlt_dec _ _) in H; [discriminate|]. pose proof (Rinv_0_lt_compat _ Hsr). lra.
  - intros frame i start f d _ _ _ _ N H. unfold unroll. destruct (t_le A _ _) eqn:E; [apply unroll_unbounded_exact|]. apply half_incr in E. apply unroll_phase_exact.
    rewrite dt_exact. cbn [exact t_mul t_div t_sub t_of_v t_lt] in *. unfold R_lt in H. destruct (Rlt_dec _ _) in H; [|discriminate].
    set (x := advance A sr i (block_time A sr frame) - start) in *. assert (0 < x) by (unfold x; lra).
    assert (0 < x / / sr < 1). { unfold Rdiv. rewrite Rinv_inv. split; [nra|]. apply Rmult_lt_reg_r with (/ sr); [apply Rinv_0_lt_compat; exact Hsr|]. rewrite Rmult_assoc, Rinv_r by lra. lra. }
    set (y := computed_freq A f d / sr) in *. set (z := x / / sr) in *. change (-1 <= y * z < 2). nra.
  - intros frame i stop _ _ _ H. cbn [exact t_le t_add] in *. rewrite dt_exact. unfold R_le in *. pose proof (Rinv_0_lt_compat _ Hsr). destruct (Rle_dec _ _) in H; [|discriminate]. destruct (Rle_dec _ _); [reflexivity|lra].
  - intros frame _. cbn [exact t_lt]. unfold R_lt. destruct (Rlt_dec _ _); [lra|reflexivity].
  - apply good_new; auto. unfold phase_ok, t_zero. cbn. lra.
  - exists s, f, os. split; [exact E|]. split; [apply G|]. split; assumption.
Qed.
End Exact.
