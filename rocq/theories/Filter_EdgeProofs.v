(** A lowpass filter whose frequency goes to 0. *)
From Coq Require Import List Arith Bool ZArith Lia Reals Lra Psatz.
From Verif Require Import Arith_Model Arith_Real Absn_ExactProofs Route_Spec Filter_Model Filter_Spec Filter_ExactProofs Filter_StableProofs Filter_CoefsProofs Filter_ResponseProofs.
Import ListNotations.
Local Open Scope R_scope.

Section Ramp.
Variable rate : R.
Hypothesis rate_pos : 0 < rate.
Variable size : nat.
Hypothesis size_pos : (0 < size)%nat.
(** one impulse, at a frequency of a quarter of the sample rate *)
Definition hit : call (V := R) (filter_type * biquad_params (V := R)) :=
  mk_call _ (Lowpass, mk_biquad_params ((rate / 4) :: repeat 0 (size - 1)) [0] [0] [0]) 5 [mk_chan 1 (1 :: repeat 0 (size - 1))] [mk_chan 0 []].
(** silence, at frequency 0 *)
Definition hush : call (V := R) (filter_type * biquad_params (V := R)) := mk_call _ (Lowpass, mk_biquad_params [0] [0] [0] [0]) 5 [mk_chan 0 (repeat 0 size)] [mk_chan 0 []].
Definition open_ : setting R := mk_setting Lowpass (rate / 4) 0 0 0.
Definition closed : setting R := mk_setting Lowpass 0 0 0 0.

Lemma cents_zero : forall f, cents f 0 = f. Proof using Type. intros f. unfold cents, Rdiv. rewrite Rmult_0_l, Rpower_O by lra. ring. Qed.
Lemma coefs_closed : coefs_of exact rate closed = mk_coefs 0 0 0 (-2) 1.
Proof using rate_pos.
  unfold coefs_of. cbn [closed g_type g_frequency g_detune g_gain g_q exact t_of_v]. rewrite computed_freq_cents, cents_zero. unfold calculate_coefs. cbn [exact t_div t_of_Z]. rewrite clamp01_low by (apply div_low; lra).
  unfold lowpass_coefs, normalize_coefs, alpha_q_db. cbn [exact t_eq t_of_Z t_mul t_div t_sin t_cos t_PI t_add t_sub t_pow]. replace (R_eq 0 1) with false by (unfold R_eq; destruct (Req_EM_T 0 1); [lra|reflexivity]). rewrite Rmult_0_r, sin_0, cos_0. f_equal; field; apply Rgt_not_eq; pose proof (power_pos 10 (0 / 20)); lra.
Qed.
Lemma coefs_open : exists b, 0 < b /\ k_b0 (coefs_of exact rate open_) = b.
Proof using rate_pos.
  eexists. split; [|reflexivity]. unfold coefs_of. cbn [open_ g_type g_frequency g_detune g_gain g_q exact t_of_v]. rewrite computed_freq_cents, cents_zero. assert (H : 0 < rate / 4 < rate / 2) by lra. rewrite coefs_cookbook by (auto; discriminate). cbn [k_b0]. pose proof (cookbook_a0 Lowpass rate (rate / 4) 0 0 H ltac:(discriminate)) as P0.
  apply Rdiv_lt_0_compat; [|exact P0]. cbn [cookbook f_b0]. pose proof (cos_range _ (w0_range rate (rate / 4) H)). lra.
Qed.

Lemma settings_hit : settings 0 size (l_settings _ hit) = open_ :: repeat closed (size - 1).
Proof using size_pos.
  unfold settings, hit. cbn [l_settings fst snd q_frequency q_detune q_gain q_q]. destruct size as [|n]; [lia|]. cbn [seq map]. replace (S n - 1)%nat with n by lia. f_equal; [unfold param_at, open_; cbn [length]; rewrite !Nat.mod_0_l by lia; reflexivity|].
  apply nth_ext with (d := closed) (d' := closed); [rewrite map_length, seq_length, repeat_length; reflexivity|]. intros k Hk. rewrite map_length, seq_length in Hk. rewrite nth_repeat. rewrite nth_indep with (d' := mk_setting Lowpass (param_at 0 (rate / 4 :: repeat 0 n) 0) (param_at 0 [0] 0) (param_at 0 [0] 0) (param_at 0 [0] 0)) by (rewrite map_length, seq_length; exact Hk).
  rewrite (map_nth (fun i => mk_setting Lowpass (param_at 0 (rate / 4 :: repeat 0 n) i) (param_at 0 [0] i) (param_at 0 [0] i) (param_at 0 [0] i)) (seq 1 n) 0%nat k). rewrite seq_nth by exact Hk. unfold param_at, closed. cbn [length]. rewrite repeat_length, Nat.mod_small by lia. rewrite !Nat.mod_1_r. cbn [Nat.add nth]. rewrite nth_repeat. reflexivity.
Qed.
Lemma settings_hush : settings 0 size (l_settings _ hush) = repeat closed size.
Proof using Type.
  unfold settings, hush. cbn [l_settings fst snd q_frequency q_detune q_gain q_q]. apply nth_ext with (d := closed) (d' := closed); [rewrite map_length, seq_length, repeat_length; reflexivity|]. intros k Hk. rewrite map_length, seq_length in Hk. rewrite nth_repeat.
  assert (G : forall i, mk_setting Lowpass (param_at 0 [0] i) (param_at 0 [0] i) (param_at 0 [0] i) (param_at 0 [0] i) = closed) by (intros i; unfold param_at, closed; cbn [length]; rewrite !Nat.mod_1_r; reflexivity).
  rewrite (map_ext _ (fun _ => closed)) by exact G. exact (map_nth (fun _ => closed) (seq 0 size) 0%nat k).
Qed.
Lemma hush_history : forall n h outs, length outs = n -> let h' := channel_history 0 size 0 (settings 0 size) h (repeat hush n) outs in
  h_in h' = h_in h ++ repeat 0 (n * size) /\ h_env h' = h_env h ++ repeat closed (n * size).
Proof using size_pos.
  induction n as [|n IH]; intros h [|o outs] L; try discriminate L; cbn [repeat channel_history Nat.mul]; [cbn [repeat]; rewrite !app_nil_r; auto|]. specialize (IH (extend 0 size 0 h (settings 0 size (l_settings _ hush)) (l_input _ hush) o) outs ltac:(cbn in L; lia)). cbv zeta in *. destruct IH as [I1 I2]. rewrite I1, I2.
  unfold extend. change (is_silent (l_input _ hush)) with true. cbv iota. cbn [h_in h_env]. rewrite settings_hush, !repeat_app, !app_assoc. auto.
Qed.
Lemma ramp : exists b, 0 < b /\ forall n, exists states outs, let ls := hit :: repeat hush n in run_calls (biquad_call exact size rate) [] ls = Ok (states, outs) /\
  let h := channel_history 0 size 0 (settings 0 size) empty_history ls outs in length (h_out h) = (S n * size)%nat /\ forall t, (t < S n * size)%nat -> nth t (h_out h) 0 = b * (INR t + 1).
Proof using rate_pos size_pos.
  destruct coefs_open as (b & Hb & Eb). exists b. split; [exact Hb|]. intros n.
  assert (Ok_ : Forall (call_ok (sops_of exact) size) (hit :: repeat hush n)).
  { constructor.
    - split; [|discriminate]. split; [cbn; lia|]. split; [constructor; [cbn [c_val length]; rewrite repeat_length; lia|constructor]|]. constructor; [discriminate|constructor].
    - rewrite Forall_forall. intros l Hl. apply repeat_spec in Hl. subst l. split; [|discriminate]. split; [cbn; lia|]. split; (constructor; [|constructor]); [cbn [c_val]; apply repeat_length|reflexivity]. }
  assert (Fi : Forall (fun l => params_ok (snd (l_settings _ l))) (hit :: repeat hush n)).
  { constructor; [repeat split; discriminate|]. rewrite Forall_forall. intros l Hl. apply repeat_spec in Hl. subst l. repeat split; discriminate. }
  destruct (biquad_exact size rate (hit :: repeat hush n) size_pos Ok_ Fi) as (states & outs & E & L & Q). exists states, outs. cbv zeta. split; [exact E|]. specialize (Q 0%nat). cbv zeta in Q. destruct outs as [|o outs]; [discriminate L|]. cbn [length] in L. rewrite repeat_length in L. cbn [channel_history] in *.
  set (h0 := extend 0 size 0 empty_history (settings 0 size (l_settings _ hit)) (l_input _ hit) o) in *. destruct (hush_history n h0 outs ltac:(lia)) as [I1 I2]. set (h := channel_history 0 size 0 (settings 0 size) h0 (repeat hush n) outs) in *.
  assert (J1 : h_in h0 = 1 :: repeat 0 (size - 1)) by reflexivity. assert (J2 : h_env h0 = open_ :: repeat closed (size - 1)) by (unfold h0, extend; change (is_silent (l_input _ hit)) with false; cbv iota; cbn [hit l_input length Nat.ltb Nat.leb h_env empty_history app]; apply settings_hit).
  rewrite J1 in I1. rewrite J2 in I2. cbn [app] in I1, I2. rewrite <- repeat_app in I1, I2. replace (size - 1 + n * size)%nat with (S n * size - 1)%nat in I1, I2 by lia.
  destruct Q as [[S1 S2] Q]. assert (Le : length (h_env h) = (S n * size)%nat) by (rewrite I2; cbn [length]; rewrite repeat_length; lia). split; [lia|].
  intros t. induction t as [t IH] using (well_founded_induction lt_wf). intros Ht.
  destruct t as [|t].
  - specialize (Q 0%nat open_). rewrite I2 in Q. specialize (Q eq_refl). unfold numerator, denominator in Q. cbv zeta in Q. cbn [weighted] in Q. change (Z.of_nat 0) with 0%Z in Q. rewrite Eb in Q. assert (N : forall x z, (z < 0)%Z -> at_time x z = 0) by exact at_neg. rewrite (N (h_in h) (0 - 1)%Z), (N (h_out h) (0 - 1)%Z), (N (h_in h) (0 - 1 - 1)%Z), (N (h_out h) (0 - 1 - 1)%Z) in Q by lia. change 0%Z with (Z.of_nat 0) in Q. rewrite !at_nat, I1 in Q. cbn [nth] in Q. cbn [INR]. rewrite !Rmult_0_r, !Rplus_0_r, Rmult_1_l, Rmult_1_r in Q. rewrite Q. ring.
  - specialize (Q (S t) closed). rewrite I2 in Q. cbn [nth_error] in Q. rewrite (nth_error_repeat closed) in Q by lia. specialize (Q eq_refl). unfold numerator, denominator in Q. rewrite coefs_closed in Q. cbv zeta in Q. cbn [weighted k_b0 k_b1 k_b2 k_a1 k_a2] in Q.
    replace (Z.of_nat (S t) - 1)%Z with (Z.of_nat t) in Q by lia. rewrite !at_nat in Q. rewrite (IH t) in Q by lia. destruct t as [|t].
    + pose proof (at_neg (h_out h) (Z.of_nat 0 - 1) ltac:(lia)) as N. rewrite N in Q. cbn [INR] in *. lra.
    + replace (Z.of_nat (S t) - 1)%Z with (Z.of_nat t) in Q by lia. rewrite at_nat, (IH t) in Q by lia. rewrite !S_INR in *. lra.
Qed.
End Ramp.
