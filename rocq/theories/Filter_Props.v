(** Filters: theorems.

    C29 The filters implement their difference equations.
    C30 The filters never emit NaN and flush denormals.
    C46 Biquad filters are stable.
    C47 getFrequencyResponse describes what a filter does. *)
From Coq Require Import List Arith Bool ZArith Lia Reals Lra.
From Flocq Require Import Core BinarySingleNaN.
From Verif Require Import Float_Model Arith_Model Arith_Real Source_Props Route_Spec Filter_Model Filter_Spec Filter_FloatSpec Filter_Proofs Filter_ExactProofs Filter_CoefsProofs Filter_ResponseProofs Filter_SafeProofs Filter_IeeeProofs Filter_EdgeProofs Filter_IirSpec Filter_IirProofs Filter_IirIeeeProofs.
Import ListNotations.
Local Open Scope R_scope.

Lemma exact_runs : forall size rate ls states outs c, (0 < size)%nat -> Forall (call_ok (sops_of exact) size) ls -> Forall (fun l => params_ok (snd (l_settings _ l))) ls -> run_calls (biquad_call exact size rate) [] ls = Ok (states, outs) ->
  let h := channel_history 0 size c (settings 0 size) empty_history ls outs in length (h_in h) = length (h_env h) /\ length (h_out h) = length (h_env h) /\ forall t, equation rate h t.
Proof.
  intros size rate ls states outs c Hs Hok Hp E. destruct (biquad_exact size rate ls Hs Hok Hp) as (s' & o' & E' & _ & Q). rewrite E in E'. injection E' as <- <-. destruct (Q c) as [[L1 L2] Q']. auto.
Qed.
Lemma calls_length : forall V P St (f : St -> call (V := V) P -> res (St * list (chan V) * bool)) ls st st' outs, run_calls f st ls = Ok (st', outs) -> length outs = length ls.
Proof.
  intros V P St f. induction ls as [|l ls IH]; intros st st' outs H; cbn [run_calls] in H; [injection H as _ <-; reflexivity|]. destruct (f st l) as [[[s1 o] b]| |]; try discriminate H. cbn [bind] in H. destruct (run_calls f s1 ls) as [[s2 os]| |] eqn:Q; try discriminate H. cbn [bind] in H. injection H as _ <-. cbn [length]. f_equal. eapply IH. exact Q.
Qed.
Lemma of_setting : forall rate g, coefs_of exact rate g = calculate_coefs exact (g_type g) rate (cents (g_frequency g) (g_detune g)) (g_gain g) (g_q g).
Proof. intros rate g. unfold coefs_of. cbn [exact t_of_v]. rewrite computed_freq_cents. reflexivity. Qed.

(** ** C29 *)
(** Biquad filter, exact arithmetic: whatever the sequence of quanta, the automation of the params and the changes of type and
    of the number of channels, the frames whose frequency is in the interior satisfy the difference equation with the
    coefficients of the specification for the settings of that frame. *)
Theorem C29_biquad : forall size rate ls, (0 < size)%nat -> 0 < rate -> Forall (call_ok (sops_of exact) size) ls -> Forall (fun l => params_ok (snd (l_settings _ l))) ls ->
  exists states outs, run_calls (biquad_call exact size rate) [] ls = Ok (states, outs) /\
    forall c, let h := channel_history 0 size c (settings 0 size) empty_history ls outs in length (h_in h) = length (h_env h) /\ length (h_out h) = length (h_env h) /\
      forall t g, nth_error (h_env h) t = Some g -> let f0 := cents (g_frequency g) (g_detune g) in 0 < f0 < rate / 2 -> (needs_q (g_type g) = true -> 0 < g_q g) ->
        let s := cookbook (g_type g) rate f0 (g_gain g) (g_q g) in 0 < f_a0 s /\
        weighted [f_a0 s; f_a1 s; f_a2 s] (h_out h) (Z.of_nat t) = weighted [f_b0 s; f_b1 s; f_b2 s] (h_in h) (Z.of_nat t).
Proof.
  intros size rate ls Hs Hr Hok Hp. destruct (biquad_exact size rate ls Hs Hok Hp) as (states & outs & E & _ & Q). exists states, outs. split; [exact E|]. intros c. destruct (Q c) as [[L1 L2] Qt]. cbv zeta. split; [exact L1|]. split; [exact L2|].
  intros t g Hg Hf Hq. specialize (Qt t g Hg). unfold denominator, numerator in Qt. pose proof (cookbook_a0 (g_type g) rate _ (g_gain g) (g_q g) Hf Hq) as P0. split; [exact P0|]. rewrite of_setting, coefs_cookbook in Qt by assumption. cbv zeta in Qt. cbn [k_b0 k_b1 k_b2 k_a1 k_a2] in Qt.
  set (s := cookbook _ _ _ _ _) in *. cbn [weighted] in *. apply Rmult_eq_reg_l with (/ f_a0 s); [|apply Rinv_neq_0_compat; lra]. unfold Rdiv in Qt. rewrite <- (Rinv_l (f_a0 s)) in Qt by lra. match type of Qt with ?l = ?r => transitivity l; [ring|]; transitivity r; [exact Qt|ring] end.
Qed.
Print Assumptions C29_biquad.

(** Outside the filter is a gain: at and above half the sample rate, and, except for the lowpass filter, at and below 0. *)
Theorem C29_biquad_edge : forall size rate ls, (0 < size)%nat -> 0 < rate -> Forall (call_ok (sops_of exact) size) ls -> Forall (fun l => params_ok (snd (l_settings _ l))) ls ->
  exists states outs, run_calls (biquad_call exact size rate) [] ls = Ok (states, outs) /\
    forall c, let h := channel_history 0 size c (settings 0 size) empty_history ls outs in
      forall t g, nth_error (h_env h) t = Some g -> let f0 := cents (g_frequency g) (g_detune g) in rate / 2 <= f0 \/ (f0 <= 0 /\ g_type g <> Lowpass) ->
        nth t (h_out h) 0 = edge_gain (g_type g) (if Rle_dec (rate / 2) f0 then true else false) (g_gain g) * nth t (h_in h) 0.
Proof.
  intros size rate ls Hs Hr Hok Hp. destruct (biquad_exact size rate ls Hs Hok Hp) as (states & outs & E & _ & Q). exists states, outs. split; [exact E|]. intros c. destruct (Q c) as [_ Qt]. cbv zeta.
  intros t g Hg Hf. specialize (Qt t g Hg). unfold denominator, numerator in Qt. rewrite of_setting, coefs_edge in Qt by assumption. cbv zeta in Qt. cbn [k_b0 k_b1 k_b2 k_a1 k_a2 weighted] in Qt. rewrite !at_nat in Qt. rewrite Rmult_1_l, !Rmult_0_l, !Rplus_0_r in Qt. exact Qt.
Qed.
Print Assumptions C29_biquad_edge.

(** IIR filter, exact arithmetic: up to 20 coefficients each way. *)
Theorem C29_iir : forall size feedforward feedback, (0 < length feedforward <= 20)%nat -> (0 < length feedback <= 20)%nat -> Exists (fun b => b <> 0) feedforward -> nth 0 feedback 0 <> 0 ->
  exists cs start, iir_new exact feedforward feedback = Ok (cs, start) /\
    forall ls, Forall (call_ok (sops_of exact) size) ls -> exists states outs, run_calls (iir_call exact size cs) start ls = Ok (states, outs) /\ length outs = length ls /\
      forall c, let h := channel_history 0 size c (fun _ => repeat tt size) empty_history ls outs in length (h_out h) = length (h_in h) /\
        forall t, (t < length (h_in h))%nat -> weighted feedback (h_out h) (Z.of_nat t) = weighted feedforward (h_in h) (Z.of_nat t).
Proof. exact iir_exact. Qed.
Print Assumptions C29_iir.

(** IIR filter in floating point, any [libm]: the same, up to 2^-42 of the largest product of a coefficient and a
    sample, for the given coefficients divided by the first feedback coefficient in f64. *)
Theorem C29_iir_ieee : forall M size feedforward feedback cs start ls, iir_new (ieee M) feedforward feedback = Ok (cs, start) -> Forall (fun p : f64 * f64 => is_finite (fst p) = true /\ is_finite (snd p) = true) cs ->
  Forall (call_ok (sops_of (ieee M)) size) ls -> Forall (fun l => Forall (fun c => Forall (fun x : f32 => is_finite x = true) (c_val c)) (l_input _ l)) ls ->
  (length cs = Nat.max (length feedforward) (length feedback) /\ forall i, (i < length cs)%nat -> nth_error cs i = Some (f64_div (nth i feedforward (f64_of_Z 0)) (nth 0 feedback (f64_of_Z 0)), f64_div (nth i feedback (f64_of_Z 0)) (nth 0 feedback (f64_of_Z 0)))) /\
  exists states outs, run_calls (iir_call (ieee M) size cs) start ls = Ok (states, outs) /\ length outs = length ls /\
    forall c, let h := channel_history f32_zero size c (fun _ => repeat tt size) empty_history ls outs in
      exists ys : list f64, h_out h = map f32_of_f64 ys /\ length ys = length (h_in h) /\ Forall tidy ys /\
        forall t e, (t < length (h_in h))%nat -> (-1000 <= e <= 1000)%Z -> let X := map (fun v : f32 => B2R v) (h_in h) in let Y := values ys in
          products_small cs (firstn (S t) X) (firstn t Y) e -> Rabs (iir_residual cs X Y (Z.of_nat t)) <= bpow radix2 (e - 42) + bpow radix2 (-1016).
Proof.
  intros M size ff fb cs start ls En Hf Hok Hi. destruct (iir_new_ieee M ff fb cs start En) as (-> & L & Lc & Q). split; [split; [exact Lc|exact Q]|]. destruct (iir_run_ieee M size cs L Hf ls Hok Hi) as (states & outs & E & Lo & G). exists states, outs. split; [exact E|]. split; [exact Lo|].
  intros c. destruct (G c) as (ys & Q1 & Q2 & Q3 & Q4). exists ys. split; [exact Q1|]. split; [exact Q2|]. split; [exact Q3|]. intros t e Ht He X Y. exact (Q4 t Ht e He).
Qed.
Print Assumptions C29_iir_ieee.

(** Biquad filter in floating point, any [libm]: every output sample is the rounding to f32 of a f64 that satisfies the
    difference equation with the coefficients the code computes, up to 2^-47 of the largest of the five products. *)
Theorem C29_biquad_ieee : forall M size (rate : f32) ls, (0 < size)%nat -> Forall (call_ok (sops_of (ieee M)) size) ls -> Forall (fun l => params_ok (snd (l_settings _ l))) ls ->
  Forall (fun l => Forall (fun c => Forall (fun x : f32 => is_finite x = true) (c_val c)) (l_input _ l)) ls ->
  exists states outs, run_calls (biquad_call (ieee M) size rate) [] ls = Ok (states, outs) /\ length outs = length ls /\
    forall c, let h := channel_history f32_zero size c (settings f32_zero size) empty_history ls outs in
      exists ys : list f64, h_out h = map f32_of_f64 ys /\ length ys = length (h_in h) /\ length (h_env h) = length (h_in h) /\ Forall tidy ys /\
        forall t g e, nth_error (h_env h) t = Some g -> (-1000 <= e <= 1000)%Z -> let k := coefs_of (ieee M) rate g in let X := map (fun v : f32 => B2R v) (h_in h) in let Y := map (fun v : f64 => B2R v) ys in
          coefs_finite k -> Forall (fun p => Rabs p <= bpow radix2 e) (products k X Y (Z.of_nat t)) -> Rabs (residual k X Y (Z.of_nat t)) <= bpow radix2 (e - 47) + bpow radix2 (-1022).
Proof.
  intros M size rate ls Hs Hok Hp Hf. destruct (biquad_ieee M size rate ls Hs Hok Hp Hf) as (states & outs & E & L & Q). exists states, outs. split; [exact E|]. split; [exact L|]. intros c. destruct (Q c) as (ys & Q1 & Q2 & Q3 & Q4 & Q5). exists ys. repeat (split; [assumption|]). exact Q5.
Qed.
Print Assumptions C29_biquad_ieee.

(** ** C30 *)
Lemma clean_tidy : forall M (v : f32), clean (ieee M) v -> exists y : f64, v = f32_of_f64 y /\ tidy y.
Proof.
  intros M v (y & -> & H). exists y. split; [reflexivity|]. cbn [ieee t_of_Z t_normal] in H. destruct H as [->|H]; [split; [reflexivity|left; reflexivity]|].
  destruct y as [s|s| |s m e B]; try discriminate H. split; [reflexivity|]. right. apply (proj1 (normal_iff (B754_finite s m e B) eq_refl)). exact H.
Qed.
(** For every input, NaN and infinities included, and every value of the params: the filter runs, and every output sample is
    the rounding of a f64 that is finite and not denormal; in particular it is not NaN. *)
Theorem C30_biquad : forall M size (rate : f32) ls, (0 < size)%nat -> Forall (call_ok (sops_of (ieee M)) size) ls -> Forall (fun l => params_ok (snd (l_settings _ l))) ls ->
  exists states outs, run_calls (biquad_call (ieee M) size rate) [] ls = Ok (states, outs) /\ length outs = length ls /\
    Forall (fun o => Forall (fun c => Forall (fun v : f32 => is_nan v = false /\ exists y : f64, v = f32_of_f64 y /\ tidy y) (c_val c)) o) outs.
Proof.
  intros M size rate ls Hs Hok Hp. destruct (biquad_runs (ieee M) size eq_refl rate ls Hs Hok Hp) as (states & outs & E & L). exists states, outs. split; [exact E|]. split; [exact L|].
  assert (Z0 : v_of_t (ieee M) (t_of_Z (ieee M) 0) = v_zero (ieee M)) by reflexivity. pose proof (run_calls_clean (ieee M) _ _ _ (biquad_call_clean (ieee M) size Z0 rate) ls _ _ _ E) as C.
  eapply Forall_impl; [|exact C]. intros o Ho. eapply Forall_impl; [|exact Ho]. intros c Hc. eapply Forall_impl; [|exact Hc]. intros v Hv. split; [eapply clean_ieee; exact Hv|eapply clean_tidy; exact Hv].
Qed.
Print Assumptions C30_biquad.
Theorem C30_iir : forall M size feedforward feedback cs start ls, iir_new (ieee M) feedforward feedback = Ok (cs, start) -> Forall (call_ok (sops_of (ieee M)) size) ls ->
  exists states outs, run_calls (iir_call (ieee M) size cs) start ls = Ok (states, outs) /\ length outs = length ls /\
    Forall (fun o => Forall (fun c => Forall (fun v : f32 => is_nan v = false /\ exists y : f64, v = f32_of_f64 y /\ tidy y) (c_val c)) o) outs.
Proof.
  intros M size ff fb cs start ls N Hok. assert (Hc : (0 < length cs <= MAX_IIR_COEFFS_LEN)%nat /\ start = [iir_start (ieee M); iir_start (ieee M)]).
  { unfold iir_new, check_feedforward, check_feedback, check in N. destruct (negb (length ff =? 0)%nat && (length ff <=? MAX_IIR_COEFFS_LEN)%nat) eqn:Q1; cbn [bind] in N; [|discriminate N]. destruct (negb (forallb _ ff)); cbn [bind] in N; [|discriminate N].
    destruct (negb (length fb =? 0)%nat && (length fb <=? MAX_IIR_COEFFS_LEN)%nat) eqn:Q2; cbn [bind] in N; [|discriminate N]. destruct (index fb 0) as [a0| |]; cbn [bind] in N; try discriminate N. destruct (negb (t_eq _ a0 _)); cbn [bind] in N; [|discriminate N].
    injection N as <- <-. split; [|reflexivity]. rewrite map_length, combine_length. unfold pad. rewrite !app_length, !repeat_length.
    apply andb_prop in Q1, Q2. rewrite negb_true_iff, Nat.eqb_neq, Nat.leb_le in Q1, Q2. lia. }
  destruct Hc as [Hc ->]. destruct (iir_runs (ieee M) size eq_refl cs ls Hc Hok) as (states & outs & E & L). exists states, outs. split; [exact E|]. split; [exact L|].
  assert (Z0 : v_of_t (ieee M) (t_of_Z (ieee M) 0) = v_zero (ieee M)) by reflexivity. pose proof (run_calls_clean (ieee M) _ _ _ (iir_call_clean (ieee M) size Z0 cs) ls _ _ _ E) as C.
  eapply Forall_impl; [|exact C]. intros o Ho. eapply Forall_impl; [|exact Ho]. intros c Hc'. eapply Forall_impl; [|exact Hc']. intros v Hv. split; [eapply clean_ieee; exact Hv|eapply clean_tidy; exact Hv].
Qed.
Print Assumptions C30_iir.

(** ** C46 *)
Lemma constant_solves : forall size rate ls states outs c g, (0 < size)%nat -> Forall (call_ok (sops_of exact) size) ls -> Forall (fun l => params_ok (snd (l_settings _ l))) ls -> run_calls (biquad_call exact size rate) [] ls = Ok (states, outs) ->
  let h := channel_history 0 size c (settings 0 size) empty_history ls outs in Forall (eq g) (h_env h) -> let k := coefs_of exact rate g in
  solves (k_b0 k) (k_b1 k) (k_b2 k) (k_a1 k) (k_a2 k) (h_in h) (h_out h).
Proof.
  intros size rate ls states outs c g Hs Hok Hp E h Hg. destruct (exact_runs size rate ls states outs c Hs Hok Hp E) as (L1 & L2 & Q). fold h in L1, L2, Q. split; [lia|]. intros t Ht. destruct (nth_error (h_env h) t) as [g'|] eqn:Qg; [|apply nth_error_None in Qg; lia].
  rewrite Forall_forall in Hg. rewrite <- (Hg g') in Qg by (eapply nth_error_In; exact Qg). exact (Q t g Qg).
Qed.
(** Constant settings: the output is at most a constant times the largest input, however long the filter runs; and when the
    input has stopped the output decays exponentially. *)
Theorem C46_bounded : forall rate type_ frequency detune gain q, let f0 := cents frequency detune in 0 < f0 < rate / 2 -> (needs_q type_ = true -> 0 < q) ->
  exists K, 0 <= K /\ forall size ls states outs c M, (0 < size)%nat -> Forall (call_ok (sops_of exact) size) ls -> Forall (fun l => params_ok (snd (l_settings _ l))) ls -> run_calls (biquad_call exact size rate) [] ls = Ok (states, outs) ->
    let h := channel_history 0 size c (settings 0 size) empty_history ls outs in Forall (eq (mk_setting type_ frequency detune gain q)) (h_env h) ->
    (forall t, Rabs (nth t (h_in h) 0) <= M) -> forall t, Rabs (nth t (h_out h) 0) <= K * M.
Proof.
  intros rate type_ f d gain q f0 Hf Hq. destruct (coefs_stable type_ rate f0 gain q Hf Hq) as [S1 S2]. set (k := calculate_coefs exact type_ rate f0 gain q) in *. destruct (bounded (k_b0 k) (k_b1 k) (k_b2 k) (k_a1 k) (k_a2 k) S1 S2) as (K & HK & B). exists K. split; [exact HK|].
  intros size ls states outs c M Hs Hok Hp E h Hg HM. pose proof (constant_solves size rate ls states outs c _ Hs Hok Hp E Hg) as So. rewrite of_setting in So. exact (B _ _ M So HM).
Qed.
Print Assumptions C46_bounded.
Theorem C46_decay : forall rate type_ frequency detune gain q, let f0 := cents frequency detune in 0 < f0 < rate / 2 -> (needs_q type_ = true -> 0 < q) ->
  exists K r, 0 <= K /\ 0 <= r < 1 /\ forall size ls states outs c M n, (0 < size)%nat -> Forall (call_ok (sops_of exact) size) ls -> Forall (fun l => params_ok (snd (l_settings _ l))) ls -> run_calls (biquad_call exact size rate) [] ls = Ok (states, outs) ->
    let h := channel_history 0 size c (settings 0 size) empty_history ls outs in Forall (eq (mk_setting type_ frequency detune gain q)) (h_env h) ->
    (forall t, Rabs (nth t (h_in h) 0) <= M) -> (forall t, (n <= t)%nat -> nth t (h_in h) 0 = 0) -> forall t, (n <= t)%nat -> Rabs (nth t (h_out h) 0) <= K * M * r ^ (t - n).
Proof.
  intros rate type_ f d gain q f0 Hf Hq. destruct (coefs_stable type_ rate f0 gain q Hf Hq) as [S1 S2]. set (k := calculate_coefs exact type_ rate f0 gain q) in *. destruct (stops (k_b0 k) (k_b1 k) (k_b2 k) (k_a1 k) (k_a2 k) S1 S2) as (K & r & HK & Hr & B). exists K, r. split; [exact HK|]. split; [exact Hr|].
  intros size ls states outs c M n Hs Hok Hp E h Hg HM Hz. pose proof (constant_solves size rate ls states outs c _ Hs Hok Hp E Hg) as So. rewrite of_setting in So. exact (B _ _ M n So HM Hz).
Qed.
Print Assumptions C46_decay.

(** A lowpass filter whose frequency goes to 0: one sample of input is enough for an output that grows for ever. *)
Theorem C46_lowpass_zero_refuted : forall rate size bound, 0 < rate -> (0 < size)%nat ->
  exists ls states outs t, Forall (call_ok (sops_of exact) size) ls /\ Forall (fun l => params_ok (snd (l_settings _ l))) ls /\
    Forall (fun l => fst (l_settings _ l) = Lowpass /\ Forall (fun f => 0 <= f < rate / 2) (q_frequency (snd (l_settings _ l)))) ls /\
    run_calls (biquad_call exact size rate) [] ls = Ok (states, outs) /\
    let h := channel_history 0 size 0 (settings 0 size) empty_history ls outs in h_in h = 1 :: repeat 0 (length (h_in h) - 1) /\ bound < nth t (h_out h) 0.
Proof.
  intros rate size bound Hr Hs. destruct (ramp rate Hr size Hs) as (b & Hb & R0). pose proof (archimed (bound / b)) as [Ar _]. set (n := Z.to_nat (up (bound / b))). destruct (R0 n) as (states & outs & E & L & Q). exists (hit rate size :: repeat (hush size) n), states, outs, n.
  assert (Ok_ : Forall (call_ok (sops_of exact) size) (hit rate size :: repeat (hush size) n)).
  { constructor.
    - split; [|discriminate]. split; [cbn; lia|]. split; [constructor; [cbn [c_val length]; rewrite repeat_length; lia|constructor]|]. constructor; [discriminate|constructor].
    - rewrite Forall_forall. intros l Hl. apply repeat_spec in Hl. subst l. split; [|discriminate]. split; [cbn; lia|]. split; (constructor; [|constructor]); [cbn [c_val]; apply repeat_length|reflexivity]. }
  assert (Fi : Forall (fun l => params_ok (snd (l_settings _ l))) (hit rate size :: repeat (hush size) n)).
  { constructor; [repeat split; discriminate|]. rewrite Forall_forall. intros l Hl. apply repeat_spec in Hl. subst l. repeat split; discriminate. }
  split; [exact Ok_|]. split; [exact Fi|]. split.
  { constructor.
    - split; [reflexivity|]. cbn [hit l_settings snd q_frequency]. constructor; [lra|]. rewrite Forall_forall. intros f Hf. apply repeat_spec in Hf. subst f. lra.
    - rewrite Forall_forall. intros l Hl. apply repeat_spec in Hl. subst l. split; [reflexivity|]. cbn [hush l_settings snd q_frequency]. constructor; [lra|constructor]. }
  split; [exact E|]. cbv zeta. split.
  - pose proof (calls_length _ _ _ _ _ _ _ _ E) as Lo. destruct outs as [|o outs]; [discriminate Lo|]. cbn [channel_history]. cbn [length] in Lo. rewrite repeat_length in Lo. destruct (hush_history size Hs n (extend 0 size 0 empty_history (settings 0 size (l_settings _ (hit rate size))) (l_input _ (hit rate size)) o) outs ltac:(lia)) as [I1 _]. rewrite I1.
    change (h_in (extend 0 size 0 empty_history (settings 0 size (l_settings _ (hit rate size))) (l_input _ (hit rate size)) o)) with (1 :: repeat 0 (size - 1)). cbn [app]. rewrite <- repeat_app. cbn [length]. rewrite repeat_length. f_equal. f_equal. lia.
  - rewrite Q by (destruct size; [lia|cbn; nia]). assert (bound / b < INR n + 1).
    { destruct (Z_le_gt_dec 0 (up (bound / b))) as [G|G]; unfold n.
      - rewrite INR_IZR_INZ, Z2Nat.id by exact G. lra.
      - pose proof (pos_INR (Z.to_nat (up (bound / b)))). assert (IZR (up (bound / b)) < 0) by (apply IZR_lt; lia). lra. }
    apply Rmult_lt_compat_l with (r := b) in H; [|exact Hb]. replace (b * (bound / b)) with bound in H by (field; lra). exact H.
Qed.
Print Assumptions C46_lowpass_zero_refuted.

(** ** C47 *)
(** A sine of any frequency comes out, after a transient that decays exponentially, with the magnitude and the phase
    getFrequencyResponse reports for it. *)
Theorem C47_steady : forall rate type_ frequency detune gain q hz, let f0 := cents frequency detune in 0 < f0 < rate / 2 -> (needs_q type_ = true -> 0 < q) -> 0 <= hz <= rate / 2 ->
  exists magnitude phase K r, biquad_response exact type_ rate frequency detune gain q hz = Some (magnitude, phase) /\ 0 <= magnitude /\ 0 <= K /\ 0 <= r < 1 /\
    forall size ls states outs c, (0 < size)%nat -> Forall (call_ok (sops_of exact) size) ls -> Forall (fun l => params_ok (snd (l_settings _ l))) ls -> run_calls (biquad_call exact size rate) [] ls = Ok (states, outs) ->
      let h := channel_history 0 size c (settings 0 size) empty_history ls outs in Forall (eq (mk_setting type_ frequency detune gain q)) (h_env h) ->
      (forall t, (t < length (h_in h))%nat -> nth t (h_in h) 0 = cos (2 * PI * hz / rate * INR t)) ->
      forall t, (t < length (h_in h))%nat -> Rabs (nth t (h_out h) 0 - magnitude * cos (2 * PI * hz / rate * INR t + phase)) <= K * r ^ t.
Proof.
  intros rate type_ f d gain q hz f0 Hf Hq Hz. destruct (coefs_stable type_ rate f0 gain q Hf Hq) as [S1 S2]. rewrite response_eq by lra. rewrite computed_freq_cents. fold f0. set (k := calculate_coefs exact type_ rate f0 gain q) in *. set (w := 2 * PI * hz / rate).
  destruct (steady (k_b0 k) (k_b1 k) (k_b2 k) (k_a1 k) (k_a2 k) S1 S2 w) as (K & r & HK & Hr & B). do 2 eexists. exists K, r. split; [reflexivity|]. split; [apply hypot_pos|]. split; [exact HK|]. split; [exact Hr|].
  intros size ls states outs c Hs Hok Hp E h Hg Hx t Ht. pose proof (constant_solves size rate ls states outs c _ Hs Hok Hp E Hg) as So. rewrite of_setting in So. rewrite <- wave_polar. exact (B _ _ So Hx t Ht).
Qed.
Print Assumptions C47_steady.

(** The same for an IIR filter that is stable (without input, it falls silent at an exponential rate). *)
Theorem C47_iir : forall feedforward feedback rate hz, (0 < length feedforward <= 20)%nat -> (0 < length feedback <= 20)%nat -> Exists (fun b => b <> 0) feedforward -> nth 0 feedback 0 <> 0 ->
  stable feedback -> 0 < rate -> 0 <= hz <= rate / 2 ->
  exists magnitude phase K r, iir_response exact feedforward feedback rate hz = Some (magnitude, phase) /\ 0 <= magnitude /\ 0 <= K /\ 0 < r < 1 /\
    forall size cs start ls, iir_new exact feedforward feedback = Ok (cs, start) -> Forall (call_ok (sops_of exact) size) ls ->
      exists states outs, run_calls (iir_call exact size cs) start ls = Ok (states, outs) /\ length outs = length ls /\
        forall c, let h := channel_history 0 size c (fun _ => repeat tt size) empty_history ls outs in
          (forall t, (t < length (h_in h))%nat -> nth t (h_in h) 0 = cos (2 * PI * hz / rate * INR t)) ->
          forall t, (t < length (h_in h))%nat -> Rabs (nth t (h_out h) 0 - magnitude * cos (2 * PI * hz / rate * INR t + phase)) <= K * r ^ t.
Proof.
  intros ff fb rate hz H1 H2 H3 H4 St Hr Hz. set (w := 2 * PI * hz / rate). assert (Nf : ff <> []) by (intros ->; cbn in H1; lia). assert (Nb : fb <> []) by (intros ->; cbn in H2; lia).
  destruct (iir_steady ff fb Nb H4 St w) as (K & r & HK & Hr' & B). rewrite (iir_response_eq ff fb w rate hz Hr Hz eq_refl). do 2 eexists. exists K, r. split; [reflexivity|]. split; [apply hypot_pos|]. split; [exact HK|]. split; [exact Hr'|].
  intros size cs start ls En Hok. destruct (C29_iir size ff fb H1 H2 H3 H4) as (cs' & start' & E & Q). rewrite En in E. injection E as <- <-. destruct (Q ls Hok) as (states & outs & E & L & D). exists states, outs. split; [exact E|]. split; [exact L|].
  intros c h Hx t Ht. rewrite <- swing_polar. apply (B (h_in h) (h_out h)); [exact (D c)|exact Hx|exact Ht].
Qed.
Print Assumptions C47_iir.
(** A filter whose first feedback coefficient outweighs the others is stable; there are no other conditions when
    there is no feedback. *)
Theorem C47_iir_stable : forall a0 others, weight others < Rabs a0 -> stable (a0 :: others).
Proof. exact dominant_stable. Qed.
Print Assumptions C47_iir_stable.
Example C47_iir_example : stable [1; - (1 / 2); 1 / 4] /\ (0 < length [1; 2] <= 20)%nat /\ Exists (fun b => b <> 0) [1; 2] /\ nth 0 [1; - (1 / 2); 1 / 4] 0 <> 0.
Proof. split; [|split; [cbn; lia|split; [left; lra|cbn; lra]]]. apply dominant_stable. unfold weight. cbn [fold_right]. rewrite Rabs_Ropp, !Rabs_pos_eq by lra. lra. Qed.
(** An oscillating filter is not stable. *)
Example C47_iir_not_stable : ~ stable [1; 1].
Proof.
  intros (K & r & HK & Hr & F). destruct (pow_lt_1_zero r ltac:(rewrite Rabs_pos_eq; lra) (/ (K + 1)) ltac:(apply Rinv_0_lt_compat; lra)) as (n & Hn). specialize (Hn n (le_n _)). rewrite Rabs_pos_eq in Hn by (apply pow_le; lra).
  assert (X := F (fun t => (-1) ^ t) (S n) 1 ltac:(lra)). cbn [length dot] in X. assert (D : Rabs ((-1) ^ n) <= K * 1 * r ^ n).
  { apply X; [| |lia].
    - intros t Ht. destruct t as [|t]; [lia|]. replace (S t - 1)%nat with t by lia. cbn [pow]. ring.
    - intros t Ht. assert (t = 0)%nat by lia. subst t. cbn [pow]. rewrite Rabs_R1. lra. }
  rewrite pow_1_abs in D. rewrite Rmult_1_r in D. assert (0 <= r ^ n) by (apply pow_le; lra). assert (r ^ n * (K + 1) < 1). { apply Rlt_le_trans with (/ (K + 1) * (K + 1)); [apply Rmult_lt_compat_r; lra|right; apply Rinv_l; lra]. } nra.
Qed.

(** What each type of filter is for. *)
Theorem C47_nominal : forall type_ rate frequency detune gain q hz m, let f0 := cents frequency detune in 0 < f0 < rate / 2 -> (needs_q type_ = true -> 0 < q) -> In (hz, m) (nominal type_ rate f0 gain q) ->
  exists phase, biquad_response exact type_ rate frequency detune gain q hz = Some (m, phase).
Proof. exact response_nominal. Qed.
Print Assumptions C47_nominal.
Theorem C47_allpass : forall rate frequency detune gain q hz, let f0 := cents frequency detune in 0 < f0 < rate / 2 -> 0 < q -> 0 <= hz <= rate / 2 ->
  exists phase, biquad_response exact Allpass rate frequency detune gain q hz = Some (1, phase).
Proof. exact response_allpass. Qed.
Print Assumptions C47_allpass.

(** ** Cases *)
Definition one_shot : list (call (V := R) (filter_type * biquad_params (V := R))) :=
  [mk_call _ (Peaking, mk_biquad_params [1000; 2000] [0] [2] [6]) 7 [mk_chan 1 [1; 0]; mk_chan 2 [0; 1]] [mk_chan 0 []];
   mk_call _ (Highpass, mk_biquad_params [500] [1200] [2] [6]) 7 [mk_chan 0 [0; 0]] [mk_chan 0 []]].
Example one_shot_ok : Forall (call_ok (sops_of exact) 2) one_shot /\ Forall (fun l => params_ok (snd (l_settings _ l))) one_shot.
Proof.
  split; (constructor; [|constructor; [|constructor]]); try (repeat split; discriminate).
  - split; [|discriminate]. split; [cbn; lia|]. split; [repeat constructor|]. constructor; [discriminate|]. constructor; [discriminate|constructor].
  - split; [|discriminate]. split; [cbn; lia|]. split; [repeat constructor|]. constructor; [reflexivity|constructor].
Qed.
Example one_shot_settings : forall o1 o2, h_env (channel_history 0 2 1 (settings 0 2) empty_history one_shot [o1; o2]) = [mk_setting Peaking 1000 0 6 2; mk_setting Peaking 2000 0 6 2; mk_setting Highpass 500 1200 6 2; mk_setting Highpass 500 1200 6 2].
Proof. reflexivity. Qed.
Example interior : 0 < cents 1000 0 < 44100 / 2 /\ 0 < cents 500 1200 < 44100 / 2.
Proof. rewrite cents_zero. unfold cents. replace (1200 / 1200) with 1 by field. rewrite Rpower_1 by lra. lra. Qed.

(** a one pole filter, in floating point, on an impulse, an infinity and a NaN *)
Definition iir_case : res (list (list bool)) :=
  do (cs, st) <- iir_new (ieee libm_one) [f64_lit 1 0] [f64_lit 1 0; f64_lit (-1) (-1)];
  do (_, outs) <- run_calls (iir_call (ieee libm_one) 4 cs) st [mk_call _ tt 7 [mk_chan 1 [one32; f32_lit 0 0; B754_infinity false; B754_nan]] [mk_chan 0 []]];
  Ok (map (fun o => concat (map (fun c => map (fun v : f32 => is_finite v) (c_val c)) o)) outs).
Example iir_case_finite : iir_case = Ok [[true; true; true; true]].
Proof. vm_compute. reflexivity. Qed.
(** its coefficients are finite, and so are those of C29_iir_ieee *)
Example iir_case_coefs : match iir_new (ieee libm_one) [f64_lit 1 0] [f64_lit 1 0; f64_lit (-1) (-1)] with Ok (cs, _) => forallb (fun p : f64 * f64 => is_finite (fst p) && is_finite (snd p)) cs && (length cs =? 2)%nat | _ => false end = true.
Proof. vm_compute. reflexivity. Qed.
(** a gain of 2^200 overflows when the result is narrowed *)
Definition iir_big : res (list (list bool)) :=
  do (cs, st) <- iir_new (ieee libm_one) [f64_lit 1 200] [f64_lit 1 0];
  do (_, outs) <- run_calls (iir_call (ieee libm_one) 1 cs) st [mk_call _ tt 7 [mk_chan 1 [one32]] [mk_chan 0 []]];
  Ok (map (fun o => concat (map (fun c => map (fun v : f32 => is_finite v) (c_val c)) o)) outs).
Theorem C30_overflow : iir_big = Ok [[false]].
Proof. vm_compute. reflexivity. Qed.
Print Assumptions C30_overflow.
