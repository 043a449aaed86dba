(** Second order recurrences: stability, decay and steady state. *)
From Coq Require Import List Arith Bool ZArith Lia Reals Lra Psatz.
Local Open Scope R_scope.

Lemma sq_pos : forall x, 0 <= x * x. Proof. exact Rle_0_sqr. Qed.

Section Stable.
Variables a1 a2 : R.
Hypothesis H2 : Rabs a2 < 1.
Hypothesis H1 : Rabs a1 < 1 + a2.
Definition rho : R := a1 / (1 + a2).
(** a measure of the energy in two consecutive outputs, the newest first *)
Definition energy (y1 y0 : R) : R := (y0 + rho * y1) * (y0 + rho * y1) + (1 - rho * rho) * (y1 * y1).
Definition norm (y1 y0 : R) : R := sqrt (energy y1 y0).
Definition rate : R := 1 - (1 - a2 * a2) * (1 - rho * rho) / 3.

Lemma a2_range : -1 < a2 < 1. Proof using H2. apply Rabs_def2 in H2. lra. Qed.
Lemma rho_eq : a1 = rho * (1 + a2). Proof using H2. pose proof a2_range. unfold rho. field. lra. Qed.
Lemma rho_range : -1 < rho < 1.
Proof using H1 H2.
  pose proof a2_range as [L U]. apply Rabs_def2 in H1. destruct H1 as [A B]. unfold rho. split.
  - apply Rmult_lt_reg_r with (1 + a2); [lra|]. unfold Rdiv. rewrite Rmult_assoc, Rinv_l by lra. lra.
  - apply Rmult_lt_reg_r with (1 + a2); [lra|]. unfold Rdiv. rewrite Rmult_assoc, Rinv_l by lra. lra.
Qed.
Lemma rho2_range : 0 < 1 - rho * rho <= 1. Proof using H1 H2. pose proof rho_range. nra. Qed.
Lemma a22_range : 0 < 1 - a2 * a2 <= 1. Proof using H2. pose proof a2_range. nra. Qed.
Lemma rate_range : 0 < rate < 1. Proof using H1 H2. pose proof rho2_range. pose proof a22_range. unfold rate. nra. Qed.
Lemma energy_pos : forall y1 y0, 0 <= energy y1 y0.
Proof using H1 H2. intros y1 y0. unfold energy. pose proof rho2_range. apply Rplus_le_le_0_compat; [apply sq_pos|]. apply Rmult_le_pos; [lra|apply sq_pos]. Qed.
Lemma energy_sym : forall y1 y0, energy y1 y0 = energy y0 y1. Proof using Type. intros. unfold energy. ring. Qed.
Lemma energy_last : forall y1 y0, (1 - rho * rho) * (y1 * y1) <= energy y1 y0.
Proof using Type. intros. unfold energy. pose proof (sq_pos (y0 + rho * y1)). lra. Qed.
Definition next (y1 y0 : R) : R := - a1 * y1 - a2 * y0.
Lemma energy_next : forall y1 y0, energy (next y1 y0) y1 = energy y1 y0 - (1 - a2 * a2) * ((y0 + rho * y1) * (y0 + rho * y1)).
Proof using H2. intros. unfold next. rewrite rho_eq. unfold energy. ring. Qed.
Lemma energy_next_le : forall y1 y0, energy (next y1 y0) y1 <= energy y1 y0.
Proof using H2. intros. rewrite energy_next. pose proof a22_range. assert (0 <= (y0 + rho * y1) * (y0 + rho * y1)) by apply sq_pos. nra. Qed.
Lemma energy_two : forall y1 y0, energy (next (next y1 y0) y1) (next y1 y0) <= rate * energy y1 y0.
Proof using H1 H2.
  intros. rewrite (energy_next (next y1 y0) y1), (energy_next y1 y0).
  set (u := y0 + rho * y1). set (w := y1 + rho * next y1 y0).
  pose proof rho2_range as [P P']. pose proof a22_range as [Q Q']. pose proof a2_range. pose proof rho_range.
  assert (E : (1 - rho * rho) * energy y1 y0 <= 3 * (u * u + w * w)).
  { assert (W : (1 - rho * rho) * y1 = w + rho * a2 * u) by (unfold w, u, next; rewrite rho_eq; ring).
    assert (F : (1 - rho * rho) * energy y1 y0 = (1 - rho * rho) * (u * u) + ((1 - rho * rho) * y1) * ((1 - rho * rho) * y1)) by (unfold energy; fold u; ring). rewrite F, W.
    assert (G : (rho * a2) * (rho * a2) <= 1) by (assert (rho * rho <= 1) by nra; assert (a2 * a2 <= 1) by nra; replace (rho * a2 * (rho * a2)) with (rho * rho * (a2 * a2)) by ring; nra).
    assert (0 <= u * u) by apply sq_pos. assert (0 <= (w - rho * a2 * u) * (w - rho * a2 * u)) by apply sq_pos. assert ((rho * a2 * u) * (rho * a2 * u) <= u * u) by (replace (rho * a2 * u * (rho * a2 * u)) with ((rho * a2) * (rho * a2) * (u * u)) by ring; nra). nra. }
  unfold rate. assert (0 <= u * u) by apply sq_pos. assert (0 <= w * w) by apply sq_pos.
  assert ((1 - a2 * a2) * ((1 - rho * rho) * energy y1 y0) <= (1 - a2 * a2) * (3 * (u * u + w * w))) by (apply Rmult_le_compat_l; lra).
  replace ((1 - (1 - a2 * a2) * (1 - rho * rho) / 3) * energy y1 y0) with (energy y1 y0 - (1 - a2 * a2) * ((1 - rho * rho) * energy y1 y0) / 3) by field. lra.
Qed.

(** ** Free response *)
Lemma decay : forall n (y : nat -> R), (forall t, (S t < n)%nat -> y (S (S t)) = next (y (S t)) (y t)) ->
  forall t, (t < n)%nat -> energy (y (S t)) (y t) <= rate ^ (Nat.div2 t) * energy (y 1%nat) (y 0%nat).
Proof using H1 H2.
  intros n y Hy. assert (G : forall t, (t < n)%nat -> energy (y (S t)) (y t) <= rate ^ (Nat.div2 t) * energy (y 1%nat) (y 0%nat) /\ ((S t < n)%nat -> energy (y (S (S t))) (y (S t)) <= rate ^ (Nat.div2 (S t)) * energy (y 1%nat) (y 0%nat))); [|intros t Ht; apply G; exact Ht].
  induction t as [|t IH]; intros Ht.
  - split; [cbn; lra|]. intros H. cbn [Nat.div2]. rewrite Hy by exact H. pose proof (energy_next_le (y 1%nat) (y 0%nat)). cbn. lra.
  - destruct (IH ltac:(lia)) as [I1 I2]. split; [apply I2; exact Ht|]. intros H. cbn [Nat.div2 pow]. rewrite (Hy (S t)) by exact H. rewrite (Hy t) by lia.
    eapply Rle_trans; [apply energy_two|]. rewrite Rmult_assoc. apply Rmult_le_compat_l; [pose proof rate_range; lra|exact I1].
Qed.
Lemma decay_abs : exists K, 0 <= K /\ forall n (y : nat -> R), (forall t, (S t < n)%nat -> y (S (S t)) = next (y (S t)) (y t)) ->
  forall t, (t <= n)%nat -> y t * y t <= K * rate ^ (Nat.div2 t) * (y 0%nat * y 0%nat + y 1%nat * y 1%nat).
Proof using H1 H2.
  pose proof rho2_range as [P P']. pose proof rate_range as [R0 R1]. pose proof rho_range. exists (2 / ((1 - rho * rho) * rate)). assert (K0 : 0 < (1 - rho * rho) * rate) by nra. assert (P2 : 0 < 2 / ((1 - rho * rho) * rate)) by (apply Rdiv_lt_0_compat; lra). split; [lra|].
  intros n y Hy.
  assert (E0 : energy (y 1%nat) (y 0%nat) <= 2 * (y 0%nat * y 0%nat + y 1%nat * y 1%nat)).
  { unfold energy. set (a := y 0%nat). set (b := y 1%nat). replace ((a + rho * b) * (a + rho * b) + (1 - rho * rho) * (b * b)) with (a * a + b * b + 2 * rho * (a * b)) by ring. pose proof (sq_pos (a - b)). pose proof (sq_pos (a + b)). assert (0 <= (1 + rho) * ((a - b) * (a - b))) by (apply Rmult_le_pos; lra). assert (0 <= (1 - rho) * ((a + b) * (a + b))) by (apply Rmult_le_pos; lra). pose proof (sq_pos a). pose proof (sq_pos b). lra. }
  set (S0 := y 0%nat * y 0%nat + y 1%nat * y 1%nat) in *. assert (S0p : 0 <= S0) by (unfold S0; pose proof (sq_pos (y 0%nat)); pose proof (sq_pos (y 1%nat)); lra).
  assert (D : forall t, 0 <= rate ^ Nat.div2 t) by (intros; apply pow_le; lra).
  intros [|t] Ht.
  - cbn [Nat.div2 pow]. rewrite Rmult_1_r. apply Rle_trans with (1 * S0); [unfold S0; nra|]. apply Rmult_le_compat_r; [exact S0p|]. apply Rmult_le_reg_r with ((1 - rho * rho) * rate); [exact K0|]. unfold Rdiv. rewrite Rmult_assoc, Rinv_l by lra. nra.
  - pose proof (decay n y Hy t ltac:(lia)) as E. pose proof (energy_last (y (S t)) (y t)) as F.
    assert (X : rate * rate ^ Nat.div2 t <= rate ^ Nat.div2 (S t)).
    { assert (Q : (Nat.div2 (S t) = Nat.div2 t \/ Nat.div2 (S t) = S (Nat.div2 t))%nat). { rewrite !Nat.div2_div. destruct (Nat.Even_or_Odd t) as [[k ->]|[k ->]]; [left|right].
        - replace (S (2 * k)) with (2 * k + 1)%nat by lia. rewrite (Nat.mul_comm 2 k), Nat.div_add_l, Nat.div_mul by lia. cbn. lia.
        - replace (S (2 * k + 1)) with ((k + 1) * 2)%nat by lia. rewrite (Nat.mul_comm 2 k), Nat.div_add_l, Nat.div_mul by lia. cbn. lia. }
      destruct Q as [-> | ->]; [|cbn [pow]; lra]. pose proof (D t). nra. }
    replace (2 / ((1 - rho * rho) * rate) * rate ^ Nat.div2 (S t) * S0) with (/ (1 - rho * rho) * (/ rate * rate ^ Nat.div2 (S t) * (2 * S0))) by (field; lra).
    apply Rmult_le_reg_l with (1 - rho * rho); [lra|]. rewrite <- (Rmult_assoc _ (/ (1 - rho * rho))), Rinv_r, Rmult_1_l by lra. eapply Rle_trans; [exact F|]. eapply Rle_trans; [exact E|].
    apply Rle_trans with (rate ^ Nat.div2 t * (2 * S0)); [apply Rmult_le_compat_l; [apply D|exact E0]|]. apply Rmult_le_compat_r; [lra|].
    apply Rmult_le_reg_l with rate; [lra|]. rewrite <- (Rmult_assoc _ (/ rate)), Rinv_r, Rmult_1_l by lra. exact X.
Qed.

(** ** Forced response *)
Lemma norm_pos : forall y1 y0, 0 <= norm y1 y0. Proof using Type. intros. apply sqrt_pos. Qed.
Lemma norm_sq : forall y1 y0, norm y1 y0 * norm y1 y0 = energy y1 y0. Proof using H1 H2. intros. apply sqrt_sqrt. apply energy_pos. Qed.
Lemma norm_add : forall y1 y0 d, norm (y1 + d) y0 <= norm y1 y0 + Rabs d.
Proof using H1 H2.
  intros. pose proof (norm_pos y1 y0) as P. pose proof (norm_sq y1 y0) as Q. pose proof (Rabs_pos d) as P'. apply Rsqr_incr_0_var; [|lra]. unfold Rsqr. rewrite norm_sq.
  assert (Q' : Rabs d * Rabs d = d * d) by (rewrite <- Rabs_mult; apply Rabs_pos_eq, sq_pos).
  assert (E : energy (y1 + d) y0 = energy y1 y0 + 2 * (d * (y1 + rho * y0)) + d * d) by (unfold energy; ring).
  assert (F : (y1 + rho * y0) * (y1 + rho * y0) <= norm y1 y0 * norm y1 y0) by (rewrite Q; pose proof rho2_range; rewrite energy_sym; unfold energy; pose proof (Rmult_le_pos (1 - rho * rho) (y0 * y0) ltac:(lra) (sq_pos y0)); lra).
  assert (G : Rabs (y1 + rho * y0) <= norm y1 y0) by (apply Rsqr_incr_0_var; [|exact P]; unfold Rsqr; rewrite <- Rabs_mult, Rabs_pos_eq by apply sq_pos; exact F).
  assert (I : d * (y1 + rho * y0) <= Rabs d * norm y1 y0). { eapply Rle_trans; [apply Rle_abs|]. rewrite Rabs_mult. apply Rmult_le_compat_l; assumption. }
  rewrite E, <- Q. nra.
Qed.
Lemma norm_next : forall y1 y0, norm (next y1 y0) y1 <= norm y1 y0.
Proof using H2. intros. apply sqrt_le_1_alt. apply energy_next_le. Qed.
Definition q : R := sqrt rate.
Lemma q_range : 0 < q < 1.
Proof using H1 H2. pose proof rate_range. unfold q. split; [apply sqrt_lt_R0; lra|]. rewrite <- sqrt_1. apply sqrt_lt_1_alt. lra. Qed.
Lemma norm_two : forall y1 y0, norm (next (next y1 y0) y1) (next y1 y0) <= q * norm y1 y0.
Proof using H1 H2. intros. unfold norm, q. rewrite <- sqrt_mult_alt by (pose proof rate_range; lra). apply sqrt_le_1_alt. apply energy_two. Qed.
(** a disturbance of the older value *)
Lemma norm_free_add : forall y1 y0 d, norm (next (y1 + d) y0) (y1 + d) <= norm (next y1 y0) y1 + Rabs d.
Proof using H1 H2.
  intros. pose proof (norm_pos (next y1 y0) y1) as P. pose proof (Rabs_pos d) as P'. apply Rsqr_incr_0_var; [|lra]. unfold Rsqr. rewrite norm_sq.
  assert (Q' : Rabs d * Rabs d = d * d) by (rewrite <- Rabs_mult; apply Rabs_pos_eq, sq_pos). pose proof (norm_sq (next y1 y0) y1) as Q. set (N := norm (next y1 y0) y1) in *.
  pose proof a2_range. pose proof rho2_range as [R0 R1]. set (u := y0 + rho * y1). rewrite energy_next in Q. fold u in Q.
  assert (E : energy (next (y1 + d) y0) (y1 + d) = N * N + 2 * (d * (a2 * a2 * rho * u + (1 - rho * rho) * y1)) + (a2 * a2 * (rho * rho) + (1 - rho * rho)) * (d * d)).
  { rewrite energy_next, Q. unfold energy, u. ring. }
  set (v := a2 * a2 * rho * u + (1 - rho * rho) * y1) in *.
  assert (A1 : 0 <= a2 * a2 <= 1) by nra. assert (A2 : 0 <= rho * rho <= 1) by nra.
  (* Cauchy-Schwarz *)
  assert (F : v * v <= N * N).
  { rewrite Q. unfold energy. fold u. set (k := a2 * a2) in *. set (m := rho * rho) in *.
    assert (X : v * v = k * m * (k * (u * u)) + (1 - m) * ((1 - m) * (y1 * y1)) + 2 * (k * rho * u * ((1 - m) * y1))) by (unfold v, m, k; ring).
    assert (Y : 0 <= k * (1 - m) * ((u - rho * y1) * (u - rho * y1))) by (apply Rmult_le_pos; [apply Rmult_le_pos; lra|apply sq_pos]).
    replace (k * (1 - m) * ((u - rho * y1) * (u - rho * y1))) with (k * (1 - m) * (u * u) + k * (1 - m) * (m * (y1 * y1)) - 2 * (k * rho * u * ((1 - m) * y1))) in Y by (unfold m; ring).
    rewrite X. assert (0 <= u * u) by apply sq_pos. assert (0 <= y1 * y1) by apply sq_pos. assert (0 <= k * (u * u)) by (apply Rmult_le_pos; lra). assert (0 <= (1 - m) * (y1 * y1)) by (apply Rmult_le_pos; lra).
    assert (k * m * (k * (u * u)) <= m * (k * (u * u))) by (apply Rmult_le_compat_r; [lra|]; pose proof (Rmult_le_compat_r m k 1 ltac:(lra) ltac:(lra)); lra). assert (k * (1 - m) * (m * (y1 * y1)) <= m * ((1 - m) * (y1 * y1))) by (replace (k * (1 - m) * (m * (y1 * y1))) with (k * (m * ((1 - m) * (y1 * y1)))) by ring; assert (0 <= m * ((1 - m) * (y1 * y1))) by (apply Rmult_le_pos; lra); nra).
    lra. }
  assert (G : Rabs v <= N) by (apply Rsqr_incr_0_var; [|exact P]; unfold Rsqr; rewrite <- Rabs_mult, Rabs_pos_eq by apply sq_pos; exact F).
  assert (I : d * v <= Rabs d * N). { eapply Rle_trans; [apply Rle_abs|]. rewrite Rabs_mult. apply Rmult_le_compat_l; assumption. }
  assert (J : (a2 * a2 * (rho * rho) + (1 - rho * rho)) * (d * d) <= d * d) by (assert (0 <= d * d) by apply sq_pos; assert (a2 * a2 * (rho * rho) <= rho * rho) by nra; nra).
  rewrite E. nra.
Qed.

Lemma forced : forall n (y d : nat -> R) D, 0 <= D -> (forall t, (S t < n)%nat -> y (S (S t)) + a1 * y (S t) + a2 * y t = d t) -> (forall t, Rabs (d t) <= D) ->
  forall t, (t < n)%nat -> norm (y (S t)) (y t) <= norm (y 1%nat) (y 0%nat) + 2 * D / (1 - q) + D.
Proof using H1 H2.
  intros n y d D HD Hy Hd. pose proof q_range as [Q0 Q1]. set (B := norm (y 1%nat) (y 0%nat) + 2 * D / (1 - q)).
  assert (N0 : 0 <= norm (y 1%nat) (y 0%nat)) by apply norm_pos. assert (Dq : 0 <= 2 * D / (1 - q)) by (unfold Rdiv; apply Rmult_le_pos; [lra|apply Rlt_le, Rinv_0_lt_compat; lra]).
  assert (Bq : q * B + 2 * D <= B). { unfold B. replace (2 * D) with ((1 - q) * (2 * D / (1 - q))) at 2 by (field; lra). nra. }
  assert (St : forall t, (S t < n)%nat -> y (S (S t)) = next (y (S t)) (y t) + d t) by (intros t Ht; rewrite <- (Hy t Ht); unfold next; ring).
  assert (One : forall t, (S t < n)%nat -> norm (y (S (S t))) (y (S t)) <= norm (y (S t)) (y t) + D).
  { intros t Ht. rewrite St by exact Ht. eapply Rle_trans; [apply norm_add|]. pose proof (norm_next (y (S t)) (y t)). pose proof (Hd t). lra. }
  assert (Two : forall t, (S (S t) < n)%nat -> norm (y (S (S (S t)))) (y (S (S t))) <= q * norm (y (S t)) (y t) + 2 * D).
  { intros t Ht. rewrite (St (S t)) by exact Ht. eapply Rle_trans; [apply norm_add|]. pose proof (Hd (S t)) as D1. rewrite (St t) by lia. pose proof (norm_free_add (next (y (S t)) (y t)) (y (S t)) (d t)) as X. pose proof (norm_two (y (S t)) (y t)). pose proof (Hd t). lra. }
  assert (G : forall t, (t < n)%nat -> (norm (y (S t)) (y t) <= B + D) /\ (Nat.Even t -> norm (y (S t)) (y t) <= B)); [|intros t Ht; destruct (G t Ht); unfold B in *; lra].
  intros t. induction t as [t IH] using (well_founded_induction lt_wf). intros Ht. destruct t as [|[|t]].
  - unfold B. split; [|intros _]; lra.
  - split; [|intros [k Hk]; lia]. pose proof (One 0%nat Ht). unfold B. lra.
  - destruct (Nat.Even_or_Odd t) as [Ev|Od].
    + destruct (IH t ltac:(lia) ltac:(lia)) as [_ I]. specialize (I Ev). pose proof (Two t Ht). assert (q * norm (y (S t)) (y t) <= q * B) by (apply Rmult_le_compat_l; lra). split; [|intros _]; lra.
    + split; [|intros [k Hk]; destruct Od as [j Hj]; lia]. destruct (IH (S t) ltac:(lia) ltac:(lia)) as [_ I]. assert (Ev : Nat.Even (S t)) by (destruct Od as [j Hj]; exists (j + 1)%nat; lia). specialize (I Ev). pose proof (One (S t) Ht). lra.
Qed.
Lemma forced_abs : exists K, 0 <= K /\ forall n (y d : nat -> R) D, 0 <= D -> (forall t, (S t < n)%nat -> y (S (S t)) + a1 * y (S t) + a2 * y t = d t) -> (forall t, Rabs (d t) <= D) ->
  forall t, (t <= n)%nat -> Rabs (y t) <= K * (Rabs (y 0%nat) + Rabs (y 1%nat) + D).
Proof using H1 H2.
  pose proof q_range as [Q0 Q1]. pose proof rho2_range as [P P']. set (k := sqrt (1 - rho * rho)). assert (Kp : 0 < k) by (apply sqrt_lt_R0; lra). assert (K2 : k * k = 1 - rho * rho) by (apply sqrt_sqrt; lra). assert (K1 : k <= 1) by (unfold k; pose proof (sqrt_le_1_alt (1 - rho * rho) 1 ltac:(lra)) as X; rewrite sqrt_1 in X; exact X).
  set (c := 1 + 2 / (1 - q)). assert (Cp : 1 < c) by (unfold c; assert (0 < 2 / (1 - q)) by (apply Rdiv_lt_0_compat; lra); lra).
  exists (c / k). assert (Ck : 1 <= c / k) by (apply Rmult_le_reg_r with k; [exact Kp|]; unfold Rdiv; rewrite Rmult_assoc, Rinv_l by lra; lra). split; [lra|].
  intros n y d D HD Hy Hd. pose proof (Rabs_pos (y 0%nat)) as A0. pose proof (Rabs_pos (y 1%nat)) as A1. intros [|t] Ht; [pose proof (Rmult_le_compat_r (Rabs (y 0%nat) + Rabs (y 1%nat) + D) 1 (c / k) ltac:(lra) Ck); lra|].
  pose proof (forced n y d D HD Hy Hd t ltac:(lia)) as F.
  assert (N0 : norm (y 1%nat) (y 0%nat) <= Rabs (y 0%nat) + Rabs (y 1%nat)).
  { pose proof (norm_add 0 (y 0%nat) (y 1%nat)) as X. rewrite Rplus_0_l in X. replace (norm 0 (y 0%nat)) with (Rabs (y 0%nat)) in X; [exact X|]. unfold norm, energy. replace ((y 0%nat + rho * 0) * (y 0%nat + rho * 0) + (1 - rho * rho) * (0 * 0)) with (Rsqr (y 0%nat)) by (unfold Rsqr; ring). symmetry. apply sqrt_Rsqr_abs. }
  assert (L : k * Rabs (y (S t)) <= norm (y (S t)) (y t)).
  { apply Rsqr_incr_0_var; [|apply norm_pos]. unfold Rsqr. rewrite norm_sq. replace (k * Rabs (y (S t)) * (k * Rabs (y (S t)))) with (k * k * (Rabs (y (S t)) * Rabs (y (S t)))) by ring. rewrite K2, <- Rabs_mult, Rabs_pos_eq by apply sq_pos. apply energy_last. }
  apply Rmult_le_reg_l with k; [exact Kp|]. replace (k * (c / k * (Rabs (y 0%nat) + Rabs (y 1%nat) + D))) with (c * (Rabs (y 0%nat) + Rabs (y 1%nat) + D)) by (field; lra).
  eapply Rle_trans; [exact L|]. eapply Rle_trans; [exact F|]. replace (2 * D / (1 - q)) with (2 / (1 - q) * D) by (field; lra). unfold c. assert (C0 : 0 < 2 / (1 - q)) by (apply Rdiv_lt_0_compat; lra). pose proof (Rmult_le_pos _ _ (Rlt_le _ _ C0) A0). pose proof (Rmult_le_pos _ _ (Rlt_le _ _ C0) A1). lra.
Qed.

(** ** No pole on the unit circle *)
Lemma no_pole : forall w, (1 + a1 * cos w + a2 * cos (2 * w)) <> 0 \/ (a1 * sin w + a2 * sin (2 * w)) <> 0.
Proof using H1 H2.
  intros w. pose proof a2_range. destruct (Req_dec (1 + a1 * cos w + a2 * cos (2 * w)) 0) as [E1|]; [|left; assumption]. destruct (Req_dec (a1 * sin w + a2 * sin (2 * w)) 0) as [E2|]; [exfalso|right; assumption].
  rewrite cos_2a in E1. rewrite sin_2a in E2. pose proof (sin2_cos2 w) as SC. unfold Rsqr in SC.
  set (c := cos w) in *. set (s := sin w) in *.
  assert (X : (1 - a2) * s = 0). { replace ((1 - a2) * s) with (s * (1 + a1 * c + a2 * (c * c - s * s)) - c * (a1 * s + a2 * (2 * s * c)) + a2 * s * (s * s + c * c - 1)) by ring. rewrite E1, E2, SC. ring. }
  assert (s = 0) as S0 by (apply Rmult_integral in X; destruct X; [lra|assumption]). rewrite S0 in *. assert (C1 : (c - 1) * (c + 1) = 0) by lra. apply Rabs_def2 in H1. apply Rmult_integral in C1. destruct C1 as [C1|C1]; nra.
Qed.
End Stable.
