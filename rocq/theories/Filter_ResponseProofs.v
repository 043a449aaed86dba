(** Biquad filters: bounded response, decay and steady state. *)
From Coq Require Import List Arith Bool ZArith Lia Reals Lra Psatz.
From Verif Require Import Arith_Model Arith_Real Absn_ExactProofs Filter_Model Filter_Spec Filter_StableProofs Filter_CoefsProofs.
Import ListNotations.
Local Open Scope R_scope.

Lemma at_nat : forall x t, at_time x (Z.of_nat t) = nth t x 0.
Proof. intros x t. unfold at_time. destruct (Z.ltb_spec (Z.of_nat t) 0); [lia|]. rewrite Nat2Z.id. reflexivity. Qed.
Lemma at_neg : forall x t, (t < 0)%Z -> at_time x t = 0.
Proof. intros x t H. unfold at_time. destruct (Z.ltb_spec t 0); [reflexivity|lia]. Qed.
Lemma at_bound : forall x M t, 0 <= M -> (forall t, Rabs (nth t x 0) <= M) -> Rabs (at_time x t) <= M.
Proof. intros x M t H B. unfold at_time. destruct (Z.ltb_spec t 0); [rewrite Rabs_R0; exact H|apply B]. Qed.

Section Second.
Variables b0 b1 b2 a1 a2 : R.
Hypothesis H2 : Rabs a2 < 1.
Hypothesis H1 : Rabs a1 < 1 + a2.
Definition solves (inp out : list R) : Prop := length out = length inp /\ forall t, (t < length inp)%nat -> weighted [1; a1; a2] out (Z.of_nat t) = weighted [b0; b1; b2] inp (Z.of_nat t).

Lemma bounded : exists K, 0 <= K /\ forall inp out M, solves inp out -> (forall t, Rabs (nth t inp 0) <= M) -> forall t, Rabs (nth t out 0) <= K * M.
Proof using H1 H2.
  destruct (forced_abs a1 a2 H2 H1) as (K & HK & F). set (B := Rabs b0 + Rabs b1 + Rabs b2). assert (HB : 0 <= B) by (unfold B; pose proof (Rabs_pos b0); pose proof (Rabs_pos b1); pose proof (Rabs_pos b2); lra).
  exists (K * B). split; [apply Rmult_le_pos; assumption|]. intros inp out M [L E] HM. assert (M0 : 0 <= M) by (eapply Rle_trans; [apply Rabs_pos|apply (HM 0%nat)]).
  assert (KB : 0 <= K * B * M) by (repeat apply Rmult_le_pos; assumption).
  intros t. destruct (Nat.lt_ge_cases t (length inp)) as [Lt|Ge]; [|rewrite nth_overflow by lia; rewrite Rabs_R0; exact KB].
  set (y := fun k : nat => at_time out (Z.of_nat k - 2)). set (d := fun k : nat => weighted [b0; b1; b2] inp (Z.of_nat k)).
  assert (Hd : forall k, Rabs (d k) <= B * M).
  { intros k. unfold d. cbn [weighted]. assert (X : forall c j, Rabs (c * at_time inp j) <= Rabs c * M) by (intros c j; rewrite Rabs_mult; apply Rmult_le_compat_l; [apply Rabs_pos|apply at_bound; assumption]).
    pose proof (X b0 (Z.of_nat k)) as X0. pose proof (X b1 (Z.of_nat k - 1)%Z) as X1. pose proof (X b2 (Z.of_nat k - 1 - 1)%Z) as X2. rewrite Rplus_0_r. unfold B. eapply Rle_trans; [apply Rabs_triang|]. eapply Rle_trans; [apply Rplus_le_compat_l, Rabs_triang|]. lra. }
  assert (Hy : forall k, (S k < length inp + 1)%nat -> y (S (S k)) + a1 * y (S k) + a2 * y k = d k).
  { intros k Hk. unfold y, d. rewrite <- (E k) by lia. cbn [weighted]. replace (Z.of_nat (S (S k)) - 2)%Z with (Z.of_nat k) by lia. replace (Z.of_nat (S k) - 2)%Z with (Z.of_nat k - 1)%Z by lia. replace (Z.of_nat k - 1 - 1)%Z with (Z.of_nat k - 2)%Z by lia. ring. }
  assert (BM : 0 <= B * M) by (apply Rmult_le_pos; assumption). pose proof (F (length inp + 1)%nat y d (B * M) BM Hy Hd (t + 2)%nat ltac:(lia)) as G.
  assert (Y0 : y 0%nat = 0) by (apply at_neg; lia). assert (Y1 : y 1%nat = 0) by (apply at_neg; lia). rewrite Y0, Y1, Rabs_R0 in G. unfold y in G. replace (Z.of_nat (t + 2) - 2)%Z with (Z.of_nat t) in G by lia. rewrite at_nat in G. lra.
Qed.

(** powers *)
Definition r4 : R := sqrt (sqrt (rate a1 a2)).
Lemma r4_range : 0 < r4 < 1.
Proof using H1 H2. pose proof (q_range a1 a2 H2 H1) as Q. unfold q in Q. unfold r4. split; [apply sqrt_lt_R0; lra|]. rewrite <- sqrt_1. apply sqrt_lt_1_alt. lra. Qed.
Lemma pow_half : forall t, rate a1 a2 ^ Nat.div2 t * sqrt (rate a1 a2) <= sqrt (rate a1 a2) ^ t.
Proof using H1 H2.
  pose proof (q_range a1 a2 H2 H1) as Q. unfold q in Q. pose proof (rate_range a1 a2 H2 H1) as P. set (s := sqrt (rate a1 a2)) in *. assert (Ss : s * s = rate a1 a2) by (apply sqrt_sqrt; lra).
  assert (G : forall t, rate a1 a2 ^ Nat.div2 t * s <= s ^ t /\ rate a1 a2 ^ Nat.div2 (S t) * s <= s ^ S t); [|intros t; apply G]. induction t as [|t [I1 I2]]; [cbn; split; lra|]. split; [exact I2|]. cbn [Nat.div2 pow]. rewrite <- Ss at 1. replace (s * (s * s ^ t)) with (s * s * s ^ t) by ring. rewrite Rmult_assoc. apply Rmult_le_compat_l; [nra|exact I1].
Qed.
Lemma dies : exists K, 0 <= K /\ forall n (e : nat -> R) B, (forall t, (S t < n)%nat -> e (S (S t)) + a1 * e (S t) + a2 * e t = 0) -> Rabs (e 0%nat) <= B -> Rabs (e 1%nat) <= B ->
  forall t, (t <= n)%nat -> Rabs (e t) <= K * B * r4 ^ t.
Proof using H1 H2.
  destruct (decay_abs a1 a2 H2 H1) as (K & HK & F). pose proof (q_range a1 a2 H2 H1) as Q. unfold q in Q. set (s := sqrt (rate a1 a2)) in *. pose proof r4_range as R4. assert (R2 : r4 * r4 = s) by (apply sqrt_sqrt; lra).
  set (K' := sqrt (2 * K / s)). assert (Kp : 0 <= 2 * K / s) by (unfold Rdiv; apply Rmult_le_pos; [lra|apply Rlt_le, Rinv_0_lt_compat; lra]). assert (K2 : K' * K' = 2 * K / s) by (apply sqrt_sqrt; exact Kp). assert (K0 : 0 <= K') by apply sqrt_pos.
  exists K'. split; [exact K0|]. intros n e B He B0 B1 t Ht. assert (Bp : 0 <= B) by (eapply Rle_trans; [apply Rabs_pos|exact B0]).
  assert (P : 0 <= r4 ^ t) by (apply pow_le; lra).
  specialize (F n e). assert (He' : forall t, (S t < n)%nat -> e (S (S t)) = next a1 a2 (e (S t)) (e t)) by (intros k Hk; unfold next; specialize (He k Hk); lra). specialize (F He' t Ht).
  assert (Sb : forall x, Rabs x <= B -> x * x <= B * B). { intros x Hx. rewrite <- (Rabs_pos_eq (x * x)) by apply sq_pos. rewrite Rabs_mult. apply Rmult_le_compat; try apply Rabs_pos; assumption. }
  apply Rsqr_incr_0_var; [|repeat apply Rmult_le_pos; assumption]. unfold Rsqr. rewrite <- Rabs_mult, Rabs_pos_eq by apply sq_pos. eapply Rle_trans; [exact F|].
  replace (K' * B * r4 ^ t * (K' * B * r4 ^ t)) with (K' * K' * (B * B) * (r4 ^ t * r4 ^ t)) by ring. rewrite <- Rpow_mult_distr, R2, K2.
  pose proof (pow_half t) as X. fold s in X. pose proof (Sb _ B0) as S0. pose proof (Sb _ B1) as S1. assert (D : 0 <= rate a1 a2 ^ Nat.div2 t) by (apply pow_le; pose proof (rate_range a1 a2 H2 H1); lra).
  replace (2 * K / s * (B * B) * s ^ t) with (K * (/ s * s ^ t) * (2 * (B * B))) by (field; lra).
  apply Rmult_le_compat; [apply Rmult_le_pos; assumption|pose proof (sq_pos (e 0%nat)); pose proof (sq_pos (e 1%nat)); lra| |lra].
  apply Rmult_le_compat_l; [exact HK|]. apply Rmult_le_reg_l with s; [lra|]. rewrite <- (Rmult_assoc s (/ s)), Rinv_r, Rmult_1_l by lra. lra.
Qed.

(** after the input has stopped *)
Lemma stops : exists K r, 0 <= K /\ 0 <= r < 1 /\ forall inp out M n, solves inp out -> (forall t, Rabs (nth t inp 0) <= M) -> (forall t, (n <= t)%nat -> nth t inp 0 = 0) ->
  forall t, (n <= t)%nat -> Rabs (nth t out 0) <= K * M * r ^ (t - n).
Proof using H1 H2.
  destruct bounded as (K & HK & HB). destruct dies as (L & HL & HD). pose proof r4_range as R4. exists (L * K), r4. split; [apply Rmult_le_pos; assumption|]. split; [lra|].
  intros inp out M n So HM Hz t Ht. assert (M0 : 0 <= M) by (eapply Rle_trans; [apply Rabs_pos|apply (HM 0%nat)]).
  destruct (Nat.lt_ge_cases t (length inp)) as [Lt|Ge]; [|destruct So as [L' _]; rewrite nth_overflow by lia; rewrite Rabs_R0; repeat apply Rmult_le_pos; try assumption; apply pow_le; lra].
  set (e := fun k : nat => nth (n + k) out 0). replace (nth t out 0) with (e (t - n)%nat) by (unfold e; f_equal; lia).
  replace (L * K * M) with (L * (K * M)) by ring. apply (HD (length inp - n - 1)%nat); [|apply (HB inp out M So HM)|apply (HB inp out M So HM)|lia].
  intros k Hk. destruct So as [_ E]. specialize (E (n + S (S k))%nat ltac:(lia)). cbn [weighted] in E.
  replace (Z.of_nat (n + S (S k)) - 1 - 1)%Z with (Z.of_nat (n + k)) in E by lia. replace (Z.of_nat (n + S (S k)) - 1)%Z with (Z.of_nat (n + S k)) in E by lia. rewrite !at_nat in E. rewrite !(Hz (n + _)%nat) in E by lia. unfold e. lra.
Qed.

(** ** Steady state *)
Section Steady.
Variable w : R.
Definition nr : R := b0 + b1 * cos w + b2 * cos (2 * w).
Definition ni : R := - (b1 * sin w + b2 * sin (2 * w)).
Definition dr : R := 1 + a1 * cos w + a2 * cos (2 * w).
Definition di : R := - (a1 * sin w + a2 * sin (2 * w)).
Definition dd : R := dr * dr + di * di.
Definition hr : R := (nr * dr + ni * di) / dd.
Definition hi : R := (ni * dr - nr * di) / dd.
Lemma dd_pos : 0 < dd.
Proof using H1 H2.
  unfold dd. pose proof (sq_pos dr). pose proof (sq_pos di). destruct (no_pole a1 a2 H2 H1 w) as [N|N].
  - assert (0 < dr * dr) by (apply Rsqr_pos_lt; exact N). lra.
  - assert (0 < di * di) by (apply Rsqr_pos_lt; unfold di; intro X; apply N; lra). lra.
Qed.
Lemma h_real : hr * dr - hi * di = nr. Proof using H1 H2. pose proof dd_pos. unfold hr, hi. unfold dd in *. field. lra. Qed.
Lemma h_imag : hr * di + hi * dr = ni. Proof using H1 H2. pose proof dd_pos. unfold hr, hi. unfold dd in *. field. lra. Qed.
Definition wave (x : R) : R := hr * cos x - hi * sin x.
Lemma wave_eq : forall x, wave x + a1 * wave (x - w) + a2 * wave (x - 2 * w) = b0 * cos x + b1 * cos (x - w) + b2 * cos (x - 2 * w).
Proof using H1 H2.
  intros x. unfold wave. rewrite !cos_minus, !sin_minus. set (c := cos x). set (s := sin x).
  transitivity ((hr * dr - hi * di) * c - (hr * di + hi * dr) * s); [unfold dr, di; ring|]. rewrite h_real, h_imag. unfold nr, ni. ring.
Qed.
Lemma steady : exists K r, 0 <= K /\ 0 <= r < 1 /\ forall inp out, solves inp out -> (forall t, (t < length inp)%nat -> nth t inp 0 = cos (w * INR t)) ->
  forall t, (t < length inp)%nat -> Rabs (nth t out 0 - wave (w * INR t)) <= K * r ^ t.
Proof using H1 H2.
  destruct bounded as (K & HK & HB). destruct dies as (L & HL & HD). pose proof r4_range as R4. set (B := K + (Rabs hr + Rabs hi)). assert (HBp : 0 <= B) by (unfold B; pose proof (Rabs_pos hr); pose proof (Rabs_pos hi); lra).
  exists (L * B), r4. split; [apply Rmult_le_pos; assumption|]. split; [lra|]. intros inp out So Hx.
  assert (C1 : forall x, Rabs (cos x) <= 1) by (intros x; apply Rabs_le; pose proof (COS_bound x); lra). assert (S1 : forall x, Rabs (sin x) <= 1) by (intros x; apply Rabs_le; pose proof (SIN_bound x); lra).
  assert (HM : forall t, Rabs (nth t inp 0) <= 1). { intros t. destruct (Nat.lt_ge_cases t (length inp)) as [Lt|Ge]; [rewrite Hx by exact Lt; apply C1|rewrite nth_overflow by exact Ge; rewrite Rabs_R0; lra]. }
  set (e := fun k : nat => nth k out 0 - wave (w * INR k)). intros t Ht. change (nth t out 0 - wave (w * INR t)) with (e t).
  assert (W : forall x, Rabs (wave x) <= Rabs hr + Rabs hi). { intros x. unfold wave, Rminus. eapply Rle_trans; [apply Rabs_triang|]. rewrite Rabs_Ropp, !Rabs_mult. pose proof (C1 x). pose proof (S1 x). pose proof (Rabs_pos hr). pose proof (Rabs_pos hi). apply Rplus_le_compat; (rewrite <- Rmult_1_r; apply Rmult_le_compat_l; assumption). }
  assert (E : forall k, Rabs (e k) <= B). { intros k. unfold e, Rminus, B. eapply Rle_trans; [apply Rabs_triang|]. rewrite Rabs_Ropp. apply Rplus_le_compat; [|apply W]. pose proof (HB inp out 1 So HM k). lra. }
  apply (HD (length inp - 1)%nat e B); [|apply E|apply E|lia]. intros k Hk. unfold e. destruct So as [_ Q]. specialize (Q (S (S k)) ltac:(lia)). cbn [weighted] in Q.
  replace (Z.of_nat (S (S k)) - 1 - 1)%Z with (Z.of_nat k) in Q by lia. replace (Z.of_nat (S (S k)) - 1)%Z with (Z.of_nat (S k)) in Q by lia. rewrite !at_nat in Q. rewrite !Hx in Q by lia.
  pose proof (wave_eq (w * INR (S (S k)))) as X. replace (w * INR (S (S k)) - w) with (w * INR (S k)) in X by (rewrite !S_INR; ring). replace (w * INR (S (S k)) - 2 * w) with (w * INR k) in X by (rewrite !S_INR; ring). lra.
Qed.
End Steady.
End Second.

(** ** Polar coordinates *)
Lemma atan2_polar : forall x y, R_hypot x y * cos (R_atan2 y x) = x /\ R_hypot x y * sin (R_atan2 y x) = y.
Proof.
  intros x y. unfold R_hypot, R_atan2.
  assert (P : forall a, 0 < a -> forall b, sqrt (a * a + b * b) * cos (atan (b / a)) = a /\ sqrt (a * a + b * b) * sin (atan (b / a)) = b).
  { intros a Ha b. assert (E : sqrt (a * a + b * b) = a * sqrt (1 + (b / a)²)). { replace (a * a + b * b) with (a * a * (1 + (b / a)²)) by (unfold Rsqr; field; lra). rewrite sqrt_mult_alt by nra. f_equal. apply sqrt_square. lra. }
    assert (Q : 0 < sqrt (1 + (b / a)²)) by (apply sqrt_lt_R0; pose proof (Rle_0_sqr (b / a)); lra). rewrite E, cos_atan, sin_atan. split; field; lra. }
  destruct (Rlt_dec 0 x) as [Px|Nx]; [apply P; exact Px|]. destruct (Rlt_dec x 0) as [Mx|Zx].
  - destruct (P (- x) ltac:(lra) (- y)) as [P1 P2]. replace (- x * - x + - y * - y) with (x * x + y * y) in P1, P2 by ring. replace (- y / - x) with (y / x) in P1, P2 by (field; lra).
    destruct (Rle_dec 0 y) as [_|_].
    + rewrite neg_cos, neg_sin. lra.
    + replace (atan (y / x) - PI) with (- (PI - atan (y / x))) by ring. rewrite cos_neg, sin_antisym. replace (PI - atan (y / x)) with (- atan (y / x) + PI) by ring. rewrite neg_cos, neg_sin, cos_neg, sin_antisym. lra.
  - assert (x = 0) as -> by lra. replace (0 * 0 + y * y) with (y * y) by ring. destruct (Rlt_dec 0 y) as [Py|Ny].
    + rewrite cos_PI2, sin_PI2, sqrt_square by lra. lra.
    + destruct (Rlt_dec y 0) as [My|Zy].
      * rewrite cos_neg, sin_antisym, cos_PI2, sin_PI2. replace (y * y) with (- y * - y) by ring. rewrite sqrt_square by lra. lra.
      * assert (y = 0) as -> by lra. rewrite Rmult_0_r, sqrt_0. lra.
Qed.
Lemma hypot_pos : forall x y, 0 <= R_hypot x y. Proof. intros. apply sqrt_pos. Qed.

(** what getFrequencyResponse computes *)
Lemma response_eq : forall type_ rate frequency detune gain q hz, 0 < rate -> 0 <= hz <= rate / 2 ->
  let k := calculate_coefs exact type_ rate (computed_freq exact frequency detune) gain q in
  let w := 2 * PI * hz / rate in
  let h := hr (k_b0 k) (k_b1 k) (k_b2 k) (k_a1 k) (k_a2 k) w in
  let i := hi (k_b0 k) (k_b1 k) (k_b2 k) (k_a1 k) (k_a2 k) w in
  biquad_response exact type_ rate frequency detune gain q hz = Some (R_hypot h i, R_atan2 i h).
Proof.
  intros type_ rate frequency detune gain q hz Hr Hz. cbv zeta. unfold biquad_response. cbn [exact v_div v_of_Z t_of_v]. set (k := calculate_coefs exact type_ rate (computed_freq exact frequency detune) gain q). unfold v_zero. cbn [exact v_lt v_of_Z].
  rewrite !R_lt_false by lra. cbn [orb]. cbn [exact t_neg t_PI t_mul t_cos t_sin]. set (w := 2 * PI * hz / rate). replace (- PI * (hz / (rate / 2))) with (- w) by (unfold w; field; lra). rewrite cos_neg, sin_antisym.
  assert (C2 : cos (2 * w) = cos w * cos w - sin w * sin w) by apply cos_2a. assert (S2 : sin (2 * w) = 2 * sin w * cos w) by apply sin_2a.
  set (b0 := k_b0 k). set (b1 := k_b1 k). set (b2 := k_b2 k). set (a1 := k_a1 k). set (a2 := k_a2 k).
  set (num := r_add exact b0 _). set (den := c_add exact _ _).
  assert (En : num = (nr b0 b1 b2 w, ni b1 b2 w)) by (unfold num, nr, ni, r_add, c_mul, r_mul; cbn [exact t_mul t_add t_sub fst snd]; rewrite C2, S2; f_equal; ring).
  assert (Ed : den = (dr a1 a2 w, di a1 a2 w)) by (unfold den, dr, di, c_add, r_add, c_mul, r_mul; cbn [exact t_mul t_add t_sub t_of_Z fst snd]; rewrite C2, S2; f_equal; ring).
  rewrite En, Ed. reflexivity.
Qed.
Lemma wave_polar : forall b0 b1 b2 a1 a2 w x, let h := hr b0 b1 b2 a1 a2 w in let i := hi b0 b1 b2 a1 a2 w in
  wave b0 b1 b2 a1 a2 w x = R_hypot h i * cos (x + R_atan2 i h).
Proof.
  intros b0 b1 b2 a1 a2 w x. cbv zeta. set (h := hr b0 b1 b2 a1 a2 w). set (i := hi b0 b1 b2 a1 a2 w). destruct (atan2_polar h i) as [P1 P2]. unfold wave. fold h i. rewrite cos_plus.
  replace (R_hypot h i * (cos x * cos (R_atan2 i h) - sin x * sin (R_atan2 i h))) with ((R_hypot h i * cos (R_atan2 i h)) * cos x - (R_hypot h i * sin (R_atan2 i h)) * sin x) by ring. rewrite P1, P2. reflexivity.
Qed.

(** ** Gains at the nominal frequencies *)
Definition modulus2 (c0 c1 c2 w : R) : R := ((c0 + c2) * cos w + c1) * ((c0 + c2) * cos w + c1) + (c0 - c2) * sin w * ((c0 - c2) * sin w).
Lemma modulus2_eq : forall c0 c1 c2 w, (c0 + c1 * cos w + c2 * cos (2 * w)) * (c0 + c1 * cos w + c2 * cos (2 * w)) + (c1 * sin w + c2 * sin (2 * w)) * (c1 * sin w + c2 * sin (2 * w)) = modulus2 c0 c1 c2 w.
Proof.
  intros. unfold modulus2. rewrite cos_2a, sin_2a. pose proof (sin2_cos2 w) as E. unfold Rsqr in E. set (c := cos w) in *. set (s := sin w) in *.
  assert (S : s * s = 1 - c * c) by lra.
  replace ((c0 + c1 * c + c2 * (c * c - s * s)) * (c0 + c1 * c + c2 * (c * c - s * s)) + (c1 * s + c2 * (2 * s * c)) * (c1 * s + c2 * (2 * s * c)))
    with ((c0 + c1 * c + c2 * (c * c - s * s)) * (c0 + c1 * c + c2 * (c * c - s * s)) + (c1 + 2 * c2 * c) * (c1 + 2 * c2 * c) * (s * s)) by ring.
  replace (((c0 + c2) * c + c1) * ((c0 + c2) * c + c1) + (c0 - c2) * s * ((c0 - c2) * s)) with (((c0 + c2) * c + c1) * ((c0 + c2) * c + c1) + (c0 - c2) * (c0 - c2) * (s * s)) by ring. rewrite S. ring.
Qed.
Lemma modulus2_scale : forall c0 c1 c2 k w, k <> 0 -> modulus2 (c0 / k) (c1 / k) (c2 / k) w = modulus2 c0 c1 c2 w / (k * k).
Proof. intros. unfold modulus2. field. assumption. Qed.
Lemma gain_eq : forall b0 b1 b2 a1 a2 w m, 0 < dd a1 a2 w -> 0 <= m -> modulus2 b0 b1 b2 w = m * m * modulus2 1 a1 a2 w -> R_hypot (hr b0 b1 b2 a1 a2 w) (hi b0 b1 b2 a1 a2 w) = m.
Proof.
  intros b0 b1 b2 a1 a2 w m D M E. unfold R_hypot. rewrite <- (sqrt_square m M). f_equal. apply Rmult_eq_reg_r with (dd a1 a2 w); [|lra].
  assert (ED : dd a1 a2 w = modulus2 1 a1 a2 w) by (rewrite <- modulus2_eq; unfold dd, dr, di; ring). rewrite <- ED, <- modulus2_eq in E. rewrite <- E.
  unfold hr, hi, nr, ni. set (n1 := b0 + b1 * cos w + b2 * cos (2 * w)). set (n2 := b1 * sin w + b2 * sin (2 * w)). unfold dd in *. field. lra.
Qed.

Lemma nominal_eq : forall type_ rate f0 gain q hz m, 0 < f0 < rate / 2 -> (needs_q type_ = true -> 0 < q) -> In (hz, m) (nominal type_ rate f0 gain q) ->
  let s := cookbook type_ rate f0 gain q in 0 <= m /\ 0 <= hz <= rate / 2 /\ modulus2 (f_b0 s) (f_b1 s) (f_b2 s) (2 * PI * hz / rate) = m * m * modulus2 (f_a0 s) (f_a1 s) (f_a2 s) (2 * PI * hz / rate).
Proof.
  intros type_ rate f0 gain q hz m Hf Hq Hin. cbv zeta.
  assert (Er : 2 * PI * (rate / 2) / rate = PI) by (field; lra). assert (Ez : 2 * PI * 0 / rate = 0) by (unfold Rdiv; ring).
  assert (Pd : forall x, 0 < dB x) by (intros; apply power_pos). assert (Pg : 0 < Rpower 10 (gain / 40)) by apply power_pos.
  assert (A2 : dB gain = Rpower 10 (gain / 40) * Rpower 10 (gain / 40)) by (unfold dB; rewrite <- Rpower_plus; f_equal; field).
  assert (A1 : dB (gain / 2) = Rpower 10 (gain / 40)) by (unfold dB; f_equal; field).
  assert (Hm : 0 <= m) by (destruct type_; cbn in Hin; repeat destruct Hin as [Hin|Hin]; try contradiction; injection Hin as _ <-; try lra; apply Rlt_le, Pd). split; [exact Hm|].
  assert (Hz : 0 <= hz <= rate / 2) by (destruct type_; cbn in Hin; repeat destruct Hin as [Hin|Hin]; try contradiction; injection Hin as <- _; lra). split; [exact Hz|].
  assert (Hw : 0 < 2 * PI * f0 / rate < PI) by (apply w0_range; exact Hf). pose proof (sin_pos _ Hw) as Sp. unfold cookbook. cbv zeta. set (w := 2 * PI * f0 / rate) in *.
  fold (dB q). pose proof (Pd q) as Pq. pose proof (sin2_cos2 w) as SC. unfold Rsqr in SC. assert (S2 : sin w * sin w = 1 - cos w * cos w) by lra. set (A := Rpower 10 (gain / 40)) in *. rewrite (alpha_S_eq w A Pg).
  destruct type_; cbn [nominal] in Hin; cbn [f_b0 f_b1 f_b2 f_a0 f_a1 f_a2]; try (cbn in Hq; specialize (Hq eq_refl));
    repeat destruct Hin as [Hin|Hin]; try contradiction; injection Hin as <- <-; fold w; rewrite ?Ez, ?Er; unfold modulus2; rewrite ?cos_0, ?sin_0, ?cos_PI, ?sin_PI, ?A1, ?A2; fold A; try (unfold Rdiv; ring).
  all: set (c := cos w) in *; set (s := sin w) in *.
  1, 3, 4, 6, 7: field; lra.
  - transitivity (s * s * (s * s)); [rewrite S2; field|field; lra].
  - transitivity (s * s * (s * s)); [rewrite S2; field|field; lra].
Qed.

Lemma coefs_dd : forall type_ rate f0 gain q w, 0 < f0 < rate / 2 -> (needs_q type_ = true -> 0 < q) -> let k := calculate_coefs exact type_ rate f0 gain q in 0 < dd (k_a1 k) (k_a2 k) w.
Proof. intros type_ rate f0 gain q w Hf Hq. destruct (coefs_stable type_ rate f0 gain q Hf Hq). cbv zeta. apply dd_pos; assumption. Qed.
Lemma response_nominal : forall type_ rate frequency detune gain q hz m, let f0 := cents frequency detune in 0 < f0 < rate / 2 -> (needs_q type_ = true -> 0 < q) -> In (hz, m) (nominal type_ rate f0 gain q) ->
  exists phase, biquad_response exact type_ rate frequency detune gain q hz = Some (m, phase).
Proof.
  intros type_ rate frequency detune gain q hz m f0 Hf Hq Hin. destruct (nominal_eq type_ rate f0 gain q hz m Hf Hq Hin) as (Hm & Hz & E). rewrite response_eq by lra. rewrite computed_freq_cents. fold f0. eexists. repeat f_equal.
  pose proof (coefs_dd type_ rate f0 gain q (2 * PI * hz / rate) Hf Hq) as D. cbv zeta in D. apply gain_eq; [exact D|exact Hm|]. pose proof (cookbook_a0 type_ rate f0 gain q Hf Hq) as P0. rewrite coefs_cookbook by assumption. cbn [k_b0 k_b1 k_b2 k_a1 k_a2].
  set (s := cookbook type_ rate f0 gain q) in *. rewrite modulus2_scale by lra. replace 1 with (f_a0 s / f_a0 s) by (field; lra). rewrite modulus2_scale by lra. rewrite E. field. lra.
Qed.
Lemma response_allpass : forall rate frequency detune gain q hz, let f0 := cents frequency detune in 0 < f0 < rate / 2 -> 0 < q -> 0 <= hz <= rate / 2 ->
  exists phase, biquad_response exact Allpass rate frequency detune gain q hz = Some (1, phase).
Proof.
  intros rate frequency detune gain q hz f0 Hf Hq Hz. rewrite response_eq by lra. rewrite computed_freq_cents. fold f0. eexists. repeat f_equal.
  pose proof (coefs_dd Allpass rate f0 gain q (2 * PI * hz / rate) Hf (fun _ => Hq)) as D. cbv zeta in D. apply gain_eq; [exact D|lra|]. pose proof (cookbook_a0 Allpass rate f0 gain q Hf (fun _ => Hq)) as P0. rewrite coefs_cookbook by auto. cbn [k_b0 k_b1 k_b2 k_a1 k_a2].
  set (s := cookbook Allpass rate f0 gain q) in *. rewrite modulus2_scale by lra. replace (modulus2 1 _ _ _) with (modulus2 (f_a0 s / f_a0 s) (f_a1 s / f_a0 s) (f_a2 s / f_a0 s) (2 * PI * hz / rate)) by (f_equal; field; lra). rewrite modulus2_scale by lra.
  rewrite !Rmult_1_l. f_equal. unfold s, cookbook, modulus2. cbn [f_b0 f_b1 f_b2 f_a0 f_a1 f_a2]. ring.
Qed.
