(** IIR filters: steady state and frequency response. *)
From Coq Require Import List Arith Bool ZArith Lia Reals Lra Psatz.
From Verif Require Import Common_Model Arith_Model Arith_Real Absn_ExactProofs Quantum_Model Route_Spec Filter_Model Filter_Spec Filter_ExactProofs Filter_ResponseProofs Filter_IirSpec.
Import ListNotations.
Local Open Scope R_scope.

Lemma dot_ext : forall cs e f t, (forall k, (k <= t)%nat -> e k = f k) -> dot cs e t = dot cs f t.
Proof. induction cs as [|c cs IH]; intros e f t H; [reflexivity|]. cbn [dot]. rewrite (H t) by lia. rewrite (IH e f (t - 1)%nat); [reflexivity|]. intros k K. apply H. lia. Qed.
Lemma dot_minus : forall cs e f t, dot cs (fun k => e k - f k) t = dot cs e t - dot cs f t.
Proof. induction cs as [|c cs IH]; intros e f t; cbn [dot]; [ring|]. rewrite IH. ring. Qed.
Lemma dot_comb : forall cs e f a b t, dot cs (fun k => a * e k + b * f k) t = a * dot cs e t + b * dot cs f t.
Proof. induction cs as [|c cs IH]; intros e f a b t; cbn [dot]; [ring|]. rewrite IH. ring. Qed.
Lemma dot_shift : forall cs e s t, (length cs <= t + 1)%nat -> dot cs (fun k => e (s + k)%nat) t = dot cs e (s + t)%nat.
Proof.
  induction cs as [|c cs IH]; intros e s t L; [reflexivity|]. cbn [dot]. f_equal. destruct cs as [|c' cs]; [reflexivity|]. cbn [length] in L.
  rewrite IH by (cbn [length]; lia). f_equal. lia.
Qed.
Lemma weighted_dot : forall cs x t, (length cs <= t + 1)%nat -> weighted cs x (Z.of_nat t) = dot cs (fun k => nth k x 0) t.
Proof.
  induction cs as [|c cs IH]; intros x t L; [reflexivity|]. cbn [weighted dot]. rewrite at_nat. f_equal. destruct cs as [|c' cs]; [reflexivity|]. cbn [length] in L.
  rewrite <- IH by (cbn [length]; lia). f_equal. lia.
Qed.

(** ** Sums of cosines *)
Fixpoint csum (cs : list R) (k : Z) (w : R) : R := match cs with [] => 0 | c :: cs' => c * cos (IZR k * w) + csum cs' (k + 1) w end.
Fixpoint ssum (cs : list R) (k : Z) (w : R) : R := match cs with [] => 0 | c :: cs' => c * sin (IZR k * w) + ssum cs' (k + 1) w end.
Lemma polar_sums : forall cs k w x y, polar_sum exact cs k (- w) (x, y) = (x + csum cs k w, y - ssum cs k w).
Proof.
  induction cs as [|c cs IH]; intros k w x y; cbn [polar_sum csum ssum]; [f_equal; ring|]. unfold c_add, from_polar. cbn [exact t_mul t_add t_cos t_sin t_of_Z fst snd].
  rewrite IH. replace (IZR k * - w) with (- (IZR k * w)) by ring. rewrite cos_neg, sin_antisym. f_equal; ring.
Qed.
(** shifted waves *)
Lemma cos_dot : forall cs w x t k, (length cs <= t + 1)%nat -> dot cs (fun j => cos (x + w * INR j)) t = cos (x + w * INR t + IZR k * w) * csum cs k w + sin (x + w * INR t + IZR k * w) * ssum cs k w.
Proof.
  induction cs as [|c cs IH]; intros w x t k L; cbn [dot csum ssum]; [ring|]. destruct cs as [|c' cs].
  - cbn [dot csum ssum]. rewrite !Rplus_0_r. set (a := IZR k * w). replace (x + w * INR t) with (x + w * INR t + a - a) at 1 by ring. rewrite cos_minus. ring.
  - cbn [length] in L. rewrite (IH w x (t - 1)%nat (k + 1)%Z) by (cbn [length]; lia). rewrite plus_IZR, minus_INR by lia. cbn [INR].
    replace (x + w * (INR t - 1) + (IZR k + 1) * w) with (x + w * INR t + IZR k * w) by ring. set (a := IZR k * w). replace (x + w * INR t) with (x + w * INR t + a - a) at 1 by ring. rewrite (cos_minus (x + w * INR t + a) a). ring.
Qed.
Lemma sin_dot : forall cs w x t, (length cs <= t + 1)%nat -> dot cs (fun j => sin (x + w * INR j)) t = sin (x + w * INR t) * csum cs 0 w - cos (x + w * INR t) * ssum cs 0 w.
Proof.
  intros cs w x t L. assert (E : forall y, sin y = cos (y - PI / 2)) by (intros y; rewrite cos_minus, cos_PI2, sin_PI2; ring).
  rewrite (dot_ext cs _ (fun j => cos (x - PI / 2 + w * INR j))) by (intros k _; rewrite E; f_equal; ring). rewrite (cos_dot cs w _ t 0 L).
  rewrite Rmult_0_l, Rplus_0_r. replace (x - PI / 2 + w * INR t) with (x + w * INR t - PI / 2) by ring. rewrite cos_minus, sin_minus, cos_PI2, sin_PI2. ring.
Qed.

Section Iir.
Variables bs fs : list R.      (* feedforward, feedback *)
Hypothesis Hb : bs <> [].
Hypothesis Hf : fs <> [].
Hypothesis H0 : nth 0 fs 0 <> 0.
Hypothesis St : stable fs.
Variable w : R.
Let nr := csum bs 0 w.
Let ni := - ssum bs 0 w.
Let dr := csum fs 0 w.
Let di := - ssum fs 0 w.
Let dd := dr * dr + di * di.

Lemma no_pole : 0 < dd.
Proof.
  assert (P1 := Rle_0_sqr dr). assert (P2 := Rle_0_sqr di). unfold Rsqr in *. destruct (Rle_lt_dec dd 0) as [N|N]; [exfalso|exact N]. unfold dd in N.
  assert (Dr : dr = 0) by nra. assert (Di : ssum fs 0 w = 0) by (unfold di in *; nra). destruct St as (K & r & HK & Hr & F).
  assert (C : forall t, Rabs (cos (0 + w * INR t)) <= K * 1 * r ^ t).
  { intros t. apply (F (fun j => cos (0 + w * INR j)) (S t) 1); [lra| |intros k _; apply Rabs_le; pose proof (COS_bound (0 + w * INR k)); lra|lia].
    intros k Hk. rewrite (cos_dot fs w 0 k 0) by lia. change (csum fs 0 w) with dr. rewrite Dr, Di. ring. }
  assert (D : forall t, Rabs (sin (0 + w * INR t)) <= K * 1 * r ^ t).
  { intros t. apply (F (fun j => sin (0 + w * INR j)) (S t) 1); [lra| |intros k _; apply Rabs_le; pose proof (SIN_bound (0 + w * INR k)); lra|lia].
    intros k Hk. rewrite (sin_dot fs w 0 k) by lia. change (csum fs 0 w) with dr. rewrite Dr, Di. ring. }
  destruct (pow_lt_1_zero r ltac:(rewrite Rabs_pos_eq; lra) (/ (2 * (K + 1))) ltac:(apply Rinv_0_lt_compat; lra)) as (n & Hn). specialize (Hn n (le_n _)).
  rewrite Rabs_pos_eq in Hn by (apply pow_le; lra). specialize (C n). specialize (D n). rewrite Rmult_1_r in C, D.
  assert (X : K * r ^ n <= / 2). { assert (0 <= r ^ n) by (apply pow_le; lra). assert (r ^ n * (2 * (K + 1)) <= 1) by (apply Rle_trans with (/ (2 * (K + 1)) * (2 * (K + 1))); [apply Rmult_le_compat_r; lra|right; apply Rinv_l; lra]). nra. }
  pose proof (sin2_cos2 (0 + w * INR n)) as Q. rewrite (Rsqr_abs (sin _)), (Rsqr_abs (cos _)) in Q. unfold Rsqr in Q. pose proof (Rabs_pos (cos (0 + w * INR n))). pose proof (Rabs_pos (sin (0 + w * INR n))). nra.
Qed.

Let hr := (nr * dr + ni * di) / dd.
Let hi := (ni * dr - nr * di) / dd.
Definition swing (x : R) : R := hr * cos x - hi * sin x.
Lemma swing_eq : forall t, (length bs <= t + 1)%nat -> (length fs <= t + 1)%nat -> dot fs (fun j => swing (w * INR j)) t = dot bs (fun j => cos (w * INR j)) t.
Proof.
  intros t L1 L2. pose proof no_pole as D. unfold swing.
  rewrite (dot_ext fs _ (fun j => hr * cos (0 + w * INR j) + (- hi) * sin (0 + w * INR j))) by (intros; rewrite Rplus_0_l; ring). rewrite dot_comb.
  rewrite (cos_dot fs w 0 t 0 L2), (sin_dot fs w 0 t L2). rewrite (dot_ext bs _ (fun j => cos (0 + w * INR j))) by (intros; rewrite Rplus_0_l; ring). rewrite (cos_dot bs w 0 t 0 L1).
  rewrite Rmult_0_l, !Rplus_0_l, Rplus_0_r. fold nr dr. replace (ssum fs 0 w) with (- di) by (unfold di; ring). replace (ssum bs 0 w) with (- ni) by (unfold ni; ring).
  set (c := cos (w * INR t)). set (s := sin (w * INR t)). unfold hr, hi. unfold dd in *. field. lra.
Qed.

Lemma dot_bound : forall cs e t B, (forall k, (k <= t)%nat -> Rabs (e k) <= B) -> Rabs (dot cs e t) <= weight cs * B.
Proof.
  induction cs as [|c cs IH]; intros e t B H; cbn [dot weight fold_right]; [rewrite Rabs_R0; lra|]. eapply Rle_trans; [apply Rabs_triang|]. rewrite Rabs_mult, Rmult_plus_distr_r.
  apply Rplus_le_compat; [apply Rmult_le_compat_l; [apply Rabs_pos|apply H; lia]|]. apply IH. intros k K. apply H. lia.
Qed.
Lemma weight_pos : forall cs, 0 <= weight cs.
Proof. induction cs as [|c cs IH]; cbn [weight fold_right]; [lra|]. pose proof (Rabs_pos c). unfold weight in IH. lra. Qed.
Lemma weighted_bound : forall cs x z B, 0 <= B -> (forall k, (Z.of_nat k <= z)%Z -> Rabs (nth k x 0) <= B) -> Rabs (weighted cs x z) <= weight cs * B.
Proof.
  induction cs as [|c cs IH]; intros x z B HB H; cbn [weighted weight fold_right]; [rewrite Rabs_R0; lra|]. eapply Rle_trans; [apply Rabs_triang|]. rewrite Rabs_mult, Rmult_plus_distr_r.
  apply Rplus_le_compat.
  - apply Rmult_le_compat_l; [apply Rabs_pos|]. unfold at_time. destruct (Z.ltb_spec z 0); [rewrite Rabs_R0; exact HB|]. apply H. lia.
  - apply IH; [exact HB|]. intros k K. apply H. lia.
Qed.

Definition answers (inp out : list R) : Prop := length out = length inp /\ forall t, (t < length inp)%nat -> weighted fs out (Z.of_nat t) = weighted bs inp (Z.of_nat t).

(** what happens before time [n] is bounded *)
Lemma early : forall n, exists C, 0 <= C /\ forall inp out, answers inp out -> (forall t, Rabs (nth t inp 0) <= 1) -> forall t, (t < n)%nat -> Rabs (nth t out 0) <= C.
Proof.
  destruct fs as [|a0 as_] eqn:Ef; [congruence|]. cbn [nth] in H0. assert (A0 : 0 < Rabs a0) by (apply Rabs_pos_lt; exact H0).
  induction n as [|n (C & HC & F)]; [exists 0; split; [lra|intros; lia]|].
  pose proof (weight_pos bs) as W1. pose proof (weight_pos as_) as W2. set (D := (weight bs * 1 + weight as_ * C) / Rabs a0).
  assert (HD : 0 <= D) by (unfold D, Rdiv; apply Rmult_le_pos; [nra|left; apply Rinv_0_lt_compat; exact A0]).
  exists (Rmax C D). split; [eapply Rle_trans; [exact HC|apply Rmax_l]|]. intros inp out An Hx t Ht.
  destruct (Nat.lt_ge_cases t n) as [Lt|Ge]; [eapply Rle_trans; [apply (F inp out An Hx t Lt)|apply Rmax_l]|]. assert (t = n) by lia. subst t.
  destruct (Nat.lt_ge_cases n (length inp)) as [Ln|Gn]; [|destruct An as [L _]; rewrite nth_overflow by lia; rewrite Rabs_R0; eapply Rle_trans; [exact HC|apply Rmax_l]].
  eapply Rle_trans; [|apply Rmax_r]. pose proof (F inp out An Hx) as Fx. destruct An as [L E]. rewrite Ef in E. specialize (E n Ln). cbn [weighted] in E. rewrite at_nat in E.
  assert (X1 : Rabs (weighted bs inp (Z.of_nat n)) <= weight bs * 1) by (apply weighted_bound; [lra|intros; apply Hx]).
  assert (X2 : Rabs (weighted as_ out (Z.of_nat n - 1)) <= weight as_ * C) by (apply weighted_bound; [exact HC|intros k K; apply Fx; lia]).
  unfold D. apply Rmult_le_reg_l with (Rabs a0); [exact A0|]. replace (Rabs a0 * ((weight bs * 1 + weight as_ * C) / Rabs a0)) with (weight bs * 1 + weight as_ * C) by (field; lra).
  rewrite <- Rabs_mult. replace (a0 * nth n out 0) with (weighted bs inp (Z.of_nat n) - weighted as_ out (Z.of_nat n - 1)) by lra. eapply Rle_trans; [apply Rabs_triang|]. rewrite Rabs_Ropp. lra.
Qed.

Lemma iir_steady : exists K r, 0 <= K /\ 0 < r < 1 /\ forall inp out, answers inp out -> (forall t, (t < length inp)%nat -> nth t inp 0 = cos (w * INR t)) ->
  forall t, (t < length inp)%nat -> Rabs (nth t out 0 - swing (w * INR t)) <= K * r ^ t.
Proof.
  pose proof St as (K & r & HK & Hr & F). set (s := (length bs + length fs)%nat). destruct (early (s + length fs)) as (C & HC & HE). set (B := C + (Rabs hr + Rabs hi)).
  assert (HB : 0 <= B) by (unfold B; pose proof (Rabs_pos hr); pose proof (Rabs_pos hi); lra).
  assert (Pr : forall k, 0 < r ^ k) by (intros; apply pow_lt; lra). assert (Mono : forall i j, (i <= j)%nat -> r ^ j <= r ^ i).
  { intros i j Hij. replace j with (i + (j - i))%nat by lia. rewrite pow_add. rewrite <- (Rmult_1_r (r ^ i)) at 2. apply Rmult_le_compat_l; [apply Rlt_le, Pr|]. rewrite <- (pow1 (j - i)). apply pow_incr. lra. }
  exists ((K + 1) * B / r ^ s), r. split; [unfold Rdiv; repeat apply Rmult_le_pos; try lra; left; apply Rinv_0_lt_compat, Pr|]. split; [exact Hr|].
  intros inp out An Hx.
  assert (C1 : forall x, Rabs (cos x) <= 1) by (intros x; apply Rabs_le; pose proof (COS_bound x); lra). assert (S1 : forall x, Rabs (sin x) <= 1) by (intros x; apply Rabs_le; pose proof (SIN_bound x); lra).
  assert (HM : forall t, Rabs (nth t inp 0) <= 1). { intros t. destruct (Nat.lt_ge_cases t (length inp)) as [Lt|Ge]; [rewrite Hx by exact Lt; apply C1|rewrite nth_overflow by exact Ge; rewrite Rabs_R0; lra]. }
  assert (W : forall x, Rabs (swing x) <= Rabs hr + Rabs hi). { intros x. unfold swing, Rminus. eapply Rle_trans; [apply Rabs_triang|]. rewrite Rabs_Ropp, !Rabs_mult. pose proof (C1 x). pose proof (S1 x). pose proof (Rabs_pos hr). pose proof (Rabs_pos hi). apply Rplus_le_compat; (rewrite <- Rmult_1_r; apply Rmult_le_compat_l; assumption). }
  set (e := fun k : nat => nth k out 0 - swing (w * INR k)).
  assert (Eb : forall t, (t < s + length fs)%nat -> Rabs (e t) <= B). { intros t Ht. unfold e, Rminus, B. eapply Rle_trans; [apply Rabs_triang|]. rewrite Rabs_Ropp. apply Rplus_le_compat; [exact (HE inp out An HM t Ht)|apply W]. }
  intros t Ht. change (nth t out 0 - swing (w * INR t)) with (e t). destruct (Nat.lt_ge_cases t s) as [Lt|Ge].
  - eapply Rle_trans; [apply Eb; lia|]. apply Rmult_le_reg_r with (r ^ s); [apply Pr|]. replace ((K + 1) * B / r ^ s * r ^ t * r ^ s) with ((K + 1) * B * r ^ t) by (field; apply Rgt_not_eq, Pr).
    pose proof (Mono t s ltac:(lia)). pose proof (Pr t). pose proof (Pr s). apply Rle_trans with (B * r ^ t); [apply Rmult_le_compat_l; lra|]. apply Rmult_le_compat_r; [lra|]. nra.
  - assert (G : Rabs (e (s + (t - s))%nat) <= K * B * r ^ (t - s)).
    { apply (F (fun k => e (s + k)%nat) (length inp - s)%nat B HB); [| |lia].
      - intros k Hk. rewrite dot_shift by lia. unfold e. rewrite (dot_minus fs (fun k => nth k out 0) (fun k => swing (w * INR k))). rewrite swing_eq by lia. rewrite <- weighted_dot by lia. destruct An as [_ E]. rewrite E by lia. rewrite weighted_dot by lia.
        rewrite (dot_ext bs (fun k0 => nth k0 inp 0) (fun j => cos (w * INR j))) by (intros j Hj; apply Hx; lia). ring.
      - intros k Hk. apply Eb. lia. }
    replace (s + (t - s))%nat with t in G by lia. eapply Rle_trans; [exact G|]. apply Rmult_le_reg_r with (r ^ s); [apply Pr|].
    replace ((K + 1) * B / r ^ s * r ^ t * r ^ s) with ((K + 1) * B * r ^ t) by (field; apply Rgt_not_eq, Pr). replace (K * B * r ^ (t - s) * r ^ s) with (K * B * r ^ t) by (rewrite (Rmult_assoc (K * B)), <- pow_add; replace (t - s + s)%nat with t by lia; reflexivity).
    apply Rmult_le_compat_r; [apply Rlt_le, Pr|]. nra.
Qed.
Lemma swing_polar : forall x, swing x = R_hypot hr hi * cos (x + R_atan2 hi hr).
Proof.
  intros x. destruct (atan2_polar hr hi) as [P1 P2]. unfold swing. rewrite cos_plus.
  replace (R_hypot hr hi * (cos x * cos (R_atan2 hi hr) - sin x * sin (R_atan2 hi hr))) with ((R_hypot hr hi * cos (R_atan2 hi hr)) * cos x - (R_hypot hr hi * sin (R_atan2 hi hr)) * sin x) by ring. rewrite P1, P2. reflexivity.
Qed.
Lemma iir_response_eq : forall rate hz, 0 < rate -> 0 <= hz <= rate / 2 -> w = 2 * PI * hz / rate -> iir_response exact bs fs rate hz = Some (R_hypot hr hi, R_atan2 hi hr).
Proof.
  intros rate hz Hr Hz Hw. unfold iir_response. cbn [exact t_of_v t_lt t_div t_of_Z t_mul t_PI]. rewrite !R_lt_false by lra. cbn [orb].
  replace (-2 * PI * hz / rate) with (- w) by (rewrite Hw; field; lra). rewrite !polar_sums. rewrite !Rplus_0_l. unfold hr, hi, dd, nr, ni, dr, di. replace (0 - ssum bs 0 w) with (- ssum bs 0 w) by ring. replace (0 - ssum fs 0 w) with (- ssum fs 0 w) by ring. reflexivity.
Qed.
End Iir.

(** ** A sufficient condition *)
Lemma bernoulli : forall d m, 0 <= d <= 1 -> 1 - INR m * d <= (1 - d) ^ m.
Proof.
  intros d m Hd. induction m as [|m IH]; [cbn; lra|]. rewrite S_INR. cbn [pow]. assert (0 <= (1 - d) ^ m) by (apply pow_le; lra). assert (0 <= INR m) by apply pos_INR. nra.
Qed.
Lemma dominant_stable : forall a0 as_, weight as_ < Rabs a0 -> stable (a0 :: as_).
Proof.
  intros a0 as_ H. pose proof (weight_pos as_) as W. assert (A0 : 0 < Rabs a0) by lra. set (q := weight as_ / Rabs a0).
  assert (Hq : 0 <= q < 1). { unfold q. split; [unfold Rdiv; apply Rmult_le_pos; [exact W|left; apply Rinv_0_lt_compat; exact A0]|]. apply Rmult_lt_reg_r with (Rabs a0); [exact A0|]. replace (weight as_ / Rabs a0 * Rabs a0) with (weight as_) by (field; lra). lra. }
  assert (Wq : weight as_ = q * Rabs a0) by (unfold q; field; lra). set (m := length as_). set (d := (1 - q) / INR (S m)). assert (Sm : 0 < INR (S m)) by (apply lt_0_INR; lia).
  assert (M1 : 1 <= INR (S m)) by (rewrite S_INR; pose proof (pos_INR m); lra).
  assert (Hd : 0 < d <= 1 - q). { unfold d. split; [unfold Rdiv; apply Rmult_lt_0_compat; [lra|apply Rinv_0_lt_compat; exact Sm]|]. apply Rmult_le_reg_r with (INR (S m)); [exact Sm|]. replace ((1 - q) / INR (S m) * INR (S m)) with (1 - q) by (field; lra). nra. }
  set (r := 1 - d * / 2). assert (Hr : 0 < r < 1) by (unfold r; lra).
  assert (Rm : q <= r ^ m). { pose proof (bernoulli (d * / 2) m ltac:(lra)) as Bn. fold r in Bn. assert (INR m * d <= 1 - q). { unfold d. apply Rmult_le_reg_r with (INR (S m)); [exact Sm|]. replace (INR m * ((1 - q) / INR (S m)) * INR (S m)) with (INR m * (1 - q)) by (field; lra). rewrite S_INR. pose proof (pos_INR m). nra. } pose proof (pos_INR m). nra. }
  assert (Pr : forall k, 0 < r ^ k) by (intros; apply pow_lt; lra). assert (Mono : forall i j, (i <= j)%nat -> r ^ j <= r ^ i).
  { intros i j Hij. replace j with (i + (j - i))%nat by lia. rewrite pow_add. rewrite <- (Rmult_1_r (r ^ i)) at 2. apply Rmult_le_compat_l; [apply Rlt_le, Pr|]. rewrite <- (pow1 (j - i)). apply pow_incr. lra. }
  exists (/ r ^ m), r. split; [left; apply Rinv_0_lt_compat, Pr|]. split; [exact Hr|]. intros e n B HB He H0. cbn [length] in *. replace (S (length as_) - 1)%nat with m in * by (unfold m; lia).
  set (C := / r ^ m * B). assert (HC : 0 <= C) by (unfold C; apply Rmult_le_pos; [left; apply Rinv_0_lt_compat, Pr|exact HB]).
  intros t. induction t as [t IH] using lt_wf_ind. intros Ht. destruct (Nat.lt_ge_cases t m) as [Lt|Ge].
  - eapply Rle_trans; [apply H0; exact Lt|]. fold C. assert (B = C * r ^ m) by (unfold C; field; apply Rgt_not_eq, Pr). rewrite H1 at 1. apply Rmult_le_compat_l; [exact HC|]. apply Mono. lia.
  - specialize (He t ltac:(lia)). cbn [dot] in He.
    assert (X : Rabs (dot as_ e (t - 1)) <= weight as_ * (C * r ^ (t - m))).
    { assert (G : forall cs u, (forall k, (k < t)%nat -> Rabs (e k) <= C * r ^ k) -> (u < t \/ cs = [])%nat -> (t - m + length cs <= S u)%nat -> Rabs (dot cs e u) <= weight cs * (C * r ^ (t - m))).
      { induction cs as [|c cs IHc]; intros u Hk Hu Hl; cbn [dot weight fold_right]; [rewrite Rabs_R0; lra|]. eapply Rle_trans; [apply Rabs_triang|]. rewrite Rabs_mult, Rmult_plus_distr_r. cbn [length] in Hl. destruct Hu as [Hu|Hu]; [|discriminate].
        apply Rplus_le_compat; [apply Rmult_le_compat_l; [apply Rabs_pos|]; eapply Rle_trans; [apply Hk; exact Hu|]; apply Rmult_le_compat_l; [exact HC|apply Mono; lia]|].
        destruct cs as [|c' cs]; [cbn [dot weight fold_right]; rewrite Rabs_R0; lra|]. apply IHc; [exact Hk|left; lia|cbn [length] in *; lia]. }
      destruct as_ as [|c cs]; [cbn [dot weight fold_right]; rewrite Rabs_R0; lra|]. assert (m = S (length cs)) by reflexivity. apply G; [|left; lia|fold m; lia].
      intros k Hk. fold C in IH. apply IH; lia. }
    fold C. apply Rmult_le_reg_l with (Rabs a0); [exact A0|]. rewrite <- Rabs_mult. replace (a0 * e t) with (- dot as_ e (t - 1)) by lra. rewrite Rabs_Ropp. eapply Rle_trans; [exact X|]. rewrite Wq.
    replace (r ^ t) with (r ^ m * r ^ (t - m)) by (rewrite <- pow_add; f_equal; lia). pose proof (Pr (t - m)%nat). assert (0 <= Rabs a0 * (C * r ^ (t - m))) by (apply Rmult_le_pos; [lra|apply Rmult_le_pos; lra]).
    replace (q * Rabs a0 * (C * r ^ (t - m))) with (q * (Rabs a0 * (C * r ^ (t - m)))) by ring. replace (Rabs a0 * (C * (r ^ m * r ^ (t - m)))) with (r ^ m * (Rabs a0 * (C * r ^ (t - m)))) by ring. apply Rmult_le_compat_r; assumption.
Qed.
