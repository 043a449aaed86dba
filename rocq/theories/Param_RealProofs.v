(** The automation formulas over the real numbers. *)
From Coq Require Import Reals ZArith List Lia Lra Psatz.
From Flocq Require Import Core.
From Verif Require Import Param_Model Param_Real.
Import ListNotations.
Local Open Scope R_scope.

Definition between (a b x : R) : Prop := Rmin a b <= x <= Rmax a b.

Lemma between_cases : forall a b x, (a <= x <= b \/ b <= x <= a) -> between a b x.
Proof. intros a b x H. unfold between, Rmin, Rmax. destruct (Rle_dec a b); lra. Qed.

Lemma fraction : forall t0 d t, 0 < d -> t0 <= t <= t0 + d -> 0 <= (t - t0) / d <= 1.
Proof.
  intros t0 d t Hd H. split; [apply Rmult_le_pos; [lra|left; apply Rinv_0_lt_compat; exact Hd]|].
  apply (Rmult_le_reg_r d); [exact Hd|]. unfold Rdiv. rewrite Rmult_assoc, Rinv_l by lra. lra.
Qed.

Section Linear.
Variables (t0 d s v : R).
Hypothesis Hd : 0 < d.
Notation f := (linear_ramp_sample real_ops t0 d s (v - s)).
Lemma linear_eq : forall t, f t = s + (v - s) * ((t - t0) / d).
Proof. intro t. unfold linear_ramp_sample. cbn. ring. Qed.
Lemma linear_start : f t0 = s.
Proof. rewrite linear_eq. field. lra. Qed.
Lemma linear_end : f (t0 + d) = v.
Proof. rewrite linear_eq. field. lra. Qed.
Lemma linear_between : forall t, t0 <= t <= t0 + d -> between s v (f t).
Proof.
  intros t H. rewrite linear_eq. pose proof (fraction t0 d t Hd H) as [A B]. set (x := (t - t0) / d) in *. apply between_cases.
  destruct (Rle_dec s v); [left|right]; nra.
Qed.
End Linear.

Section Exponential.
Variables (t0 d s v : R).
Hypothesis Hd : 0 < d.
Hypothesis Hsv : 0 < s * v.
Notation f := (exponential_ramp_sample real_ops t0 d s (v / s)).
Lemma ratio_pos : 0 < v / s.
Proof.
  assert (s <> 0) by (intro; subst; lra).
  replace (v / s) with ((s * v) * (/ s * / s)) by (field; assumption). apply Rmult_lt_0_compat; [exact Hsv|].
  assert (/ s <> 0) by (apply Rinv_neq_0_compat; assumption). nra.
Qed.
Lemma exponential_start : f t0 = s.
Proof.
  unfold exponential_ramp_sample. cbn. unfold R_powf. replace ((t0 - t0) / d) with 0 by (field; lra).
  rewrite Rpower_O by exact ratio_pos. ring.
Qed.
Lemma exponential_end : f (t0 + d) = v.
Proof.
  unfold exponential_ramp_sample. cbn. unfold R_powf. replace ((t0 + d - t0) / d) with 1 by (field; lra).
  rewrite Rpower_1 by exact ratio_pos. field. intro; subst; lra.
Qed.
(** the formula of the specification *)
Lemma exponential_eq : forall t, f t = s * Rpower (v / s) ((t - t0) / d).
Proof. reflexivity. Qed.

Lemma exponential_between : forall t, t0 <= t <= t0 + d -> between s v (f t).
Proof.
  intros t H. rewrite exponential_eq. pose proof (fraction t0 d t Hd H) as [A B]. set (x := (t - t0) / d) in *.
  pose proof ratio_pos as Hr. assert (Hs : s <> 0) by (intro; subst; lra).
  assert (Hv : v = s * (v / s)) by (field; exact Hs). set (r := v / s) in *. apply between_cases.
  destruct (Rle_dec 1 r) as [C|C].
  - assert (P1 : 1 <= Rpower r x). { rewrite <- (Rpower_O r Hr). apply Rle_Rpower; lra. }
    assert (P2 : Rpower r x <= r). { rewrite <- (Rpower_1 r Hr) at 2. apply Rle_Rpower; lra. }
    rewrite Hv. destruct (Rlt_dec 0 s); [left|right]; nra.
  - assert (L : ln r < 0). { rewrite <- ln_1. apply ln_increasing; lra. }
    assert (P1 : Rpower r x <= 1). { unfold Rpower. rewrite <- exp_0. destruct (Req_dec x 0) as [->|]; [rewrite Rmult_0_l; lra|]. left. apply exp_increasing. nra. }
    assert (P2 : r <= Rpower r x).
    { rewrite <- (exp_ln r Hr) at 1. unfold Rpower. destruct (Req_dec x 1) as [->|]; [rewrite Rmult_1_l; lra|]. left. apply exp_increasing. nra. }
    rewrite Hv. destruct (Rlt_dec 0 s); [right|left]; nra.
Qed.
End Exponential.

Section Target.
Variables (t0 c s v : R).
Hypothesis Hc : 0 < c.
Notation f := (set_target_sample real_ops t0 c v (s - v)).
Lemma target_eq : forall t, f t = v + (s - v) * exp (- ((t - t0) / c)).
Proof. intro t. unfold set_target_sample. cbn. ring. Qed.
Lemma target_start : f t0 = s.
Proof. rewrite target_eq. replace (- ((t0 - t0) / c)) with 0 by (field; lra). rewrite exp_0. ring. Qed.
Lemma target_between : forall t, t0 <= t -> between s v (f t).
Proof.
  intros t H. rewrite target_eq. assert (E : exp (- ((t - t0) / c)) <= 1).
  { rewrite <- exp_0. assert (0 <= (t - t0) / c) by (apply Rmult_le_pos; [lra|left; apply Rinv_0_lt_compat; exact Hc]).
    destruct (Req_dec ((t - t0) / c) 0) as [->|]; [rewrite Ropp_0; lra|]. left. apply exp_increasing. lra. }
  pose proof (exp_pos (- ((t - t0) / c))) as P. apply between_cases. destruct (Rle_dec s v); [left|right]; nra.
Qed.
Lemma target_side : forall t, (s < v -> f t < v) /\ (v < s -> v < f t).
Proof. intro t. rewrite target_eq. pose proof (exp_pos (- ((t - t0) / c))) as P. split; intro; nra. Qed.
Lemma target_decreasing : forall t t', t < t' -> s <> v -> Rabs (f t' - v) < Rabs (f t - v).
Proof.
  intros t t' H N. rewrite !target_eq.
  replace (v + (s - v) * exp (- ((t - t0) / c)) - v) with ((s - v) * exp (- ((t - t0) / c))) by ring.
  replace (v + (s - v) * exp (- ((t' - t0) / c)) - v) with ((s - v) * exp (- ((t' - t0) / c))) by ring.
  rewrite !Rabs_mult, !(Rabs_pos_eq (exp _)) by (left; apply exp_pos).
  apply Rmult_lt_compat_l; [apply Rabs_pos_lt; lra|]. apply exp_increasing.
  assert ((t - t0) / c < (t' - t0) / c) by (apply Rmult_lt_compat_r; [apply Rinv_0_lt_compat; exact Hc|lra]). lra.
Qed.
Lemma target_limit : forall eps, 0 < eps -> exists T, forall t, T <= t -> Rabs (f t - v) < eps.
Proof.
  intros eps He. destruct (Req_dec s v) as [E|N].
  - exists 0. intros t _. rewrite target_eq. replace (v + (s - v) * exp (- ((t - t0) / c)) - v) with 0 by (rewrite E; ring). rewrite Rabs_R0. exact He.
  - exists (t0 + c * (1 + Rabs (ln (eps / Rabs (s - v))))). intros t Ht. rewrite target_eq.
    replace (v + (s - v) * exp (- ((t - t0) / c)) - v) with ((s - v) * exp (- ((t - t0) / c))) by ring.
    rewrite Rabs_mult, (Rabs_pos_eq (exp _)) by (left; apply exp_pos).
    assert (A : 0 < Rabs (s - v)) by (apply Rabs_pos_lt; lra).
    assert (Q : 0 < eps / Rabs (s - v)) by (apply Rmult_lt_0_compat; [exact He|apply Rinv_0_lt_compat; exact A]).
    replace eps with (Rabs (s - v) * (eps / Rabs (s - v))) by (field; lra).
    apply Rmult_lt_compat_l; [exact A|]. rewrite <- (exp_ln _ Q) at 1. apply exp_increasing.
    assert (1 + Rabs (ln (eps / Rabs (s - v))) <= (t - t0) / c).
    { apply (Rmult_le_reg_r c); [exact Hc|]. unfold Rdiv at 2. rewrite Rmult_assoc, Rinv_l by lra. lra. }
    pose proof (Rle_abs (- ln (eps / Rabs (s - v)))) as L. rewrite Rabs_Ropp in L. lra.
Qed.
End Target.

Section ValueCurve.
Variables (t0 d : R) (vs : list R).
Hypothesis Hd : 0 < d.
Hypothesis Hlen : (2 <= length vs)%nat.
Notation n := (length vs).
Notation f := (value_curve_sample real_ops t0 d vs).

Lemma curve_after : forall t, t0 + d <= t -> f t = Ok (last vs 0).
Proof.
  intros t H. unfold value_curve_sample. cbn. unfold R_le. destruct (Rle_dec d (t - t0)); [|lra].
  destruct (exists_last (l := vs)) as (l & x & E); [intro E; rewrite E in Hlen; cbn in Hlen; lia|]. rewrite E, last_last, app_length.
  cbn [length]. replace (length l + 1 - 1)%nat with (length l) by lia. rewrite nth_error_app2 by lia. rewrite Nat.sub_diag. reflexivity.
Qed.

(** between two neighbouring points the curve is a straight line *)
Lemma curve_segment : forall t k, (k + 1 < n)%nat -> t0 + INR k * d / INR (n - 1) <= t < t0 + INR (k + 1) * d / INR (n - 1) ->
  f t = Ok (nth k vs 0 + (nth (k + 1) vs 0 - nth k vs 0) * (INR (n - 1) * (t - t0) / d - INR k)).
Proof.
  intros t k Hk Ht. unfold value_curve_sample. cbn [t_le t_sub real_ops t_div t_mul t_of_nat t_to_nat t_floor v_of_t v_fma v_sub].
  assert (N : 0 < INR (n - 1)) by (apply lt_0_INR; lia).
  assert (K : INR k <= INR (n - 1) * (t - t0) / d < INR (k + 1)).
  { assert (E : forall a, a * d / INR (n - 1) * INR (n - 1) / d = a) by (intro; field; lra).
    rewrite <- (E (INR k)), <- (E (INR (k + 1))). rewrite (Rmult_comm (INR (n - 1)) (t - t0)).
    split; [apply Rmult_le_compat_r|apply Rmult_lt_compat_r]; try (left; apply Rinv_0_lt_compat; exact Hd); try (apply Rinv_0_lt_compat; exact Hd);
      [apply Rmult_le_compat_r|apply Rmult_lt_compat_r]; lra. }
  set (pos := INR (n - 1) * (t - t0) / d) in *.
  assert (Kn : INR (k + 1) <= INR (n - 1)) by (apply le_INR; lia).
  assert (T : t - t0 < d).
  { assert (pos < INR (n - 1)) by lra. unfold pos in H. apply (Rmult_lt_compat_r d) in H; [|exact Hd].
    unfold Rdiv in H. rewrite Rmult_assoc, Rinv_l, Rmult_1_r in H by lra. nra. }
  unfold R_le. destruct (Rle_dec d (t - t0)) as [X|_]; [lra|].
  assert (Fl : Zfloor pos = Z.of_nat k). { apply Zfloor_imp. rewrite plus_IZR, <- !INR_IZR_INZ. rewrite plus_INR in K. cbn in K. lra. }
  unfold R_to_nat. rewrite Fl. replace (Z.to_nat (Z.min (Z.of_nat k) (Z.of_nat n))) with k by lia.
  rewrite (nth_error_nth' vs 0 (n := k + 1)) by lia. rewrite (nth_error_nth' vs 0 (n := k)) by lia.
  rewrite <- INR_IZR_INZ. f_equal. ring.
Qed.

Lemma curve_point : forall k, (k < n)%nat -> f (t0 + INR k * d / INR (n - 1)) = Ok (nth k vs 0).
Proof.
  intros k Hk. assert (N : 0 < INR (n - 1)) by (apply lt_0_INR; lia).
  destruct (Nat.eq_dec k (n - 1)) as [->|Nk].
  - rewrite curve_after by (right; field; lra). f_equal.
    destruct (exists_last (l := vs)) as (l & x & E); [intro E; rewrite E in Hlen; cbn in Hlen; lia|]. rewrite E, last_last, app_length.
    cbn [length]. replace (length l + 1 - 1)%nat with (length l) by lia. rewrite app_nth2, Nat.sub_diag by lia. reflexivity.
  - rewrite (curve_segment _ k).
    + f_equal. field. split; lra.
    + lia.
    + split; [lra|]. apply Rplus_lt_compat_l. apply Rmult_lt_compat_r; [apply Rinv_0_lt_compat; exact N|]. apply Rmult_lt_compat_r; [exact Hd|]. apply lt_INR. lia.
Qed.

Lemma curve_range : forall lo hi t, t0 <= t -> Forall (fun x => lo <= x <= hi) vs -> exists v, f t = Ok v /\ lo <= v <= hi.
Proof.
  intros lo hi t Ht H. assert (N : 0 < INR (n - 1)) by (apply lt_0_INR; lia).
  destruct (Rle_dec (t0 + d) t) as [L|L].
  - rewrite curve_after by exact L. eexists. split; [reflexivity|]. rewrite Forall_forall in H. apply H.
    destruct (exists_last (l := vs)) as (l & x & E); [intro E; rewrite E in Hlen; cbn in Hlen; lia|]. rewrite E, last_last. apply in_or_app. right. left. reflexivity.
  - set (pos := INR (n - 1) * (t - t0) / d).
    assert (P0 : 0 <= pos). { unfold pos. apply Rmult_le_pos; [apply Rmult_le_pos; lra|left; apply Rinv_0_lt_compat; exact Hd]. }
    assert (P1 : pos < INR (n - 1)).
    { unfold pos. apply (Rmult_lt_reg_r d); [exact Hd|]. unfold Rdiv. rewrite Rmult_assoc, Rinv_l by lra. nra. }
    pose proof (Zfloor_lb pos) as F1. pose proof (Zfloor_ub pos) as F2.
    assert (Fz : (0 <= Zfloor pos)%Z) by (apply Zfloor_lub; exact P0).
    set (k := Z.to_nat (Zfloor pos)).
    assert (Ek : INR k = IZR (Zfloor pos)) by (rewrite INR_IZR_INZ; f_equal; unfold k; lia).
    assert (Hk : (k + 1 < n)%nat).
    { assert (INR k < INR (n - 1)) by lra. apply INR_lt in H0. lia. }
    assert (E : pos * d / INR (n - 1) = t - t0) by (unfold pos; field; lra).
    rewrite (curve_segment t k Hk).
    + eexists. split; [reflexivity|]. fold pos. assert (X : 0 <= pos - INR k <= 1) by lra. set (x := pos - INR k) in *.
      rewrite Forall_forall in H. pose proof (H (nth k vs 0) ltac:(apply nth_In; lia)) as A. pose proof (H (nth (k + 1) vs 0) ltac:(apply nth_In; lia)) as B.
      nra.
    + rewrite plus_INR. cbn [INR]. rewrite Ek. split.
      * assert (IZR (Zfloor pos) * d / INR (n - 1) <= pos * d / INR (n - 1)); [|lra].
        apply Rmult_le_compat_r; [left; apply Rinv_0_lt_compat; exact N|]. apply Rmult_le_compat_r; lra.
      * assert (pos * d / INR (n - 1) < (IZR (Zfloor pos) + 1) * d / INR (n - 1)); [|lra].
        apply Rmult_lt_compat_r; [apply Rinv_0_lt_compat; exact N|]. apply Rmult_lt_compat_r; lra.
Qed.
End ValueCurve.
