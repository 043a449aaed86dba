(** Order and rounding facts about floating point numbers. *)
From Coq Require Import ZArith Bool Lia Reals Lra Floats.SpecFloat.
From Flocq Require Import Core BinarySingleNaN.
From Verif Require Import Float_Model.
Local Open Scope R_scope.

Section Order.
Variables prec emax : Z.
Context (prec_gt_0_ : Prec_gt_0 prec) (prec_lt_emax_ : Prec_lt_emax prec emax).
Notation float := (binary_float prec emax).

(** Numbers that are not NaN are ordered like their values, with the infinities at the
    distance [2^emax], which no finite number reaches. *)
Definition val (x : float) : R :=
  match x with
  | B754_infinity s => if s then - bpow radix2 emax else bpow radix2 emax
  | _ => B2R x
  end.

Lemma val_finite : forall x : float, is_finite x = true -> val x = B2R x.
Proof. intros [| | |]; try discriminate; reflexivity. Qed.

Lemma val_bound : forall x : float, is_finite x = true -> - bpow radix2 emax < val x < bpow radix2 emax.
Proof.
  intros x H. rewrite val_finite by exact H. pose proof (abs_B2R_lt_emax prec emax x) as A. apply Rabs_lt_inv in A. exact A.
Qed.

Lemma compare_val : forall x y : float, is_nan x = false -> is_nan y = false ->
  Bcompare x y = Some (Rcompare (val x) (val y)).
Proof.
  intros x y Hx Hy. destruct (is_finite x) eqn:Fx, (is_finite y) eqn:Fy.
  - rewrite !val_finite by assumption. apply Bcompare_correct; assumption.
  - pose proof (val_bound x Fx) as B. destruct y as [| sy | |]; try discriminate. cbn [val].
    assert (E : Bcompare x (B754_infinity sy) = Some (if sy then Gt else Lt)) by (destruct x as [|s| |]; try discriminate; destruct sy; reflexivity).
    rewrite E. f_equal. symmetry. destruct sy; [apply Rcompare_Gt|apply Rcompare_Lt]; lra.
  - pose proof (val_bound y Fy) as B. destruct x as [| sx | |]; try discriminate. cbn [val].
    assert (E : Bcompare (B754_infinity sx) y = Some (if sx then Lt else Gt)) by (destruct y as [|s| |]; try discriminate; destruct sx; reflexivity).
    rewrite E. f_equal. symmetry. destruct sx; [apply Rcompare_Lt|apply Rcompare_Gt]; lra.
  - destruct x as [| sx | |], y as [| sy | |]; try discriminate. cbn [val].
    pose proof (bpow_gt_0 radix2 emax) as B. destruct sx, sy; cbn; f_equal; symmetry;
      [apply Rcompare_Eq|apply Rcompare_Lt|apply Rcompare_Gt|apply Rcompare_Eq]; lra.
Qed.

Lemma le_val : forall x y : float, is_nan x = false -> is_nan y = false -> (Bleb x y = true <-> val x <= val y).
Proof.
  intros x y Hx Hy. unfold Bleb. change (SFleb (B2SF x) (B2SF y)) with
    (match Bcompare x y with Some (Lt | Eq) => true | _ => false end).
  rewrite (compare_val x y Hx Hy). destruct (Rcompare_spec (val x) (val y)); split; intros; try reflexivity; try discriminate; lra.
Qed.

Lemma lt_val : forall x y : float, is_nan x = false -> is_nan y = false -> (Bltb x y = true <-> val x < val y).
Proof.
  intros x y Hx Hy. unfold Bltb. change (SFltb (B2SF x) (B2SF y)) with
    (match Bcompare x y with Some Lt => true | _ => false end).
  rewrite (compare_val x y Hx Hy). destruct (Rcompare_spec (val x) (val y)); split; intros; try reflexivity; try discriminate; lra.
Qed.

Lemma eq_val : forall x y : float, is_nan x = false -> is_nan y = false -> (Beqb x y = true <-> val x = val y).
Proof.
  intros x y Hx Hy. unfold Beqb. change (SFeqb (B2SF x) (B2SF y)) with
    (match Bcompare x y with Some Eq => true | _ => false end).
  rewrite (compare_val x y Hx Hy). destruct (Rcompare_spec (val x) (val y)); split; intros; try reflexivity; try discriminate; lra.
Qed.

Lemma lt_val_false : forall x y : float, is_nan x = false -> is_nan y = false -> (Bltb x y = false <-> val y <= val x).
Proof.
  intros x y Hx Hy. destruct (Bltb x y) eqn:E.
  - apply lt_val in E; try assumption. split; [discriminate|lra].
  - split; [intros _|reflexivity]. apply Rnot_lt_le. intro H. apply lt_val in H; try assumption. congruence.
Qed.

Lemma le_val_false : forall x y : float, is_nan x = false -> is_nan y = false -> (Bleb x y = false <-> val y < val x).
Proof.
  intros x y Hx Hy. destruct (Bleb x y) eqn:E.
  - apply le_val in E; try assumption. split; [discriminate|lra].
  - split; [intros _|reflexivity]. apply Rnot_le_lt. intro H. apply le_val in H; try assumption. congruence.
Qed.

Lemma nan_le : forall x y : float, Bleb x y = true -> is_nan x = false /\ is_nan y = false.
Proof. intros [| | |] [| | |] H; try discriminate; split; reflexivity. Qed.
Lemma nan_lt : forall x y : float, Bltb x y = true -> is_nan x = false /\ is_nan y = false.
Proof. intros [| | |] [| | |] H; try discriminate; split; reflexivity. Qed.

Lemma finite_not_nan : forall x : float, is_finite x = true -> is_nan x = false.
Proof. intros [| | |]; try discriminate; reflexivity. Qed.

(** adding a finite number to a finite one gives no NaN *)
Lemma plus_not_nan : forall x y : float, is_finite x = true -> is_finite y = true -> is_nan (Bplus mode_NE x y) = false.
Proof.
  intros x y Hx Hy. pose proof (Bplus_correct prec emax _ _ mode_NE x y Hx Hy) as H.
  destruct (Rlt_bool _ _).
  - apply finite_not_nan. tauto.
  - destruct H as [H _]. destruct (Bplus mode_NE x y); try reflexivity. discriminate.
Qed.

(** ** Operations on values: rounding, then saturation at the infinities *)
Notation rnd := (round radix2 (SpecFloat.fexp prec emax) ZnearestE).
Notation big := (bpow radix2 emax).
Definition sat (r : R) : R := if Rle_bool big r then big else if Rle_bool r (- big) then - big else r.

Lemma rnd_mono : forall a b, a <= b -> rnd a <= rnd b.
Proof. intros. apply round_le; [apply FLT_exp_valid; exact prec_gt_0_|apply valid_rnd_N|assumption]. Qed.

Lemma rnd_0 : rnd 0 = 0.
Proof. apply round_0. apply valid_rnd_N. Qed.

Lemma sat_mono : forall a b, a <= b -> sat a <= sat b.
Proof.
  intros a b H. pose proof (bpow_gt_0 radix2 emax). unfold sat.
  destruct (Rle_bool_spec big a), (Rle_bool_spec big b), (Rle_bool_spec a (-big)), (Rle_bool_spec b (-big)); lra.
Qed.

Lemma sat_small : forall a, Rabs a < big -> sat a = a.
Proof.
  intros a H. apply Rabs_lt_inv in H. unfold sat. rewrite Rle_bool_false by lra. rewrite Rle_bool_false by lra. reflexivity.
Qed.
Lemma sat_pos : forall a, big <= Rabs a -> 0 <= a -> sat a = big.
Proof. intros a H P. rewrite Rabs_pos_eq in H by exact P. unfold sat. rewrite Rle_bool_true by exact H. reflexivity. Qed.
Lemma sat_neg : forall a, big <= Rabs a -> a <= 0 -> sat a = - big.
Proof.
  intros a H P. rewrite Rabs_left1 in H by exact P. pose proof (bpow_gt_0 radix2 emax). unfold sat.
  rewrite Rle_bool_false by lra. rewrite Rle_bool_true by lra. reflexivity.
Qed.

Lemma sign_le : forall x : float, is_finite x = true -> Bsign x = true -> B2R x <= 0.
Proof.
  intros [s| | |s m e] F H; try discriminate; cbn in *; subst; [lra|]. apply F2R_le_0. cbn. lia.
Qed.
Lemma sign_ge : forall x : float, is_finite x = true -> Bsign x = false -> 0 <= B2R x.
Proof.
  intros [s| | |s m e] F H; try discriminate; cbn in *; subst; [lra|]. apply F2R_ge_0. cbn. lia.
Qed.

Lemma val_of_inf : forall (x : float) s, B2SF x = S754_infinity s -> val x = (if s then - big else big) /\ is_nan x = false.
Proof. intros [| | |] sg H; try discriminate. inversion H; subst. split; reflexivity. Qed.

Lemma plus_val : forall x y : float, is_finite x = true -> is_finite y = true ->
  val (Bplus mode_NE x y) = sat (rnd (B2R x + B2R y)) /\ is_nan (Bplus mode_NE x y) = false.
Proof.
  intros x y Hx Hy. pose proof (Bplus_correct prec emax _ _ mode_NE x y Hx Hy) as H. cbn [round_mode] in H.
  destruct (Rlt_bool_spec (Rabs (rnd (B2R x + B2R y))) big) as [L|L].
  - destruct H as (H1 & H2 & _). rewrite val_finite by exact H2. rewrite sat_small by exact L. split; [exact H1|apply finite_not_nan; exact H2].
  - destruct H as (H1 & H2). change (binary_overflow prec emax mode_NE (Bsign x)) with (S754_infinity (Bsign x)) in H1.
    apply val_of_inf in H1. destruct H1 as [-> N]. split; [|exact N]. destruct (Bsign x) eqn:S.
    + symmetry. apply sat_neg; [exact L|]. rewrite <- rnd_0. apply rnd_mono. symmetry in H2.
      pose proof (sign_le x Hx S). pose proof (sign_le y Hy H2). lra.
    + symmetry. apply sat_pos; [exact L|]. rewrite <- rnd_0. apply rnd_mono. symmetry in H2.
      pose proof (sign_ge x Hx S). pose proof (sign_ge y Hy H2). lra.
Qed.

Lemma minus_val : forall x y : float, is_finite x = true -> is_finite y = true ->
  val (Bminus mode_NE x y) = sat (rnd (B2R x - B2R y)) /\ is_nan (Bminus mode_NE x y) = false.
Proof.
  intros x y Hx Hy. pose proof (Bminus_correct prec emax _ _ mode_NE x y Hx Hy) as H. cbn [round_mode] in H.
  destruct (Rlt_bool_spec (Rabs (rnd (B2R x - B2R y))) big) as [L|L].
  - destruct H as (H1 & H2 & _). rewrite val_finite by exact H2. rewrite sat_small by exact L. split; [exact H1|apply finite_not_nan; exact H2].
  - destruct H as (H1 & H2). change (binary_overflow prec emax mode_NE (Bsign x)) with (S754_infinity (Bsign x)) in H1.
    apply val_of_inf in H1. destruct H1 as [-> N]. split; [|exact N]. destruct (Bsign x) eqn:S.
    + symmetry. apply sat_neg; [exact L|]. rewrite <- rnd_0. apply rnd_mono. symmetry in H2. apply negb_true_iff in H2.
      pose proof (sign_le x Hx S). pose proof (sign_ge y Hy H2). lra.
    + symmetry. apply sat_pos; [exact L|]. rewrite <- rnd_0. apply rnd_mono. symmetry in H2. apply negb_false_iff in H2.
      pose proof (sign_ge x Hx S). pose proof (sign_le y Hy H2). lra.
Qed.

Lemma pos_sign : forall x : float, is_finite x = true -> 0 < B2R x -> Bsign x = false.
Proof. intros x F H. destruct (Bsign x) eqn:S; [|reflexivity]. pose proof (sign_le x F S). lra. Qed.

Lemma div_val : forall x y : float, is_finite x = true -> is_finite y = true -> 0 < B2R y ->
  val (Bdiv mode_NE x y) = sat (rnd (B2R x / B2R y)) /\ is_nan (Bdiv mode_NE x y) = false.
Proof.
  intros x y Hx Hy P. assert (N0 : B2R y <> 0) by lra.
  pose proof (Bdiv_correct prec emax _ _ mode_NE x y N0) as H. cbn [round_mode] in H.
  destruct (Rlt_bool_spec (Rabs (rnd (B2R x / B2R y))) big) as [L|L].
  - destruct H as (H1 & H2 & _). rewrite Hx in H2. rewrite val_finite by exact H2. rewrite sat_small by exact L. split; [exact H1|apply finite_not_nan; exact H2].
  - rewrite (pos_sign y Hy P), xorb_false_r in H. change (binary_overflow prec emax mode_NE (Bsign x)) with (S754_infinity (Bsign x)) in H.
    apply val_of_inf in H. destruct H as [-> N]. split; [|exact N]. pose proof (Rinv_0_lt_compat _ P) as I. destruct (Bsign x) eqn:S.
    + symmetry. apply sat_neg; [exact L|]. rewrite <- rnd_0. apply rnd_mono.
      pose proof (sign_le x Hx S). unfold Rdiv. assert (0 <= (- B2R x) * / B2R y) by (apply Rmult_le_pos; lra). lra.
    + symmetry. apply sat_pos; [exact L|]. rewrite <- rnd_0. apply rnd_mono.
      pose proof (sign_ge x Hx S). unfold Rdiv. apply Rmult_le_pos; lra.
Qed.

(** ** Monotonicity *)
Lemma val_le_big : forall x : float, - big <= val x <= big.
Proof.
  intros x. destruct (is_finite x) eqn:F; [pose proof (val_bound x F); lra|]. pose proof (bpow_gt_0 radix2 emax).
  destruct x as [|s| |]; try discriminate; cbn; [destruct s|]; lra.
Qed.

Lemma minus_mono : forall x1 x2 y : float, is_finite x1 = true -> is_nan x2 = false -> is_finite y = true -> val x1 <= val x2 ->
  is_nan (Bminus mode_NE x2 y) = false /\ val (Bminus mode_NE x1 y) <= val (Bminus mode_NE x2 y).
Proof.
  intros x1 x2 y F1 N2 Fy L. destruct (is_finite x2) eqn:F2.
  - destruct (minus_val x1 y F1 Fy) as [-> _]. destruct (minus_val x2 y F2 Fy) as [-> N]. split; [exact N|].
    apply sat_mono, rnd_mono. rewrite !val_finite in L by assumption. lra.
  - destruct x2 as [|s| |]; try discriminate. destruct s.
    + cbn [val] in L. pose proof (val_bound x1 F1). lra.
    + assert (E : Bminus mode_NE (B754_infinity false) y = B754_infinity false) by (destruct y; try discriminate; reflexivity).
      rewrite E. split; [reflexivity|]. apply val_le_big.
Qed.

Lemma div_mono : forall x1 x2 y : float, is_nan x1 = false -> is_nan x2 = false -> 0 <= val x1 -> is_finite y = true -> 0 < B2R y -> val x1 <= val x2 ->
  is_nan (Bdiv mode_NE x2 y) = false /\ val (Bdiv mode_NE x1 y) <= val (Bdiv mode_NE x2 y).
Proof.
  intros x1 x2 y N1 N2 P1 Fy Py L. pose proof (pos_sign y Fy Py) as Sy. pose proof (bpow_gt_0 radix2 emax) as B.
  assert (Inf : Bdiv mode_NE (B754_infinity false) y = B754_infinity false).
  { destruct y as [sy| | |sy my ey Hy]; try discriminate; [cbn in Py; lra|]. cbn in Sy. subst. reflexivity. }
  destruct (is_finite x2) eqn:F2.
  - destruct (is_finite x1) eqn:F1.
    + destruct (div_val x1 y F1 Fy Py) as [-> _]. destruct (div_val x2 y F2 Fy Py) as [-> N]. split; [exact N|].
      apply sat_mono, rnd_mono. rewrite !val_finite in L by assumption. unfold Rdiv.
      apply Rmult_le_compat_r; [|exact L]. left. apply Rinv_0_lt_compat. exact Py.
    + destruct x1 as [|s| |]; try discriminate. pose proof (val_bound x2 F2). destruct s; cbn [val] in *; lra.
  - destruct x2 as [|s| |]; try discriminate. destruct s; [cbn [val] in L; lra|]. rewrite Inf. split; [reflexivity|apply val_le_big].
Qed.

Lemma max0_val : forall x : float, is_nan x = false ->
  let m := if is_nan x then B754_zero false else if is_nan (B754_zero false : float) then x else if Bltb x (B754_zero false) then B754_zero false else x in
  is_nan m = false /\ val m = Rmax (val x) 0.
Proof.
  intros x N. cbv zeta. rewrite N. cbn [is_nan]. destruct (Bltb x (B754_zero false)) eqn:E.
  - apply lt_val in E; [|exact N|reflexivity]. cbn in E. split; [reflexivity|]. cbn [val B2R]. rewrite Rmax_right; [reflexivity|lra].
  - split; [exact N|]. apply lt_val_false in E; [|exact N|reflexivity]. cbn in E. rewrite Rmax_left; [reflexivity|exact E].
Qed.

Lemma nearbyint_mono : forall md (x1 x2 : float), is_nan x1 = false -> is_nan x2 = false -> 0 <= val x1 -> val x1 <= val x2 ->
  is_nan (Bnearbyint md x2) = false /\ is_nan (Bnearbyint md x1) = false /\ val (Bnearbyint md x1) <= val (Bnearbyint md x2).
Proof.
  intros md x1 x2 N1 N2 P1 L. pose proof (bpow_gt_0 radix2 emax) as B.
  assert (NN : forall x : float, is_nan x = false -> is_nan (Bnearbyint md x) = false).
  { intros x N. destruct (is_finite x) eqn:F.
    - apply finite_not_nan. rewrite (proj1 (proj2 (Bnearbyint_correct prec emax _ md x))). exact F.
    - destruct x; try discriminate. reflexivity. }
  split; [apply NN; exact N2|]. split; [apply NN; exact N1|].
  destruct (is_finite x2) eqn:F2.
  - destruct (is_finite x1) eqn:F1.
    + destruct (Bnearbyint_correct prec emax _ md x1) as (E1 & E2 & _). destruct (Bnearbyint_correct prec emax _ md x2) as (E3 & E4 & _).
      rewrite val_finite by congruence. rewrite (val_finite (Bnearbyint md x2)) by congruence. rewrite E1, E3.
      rewrite !val_finite in L by assumption. apply round_le; [apply FIX_exp_valid|apply valid_rnd_round_mode|exact L].
    + destruct x1 as [|s| |]; try discriminate. pose proof (val_bound x2 F2). destruct s; cbn [val] in *; lra.
  - destruct x2 as [|s| |]; try discriminate. destruct s; [cbn [val] in L; lra|]. apply val_le_big.
Qed.

Lemma trunc_mono : forall x1 x2 : float, is_finite x1 = true -> is_finite x2 = true -> val x1 <= val x2 -> (Btrunc x1 <= Btrunc x2)%Z.
Proof.
  intros x1 x2 F1 F2 L. apply le_IZR. rewrite !(Btrunc_correct prec emax _). rewrite !val_finite in L by assumption.
  apply round_le; [apply FIX_exp_valid|apply valid_rnd_ZR|exact L].
Qed.
End Order.
