(** Floating point operations whose exact result lies between two representable numbers. *)
From Coq Require Import ZArith Bool Lia Reals Lra Floats.SpecFloat.
From Flocq Require Import Core BinarySingleNaN.
From Verif Require Import Float_Model Float_Proofs.
Local Open Scope R_scope.

Section Bounds.
Variables prec emax : Z.
Context (prec_gt_0_ : Prec_gt_0 prec) (prec_lt_emax_ : Prec_lt_emax prec emax).
Notation float := (binary_float prec emax).
Notation fexp := (SpecFloat.fexp prec emax).
Notation rnd := (round radix2 fexp ZnearestE).
Notation format := (generic_format radix2 fexp).

Lemma fexp_valid : Valid_exp fexp.
Proof. apply FLT_exp_valid. exact prec_gt_0_. Qed.

Lemma format_int : forall n, (Z.abs n <= 2 ^ prec)%Z -> format (IZR n).
Proof.
  intros n H. pose proof prec_gt_0_ as P. unfold Prec_gt_0 in P. pose proof prec_lt_emax_ as L. unfold Prec_lt_emax in L.
  apply (generic_format_FLT radix2 (3 - emax - prec) prec). destruct (Z.eq_dec (Z.abs n) (2 ^ prec)) as [Eb|Nb].
  - exists (Float radix2 (Z.sgn n) prec); cbn [Fnum Fexp]; [|destruct n; cbn; try lia; apply Z.pow_gt_1; lia|lia].
    unfold F2R. cbn [Fnum Fexp]. rewrite <- IZR_Zpower by lia. rewrite <- mult_IZR. f_equal. change (radix_val radix2) with 2%Z. rewrite <- Eb. lia.
  - exists (Float radix2 n 0); cbn [Fnum Fexp]; [unfold F2R; cbn; ring|change (radix_val radix2) with 2%Z; lia|lia].
Qed.

Lemma rnd_between : forall lo hi x, format lo -> format hi -> lo <= x <= hi -> lo <= rnd x <= hi.
Proof.
  intros lo hi x Fl Fh [H1 H2]. pose proof fexp_valid. split.
  - rewrite <- (round_generic radix2 fexp ZnearestE lo Fl). apply round_le; [typeclasses eauto|apply valid_rnd_N|exact H1].
  - rewrite <- (round_generic radix2 fexp ZnearestE hi Fh). apply round_le; [typeclasses eauto|apply valid_rnd_N|exact H2].
Qed.
Lemma rnd_int : forall n, (Z.abs n <= 2 ^ prec)%Z -> rnd (IZR n) = IZR n.
Proof. intros. apply round_generic; [apply valid_rnd_N|apply format_int; assumption]. Qed.

Lemma int_small : forall n, (Z.abs n <= 2 ^ prec)%Z -> Rabs (IZR n) < bpow radix2 emax.
Proof.
  intros n H. pose proof prec_gt_0_ as P. unfold Prec_gt_0 in P. pose proof prec_lt_emax_ as L. unfold Prec_lt_emax in L.
  rewrite <- abs_IZR. apply Rle_lt_trans with (IZR (2 ^ prec)); [apply IZR_le; exact H|]. change (2 ^ prec)%Z with (Zpower radix2 prec). rewrite IZR_Zpower by lia. apply bpow_lt. exact L.
Qed.
Lemma between_small : forall a b x, (Z.abs a <= 2 ^ prec)%Z -> (Z.abs b <= 2 ^ prec)%Z -> IZR a <= x <= IZR b -> Rabs x < bpow radix2 emax.
Proof.
  intros a b x Ha Hb [H1 H2]. pose proof (int_small a Ha) as Ba. pose proof (int_small b Hb) as Bb. apply Rabs_lt_inv in Ba. apply Rabs_lt_inv in Bb. apply Rabs_lt. lra.
Qed.

(** the result of an operation with exact value [r] between the integers [a] and [b] *)
Definition result (z : float) (a b : Z) (r : R) : Prop := is_finite z = true /\ B2R z = rnd r /\ IZR a <= B2R z <= IZR b.

Lemma mult_between : forall (x y : float) a b, is_finite x = true -> is_finite y = true -> (Z.abs a <= 2 ^ prec)%Z -> (Z.abs b <= 2 ^ prec)%Z ->
  IZR a <= B2R x * B2R y <= IZR b -> result (Bmult mode_NE x y) a b (B2R x * B2R y).
Proof.
  intros x y a b Fx Fy Ha Hb H. pose proof (Bmult_correct prec emax _ _ mode_NE x y) as C. cbn [round_mode] in C.
  pose proof (rnd_between _ _ _ (format_int a Ha) (format_int b Hb) H) as R.
  rewrite Rlt_bool_true in C by (eapply between_small; [exact Ha|exact Hb|exact R]). destruct C as (C1 & C2 & _).
  unfold result. rewrite C1, C2, Fx, Fy. repeat split; tauto.
Qed.
Lemma div_between : forall (x y : float) a b, is_finite x = true -> B2R y <> 0 -> (Z.abs a <= 2 ^ prec)%Z -> (Z.abs b <= 2 ^ prec)%Z ->
  IZR a <= B2R x / B2R y <= IZR b -> result (Bdiv mode_NE x y) a b (B2R x / B2R y).
Proof.
  intros x y a b Fx Ny Ha Hb H. pose proof (Bdiv_correct prec emax _ _ mode_NE x y Ny) as C. cbn [round_mode] in C.
  pose proof (rnd_between _ _ _ (format_int a Ha) (format_int b Hb) H) as R.
  rewrite Rlt_bool_true in C by (eapply between_small; [exact Ha|exact Hb|exact R]). destruct C as (C1 & C2 & _).
  unfold result. rewrite C1, C2, Fx. repeat split; tauto.
Qed.
Lemma plus_between : forall (x y : float) a b, is_finite x = true -> is_finite y = true -> (Z.abs a <= 2 ^ prec)%Z -> (Z.abs b <= 2 ^ prec)%Z ->
  IZR a <= B2R x + B2R y <= IZR b -> result (Bplus mode_NE x y) a b (B2R x + B2R y).
Proof.
  intros x y a b Fx Fy Ha Hb H. pose proof (Bplus_correct prec emax _ _ mode_NE x y Fx Fy) as C. cbn [round_mode] in C.
  pose proof (rnd_between _ _ _ (format_int a Ha) (format_int b Hb) H) as R.
  rewrite Rlt_bool_true in C by (eapply between_small; [exact Ha|exact Hb|exact R]). destruct C as (C1 & C2 & _).
  unfold result. rewrite C1, C2. repeat split; tauto.
Qed.
Lemma minus_between : forall (x y : float) a b, is_finite x = true -> is_finite y = true -> (Z.abs a <= 2 ^ prec)%Z -> (Z.abs b <= 2 ^ prec)%Z ->
  IZR a <= B2R x - B2R y <= IZR b -> result (Bminus mode_NE x y) a b (B2R x - B2R y).
Proof.
  intros x y a b Fx Fy Ha Hb H. pose proof (Bminus_correct prec emax _ _ mode_NE x y Fx Fy) as C. cbn [round_mode] in C.
  pose proof (rnd_between _ _ _ (format_int a Ha) (format_int b Hb) H) as R.
  rewrite Rlt_bool_true in C by (eapply between_small; [exact Ha|exact Hb|exact R]). destruct C as (C1 & C2 & _).
  unfold result. rewrite C1, C2. repeat split; tauto.
Qed.

Lemma of_Z_exact : forall n, (Z.abs n <= 2 ^ prec)%Z ->
  let z := binary_normalize prec emax prec_gt_0_ prec_lt_emax_ mode_NE n 0 false in B2R z = IZR n /\ is_finite z = true.
Proof.
  intros n H z. pose proof (binary_normalize_correct prec emax prec_gt_0_ prec_lt_emax_ mode_NE n 0 false) as C. cbv zeta in C.
  assert (E : F2R (Float radix2 n 0) = IZR n) by (unfold F2R; cbn; ring). rewrite E in C. cbn [round_mode] in C. rewrite rnd_int in C by exact H.
  rewrite Rlt_bool_true in C by (apply int_small; exact H). tauto.
Qed.

(** rounding to an integer *)
Lemma floor_val : forall x : float, B2R (Bnearbyint mode_DN x) = IZR (Zfloor (B2R x)) /\ is_finite (Bnearbyint mode_DN x) = is_finite x.
Proof.
  intros x. destruct (Bnearbyint_correct prec emax _ mode_DN x) as (E1 & E2 & _). split; [|exact E2]. rewrite E1. cbn [round_mode]. apply round_FIX_IZR.
Qed.
Lemma ceil_val : forall x : float, B2R (Bnearbyint mode_UP x) = IZR (Zceil (B2R x)) /\ is_finite (Bnearbyint mode_UP x) = is_finite x.
Proof.
  intros x. destruct (Bnearbyint_correct prec emax _ mode_UP x) as (E1 & E2 & _). split; [|exact E2]. rewrite E1. cbn [round_mode]. apply round_FIX_IZR.
Qed.
Lemma trunc_val : forall x : float, Btrunc x = Ztrunc (B2R x).
Proof. intros x. apply eq_IZR. rewrite (Btrunc_correct prec emax _). apply round_FIX_IZR. Qed.

Lemma finite_zero : forall x : float, is_finite x = true -> B2R x = 0 -> exists s, x = B754_zero s.
Proof.
  intros [s| | |s m e H] F E; try discriminate; [exists s; reflexivity|]. exfalso. cbn in E. apply eq_0_F2R in E. destruct s; discriminate.
Qed.
End Bounds.

Lemma f64_to_usize_val : forall x : f64, is_finite x = true -> f64_to_usize x = Z.min (2 ^ 64 - 1) (Z.max 0 (Ztrunc (B2R x))).
Proof. intros x F. rewrite <- trunc_val by reflexivity. destruct x; try discriminate; reflexivity. Qed.
Lemma f32_to_usize_val : forall x : f32, is_finite x = true -> f32_to_usize x = Z.min (2 ^ 64 - 1) (Z.max 0 (Ztrunc (B2R x))).
Proof. intros x F. rewrite <- trunc_val by reflexivity. destruct x; try discriminate; reflexivity. Qed.
