(** Rounding errors of floating point operations. *)
From Coq Require Import ZArith Bool Lia Reals Lra.
From Flocq Require Import Core BinarySingleNaN.
From Verif Require Import Float_Model Float_Proofs Float_BoundProofs Buffer_ResampleProofs.
Local Open Scope R_scope.

Section Errors.
Variables prec emax : Z.
Context (prec_gt_0_ : Prec_gt_0 prec) (prec_lt_emax_ : Prec_lt_emax prec emax).
Notation float := (binary_float prec emax).
Notation fexp := (SpecFloat.fexp prec emax).
Notation rnd := (round radix2 fexp ZnearestE).

(** the least exponent without denormal numbers, and the largest power of two *)
Definition exp_ok (e : Z) : Prop := (3 - emax <= e < emax)%Z.

Lemma rnd_err : forall x e, exp_ok e -> Rabs x <= bpow radix2 e -> Rabs (rnd x - x) <= bpow radix2 (e - prec) /\ Rabs (rnd x) <= bpow radix2 e.
Proof.
  intros x e [H1 H2] Hx. pose proof prec_gt_0_ as P. unfold Prec_gt_0 in P. pose proof prec_lt_emax_ as L. unfold Prec_lt_emax in L. pose proof (fexp_valid prec emax prec_gt_0_). split.
  - apply Rle_trans with (/ 2 * ulp radix2 fexp x); [apply error_le_half_ulp; assumption|].
    assert (U : ulp radix2 fexp x <= bpow radix2 (e + 1 - prec)).
    { apply Rle_trans with (ulp radix2 fexp (bpow radix2 e)).
      - apply ulp_le; [assumption|apply (FLT_exp_monotone (3 - emax - prec) prec)|rewrite (Rabs_pos_eq (bpow _ _)) by apply bpow_ge_0; exact Hx].
      - rewrite ulp_bpow. apply bpow_le. unfold SpecFloat.fexp, SpecFloat.emin. lia. }
    replace (e - prec)%Z with (-1 + (e + 1 - prec))%Z by lia. rewrite bpow_plus. change (bpow radix2 (-1)) with (/ 2). lra.
  - assert (G : generic_format radix2 fexp (bpow radix2 e)) by (apply generic_format_bpow; unfold SpecFloat.fexp, SpecFloat.emin; lia).
    assert (G' : generic_format radix2 fexp (- bpow radix2 e)) by (apply generic_format_opp; exact G).
    apply Rabs_le. apply (rnd_between prec emax prec_gt_0_ (- bpow radix2 e) (bpow radix2 e)); [exact G'|exact G|]. apply Rabs_le_inv. exact Hx.
Qed.

(** the result [z] of an operation with exact value [r] *)
Definition close (z : float) (r : R) (e : Z) : Prop :=
  is_finite z = true /\ B2R z = rnd r /\ Rabs (B2R z - r) <= bpow radix2 (e - prec) /\ Rabs (B2R z) <= bpow radix2 e.

Lemma small : forall x e, exp_ok e -> Rabs x <= bpow radix2 e -> Rlt_bool (Rabs (rnd x)) (bpow radix2 emax) = true.
Proof.
  intros x e He Hx. destruct (rnd_err x e He Hx) as [_ B]. apply Rlt_bool_true. apply Rle_lt_trans with (1 := B). apply bpow_lt. apply He.
Qed.

Lemma plus_err : forall (x y : float) e, is_finite x = true -> is_finite y = true -> exp_ok e -> Rabs (B2R x + B2R y) <= bpow radix2 e ->
  close (Bplus mode_NE x y) (B2R x + B2R y) e.
Proof.
  intros x y e Fx Fy He H. pose proof (Bplus_correct prec emax _ _ mode_NE x y Fx Fy) as C. cbn [round_mode] in C.
  destruct (rnd_err _ e He H) as [E B]. rewrite (small _ e He H) in C. destruct C as (C1 & C2 & _). unfold close. rewrite C1. auto.
Qed.
Lemma minus_err : forall (x y : float) e, is_finite x = true -> is_finite y = true -> exp_ok e -> Rabs (B2R x - B2R y) <= bpow radix2 e ->
  close (Bminus mode_NE x y) (B2R x - B2R y) e.
Proof.
  intros x y e Fx Fy He H. pose proof (Bminus_correct prec emax _ _ mode_NE x y Fx Fy) as C. cbn [round_mode] in C.
  destruct (rnd_err _ e He H) as [E B]. rewrite (small _ e He H) in C. destruct C as (C1 & C2 & _). unfold close. rewrite C1. auto.
Qed.
Lemma mult_err : forall (x y : float) e, is_finite x = true -> is_finite y = true -> exp_ok e -> Rabs (B2R x * B2R y) <= bpow radix2 e ->
  close (Bmult mode_NE x y) (B2R x * B2R y) e.
Proof.
  intros x y e Fx Fy He H. pose proof (Bmult_correct prec emax _ _ mode_NE x y) as C. cbn [round_mode] in C.
  destruct (rnd_err _ e He H) as [E B]. rewrite (small _ e He H) in C. destruct C as (C1 & C2 & _). unfold close. rewrite C1, C2, Fx, Fy. auto.
Qed.
Lemma div_err : forall (x y : float) e, is_finite x = true -> B2R y <> 0 -> exp_ok e -> Rabs (B2R x / B2R y) <= bpow radix2 e ->
  close (Bdiv mode_NE x y) (B2R x / B2R y) e.
Proof.
  intros x y e Fx Ny He H. pose proof (Bdiv_correct prec emax _ _ mode_NE x y Ny) as C. cbn [round_mode] in C.
  destruct (rnd_err _ e He H) as [E B]. rewrite (small _ e He H) in C. destruct C as (C1 & C2 & _). unfold close. rewrite C1, C2, Fx. auto.
Qed.
Lemma fma_err : forall (x y z : float) e, is_finite x = true -> is_finite y = true -> is_finite z = true -> exp_ok e -> Rabs (B2R x * B2R y + B2R z) <= bpow radix2 e ->
  close (Bfma mode_NE x y z) (B2R x * B2R y + B2R z) e.
Proof.
  intros x y z e Fx Fy Fz He H. pose proof (Bfma_correct prec emax _ _ mode_NE x y z Fx Fy Fz) as C. cbv zeta in C. cbn [round_mode] in C.
  destruct (rnd_err _ e He H) as [E B]. rewrite (small _ e He H) in C. destruct C as (C1 & C2 & _). unfold close. rewrite C1. auto.
Qed.
End Errors.

(** f64 *)
Notation close64 := (close 53 1024).
Lemma f64_add_err : forall x y e, is_finite x = true -> is_finite y = true -> exp_ok 1024 e -> Rabs (B2R x + B2R y) <= bpow radix2 e -> close64 (f64_add x y) (B2R x + B2R y) e.
Proof. exact (plus_err 53 1024 f64_prec f64_emax). Qed.
Lemma f64_sub_err : forall x y e, is_finite x = true -> is_finite y = true -> exp_ok 1024 e -> Rabs (B2R x - B2R y) <= bpow radix2 e -> close64 (f64_sub x y) (B2R x - B2R y) e.
Proof. exact (minus_err 53 1024 f64_prec f64_emax). Qed.
Lemma f64_mul_err : forall x y e, is_finite x = true -> is_finite y = true -> exp_ok 1024 e -> Rabs (B2R x * B2R y) <= bpow radix2 e -> close64 (f64_mul x y) (B2R x * B2R y) e.
Proof. exact (mult_err 53 1024 f64_prec f64_emax). Qed.
Lemma f64_div_err : forall x y e, is_finite x = true -> B2R y <> 0 -> exp_ok 1024 e -> Rabs (B2R x / B2R y) <= bpow radix2 e -> close64 (f64_div x y) (B2R x / B2R y) e.
Proof. exact (div_err 53 1024 f64_prec f64_emax). Qed.
Lemma f64_fma_err : forall x y z e, is_finite x = true -> is_finite y = true -> is_finite z = true -> exp_ok 1024 e -> Rabs (B2R x * B2R y + B2R z) <= bpow radix2 e -> close64 (f64_fma x y z) (B2R x * B2R y + B2R z) e.
Proof. exact (fma_err 53 1024 f64_prec f64_emax). Qed.

Lemma f64_lt_R : forall x y : f64, is_finite x = true -> is_finite y = true -> (f64_lt x y = true <-> B2R x < B2R y).
Proof. intros x y Fx Fy. rewrite <- (val_finite 53 1024 x Fx), <- (val_finite 53 1024 y Fy). apply (lt_val 53 1024); apply finite_not_nan; assumption. Qed.
Lemma f64_le_R : forall x y : f64, is_finite x = true -> is_finite y = true -> (f64_le x y = true <-> B2R x <= B2R y).
Proof. intros x y Fx Fy. rewrite <- (val_finite 53 1024 x Fx), <- (val_finite 53 1024 y Fy). apply (le_val 53 1024); apply finite_not_nan; assumption. Qed.
Lemma f64_eq_R : forall x y : f64, is_finite x = true -> is_finite y = true -> (f64_eq x y = true <-> B2R x = B2R y).
Proof. intros x y Fx Fy. rewrite <- (val_finite 53 1024 x Fx), <- (val_finite 53 1024 y Fy). apply (eq_val 53 1024); apply finite_not_nan; assumption. Qed.
