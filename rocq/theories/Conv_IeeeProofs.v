(** The normalization in floating point arithmetic: the gain is a positive finite number for every buffer. *)
From Coq Require Import List Arith Bool ZArith Reals Lra Lia.
From Flocq Require Import Core BinarySingleNaN.
From Verif Require Import Float_Model Float_Proofs Float_BoundProofs Float_ErrorProofs Common_Model Arith_Model Pan_IeeeProofs Conv_Model.
Import ListNotations.
Local Open Scope R_scope.

Section Ieee.
Variable M : libm.
Notation A := (ieee M).
Definition powers (m : positive) (e : Z) (B : SpecFloat.bounded 24 128 m e = true) : f32 := @B754_finite 24 128 false m e B.
Lemma powers_val m e B k n : IZR (Zpos m) = bpow radix2 k -> (k + e = n)%Z -> B2R (powers m e B) = bpow radix2 n.
Proof. intros H <-. unfold powers, B2R, F2R. cbn [cond_Zopp Fnum Fexp]. rewrite H, bpow_plus. reflexivity. Qed.
Definition p13 := powers 8388608 (-10) eq_refl.
Definition p8 := powers 8388608 (-15) eq_refl.
Definition p7 := powers 8388608 (-16) eq_refl.
Definition p4 := powers 8388608 (-19) eq_refl.
Definition m5 := powers 8388608 (-28) eq_refl.
Definition m128 := powers 2097152 (-149) eq_refl.
Definition m138 := powers 2048 (-149) eq_refl.
Definition m143 := powers 64 (-149) eq_refl.
Definition m144 := powers 32 (-149) eq_refl.
Lemma p13v : B2R p13 = bpow radix2 13. Proof. apply (powers_val _ _ _ 23); [cbn; lra|reflexivity]. Qed.
Lemma p8v : B2R p8 = bpow radix2 8. Proof. apply (powers_val _ _ _ 23); [cbn; lra|reflexivity]. Qed.
Lemma p7v : B2R p7 = bpow radix2 7. Proof. apply (powers_val _ _ _ 23); [cbn; lra|reflexivity]. Qed.
Lemma p4v : B2R p4 = bpow radix2 4. Proof. apply (powers_val _ _ _ 23); [cbn; lra|reflexivity]. Qed.
Lemma m5v : B2R m5 = bpow radix2 (-5). Proof. apply (powers_val _ _ _ 23); [cbn; lra|reflexivity]. Qed.
Lemma m128v : B2R m128 = bpow radix2 (-128). Proof. apply (powers_val _ _ _ 21); [cbn; lra|reflexivity]. Qed.
Lemma m138v : B2R m138 = bpow radix2 (-138). Proof. apply (powers_val _ _ _ 11); [cbn; lra|reflexivity]. Qed.
Lemma m143v : B2R m143 = bpow radix2 (-143). Proof. apply (powers_val _ _ _ 6); [cbn; lra|reflexivity]. Qed.
Lemma m144v : B2R m144 = bpow radix2 (-144). Proof. apply (powers_val _ _ _ 5); [cbn; lra|reflexivity]. Qed.

Lemma literal (x : f32) s m e : B2SF x = SpecFloat.S754_finite s m e -> is_finite x = true /\ B2R x = F2R (Float radix2 (cond_Zopp s (Zpos m)) e).
Proof. destruct x; try discriminate. cbn. intros H. injection H as <- <- <-. split; reflexivity. Qed.
Lemma min_power : is_finite (f32_frac 1 8000) = true /\ bpow radix2 (-13) <= B2R (f32_frac 1 8000).
Proof. destruct (literal (f32_frac 1 8000) false 8589935 (-36)) as (F & E); [vm_compute; reflexivity|]. split; [exact F|]. rewrite E. unfold F2R. cbn. lra. Qed.
Lemma calibration : is_finite (f32_frac 1 800) = true /\ bpow radix2 (-10) <= B2R (f32_frac 1 800) <= bpow radix2 (-9).
Proof. destruct (literal (f32_frac 1 800) false 10737418 (-33)) as (F & E); [vm_compute; reflexivity|]. split; [exact F|]. rewrite E. unfold F2R. cbn. lra. Qed.
Lemma a_half : is_finite (f32_frac 1 2) = true /\ B2R (f32_frac 1 2) = / 2.
Proof. destruct (literal (f32_frac 1 2) false 8388608 (-24)) as (F & E); [vm_compute; reflexivity|]. split; [exact F|]. rewrite E. unfold F2R. cbn. lra. Qed.
Lemma below_128 (x : f32) : B2R x <= bpow radix2 128.
Proof. apply Rle_trans with (Rabs (B2R x)); [apply Rle_abs|]. left. apply abs_B2R_lt_emax. Qed.

Lemma scale_positive (rate : f32) len chs : is_finite rate = true -> 3000 <= B2R rate <= 768000 ->
  is_finite (normalize_buffer A rate len chs) = true /\ 0 < B2R (normalize_buffer A rate len chs) <= 256.
Proof.
  intros Fr Hr. unfold normalize_buffer. set (pw := v_sqrt A _). clearbody pw. cbv zeta.
  change (v_frac A 1 8000) with (f32_frac 1 8000). change (v_frac A 1 800) with (f32_frac 1 800). change (v_frac A 1 2) with (f32_frac 1 2). change (v_one A) with (f32_of_Z 1). change (v_of_Z A 44100) with (f32_of_Z 44100).
  change (v_div A) with f32_div. change (v_mul A) with f32_mul. change (v_finite A pw) with (is_finite pw). change (v_lt A) with f32_lt. change (v_nan A pw) with (is_nan pw).
  destruct min_power as (Fm & Hm). destruct calibration as (Fc & Hc). destruct (int32 1 ltac:(lia)) as (E1 & F1). destruct (int32 44100 ltac:(lia)) as (E4 & F4).
  set (p := if _ || _ || _ then _ else _). assert (Hp : is_finite p = true /\ bpow radix2 (-13) <= B2R p).
  { unfold p. destruct (is_finite pw) eqn:Fp; [|split; [exact Fm|exact Hm]]. cbn [negb orb]. destruct (is_nan pw); [split; [exact Fm|exact Hm]|]. cbn [orb]. destruct (f32_lt pw (f32_frac 1 8000)) eqn:Lt; [split; [exact Fm|exact Hm]|].
    split; [exact Fp|]. apply (lt_val_false 24 128) in Lt; try (apply finite_not_nan; assumption). rewrite !val_finite in Lt by assumption. lra. }
  destruct Hp as (Fp & Hp). clearbody p. pose proof (below_128 p) as Up. pose proof (bpow_gt_0 radix2 (-13)) as P13.
  destruct (div_box 24 128 f32_prec f32_emax (f32_of_Z 1) p m128 p13 F1 ltac:(lra)) as (Fa & _ & Ha).
  { rewrite m128v, p13v, E1. unfold Rdiv. rewrite Rmult_1_l. split.
    - change (bpow radix2 (-128)) with (/ bpow radix2 128). apply Rinv_le_contravar; [lra|exact Up].
    - apply Rle_trans with (/ bpow radix2 (-13)); [apply Rinv_le_contravar; [exact P13|exact Hp]|]. rewrite <- bpow_opp. apply Rle_refl. }
  rewrite m128v, p13v in Ha. fold (f32_div (f32_of_Z 1) p) in *. set (a := f32_div (f32_of_Z 1) p) in *. clearbody a.
  assert (S : forall k l m n x y, bpow radix2 k <= x <= bpow radix2 l -> bpow radix2 m <= y <= bpow radix2 n -> bpow radix2 (k + m) <= x * y <= bpow radix2 (l + n)).
  { intros k l m n x y (X1 & X2) (Y1 & Y2). pose proof (bpow_gt_0 radix2 k). pose proof (bpow_gt_0 radix2 m). rewrite !bpow_plus. split; apply Rmult_le_compat; lra. }
  destruct (mult_box 24 128 f32_prec f32_emax a (f32_frac 1 800) m138 p4 Fa Fc) as (Fb & _ & Hb).
  { rewrite m138v, p4v. apply (S (-128)%Z 13%Z (-10)%Z (-9)%Z); assumption. }
  rewrite m138v, p4v in Hb. fold (f32_mul a (f32_frac 1 800)) in *. set (b := f32_mul a (f32_frac 1 800)) in *. clearbody b.
  destruct (div_box 24 128 f32_prec f32_emax (f32_of_Z 44100) rate m5 p4 F4 ltac:(lra)) as (Fd & _ & Hd).
  { rewrite m5v, p4v, E4. assert (I1 : / 768000 <= / B2R rate) by (apply Rinv_le_contravar; lra). assert (I2 : / B2R rate <= / 3000) by (apply Rinv_le_contravar; lra). unfold Rdiv. cbn. lra. }
  rewrite m5v, p4v in Hd. fold (f32_div (f32_of_Z 44100) rate) in *. set (d := f32_div (f32_of_Z 44100) rate) in *. clearbody d.
  destruct (mult_box 24 128 f32_prec f32_emax b d m143 p8 Fb Fd) as (Fe & _ & He).
  { rewrite m143v, p8v. apply (S (-138)%Z 4%Z (-5)%Z 4%Z); assumption. }
  rewrite m143v, p8v in He. fold (f32_mul b d) in *. set (e := f32_mul b d) in *. clearbody e. pose proof (bpow_gt_0 radix2 (-143)) as P143.
  destruct (length chs =? 4)%nat.
  - destruct a_half as (Fh & Eh). destruct (mult_box 24 128 f32_prec f32_emax e (f32_frac 1 2) m144 p7 Fe Fh) as (Fg & _ & Hg).
    { rewrite m144v, p7v, Eh. change (/ 2) with (bpow radix2 (-1)). replace (bpow radix2 (-144)) with (bpow radix2 (-143) * bpow radix2 (-1)) by (rewrite <- bpow_plus; reflexivity). replace (bpow radix2 7) with (bpow radix2 8 * bpow radix2 (-1)) by (rewrite <- bpow_plus; reflexivity). split; apply Rmult_le_compat_r; try apply He; cbn; lra. }
    rewrite m144v, p7v in Hg. fold (f32_mul e (f32_frac 1 2)) in *. split; [exact Fg|]. pose proof (bpow_gt_0 radix2 (-144)). destruct Hg as (G1 & G2). split; [lra|]. apply Rle_trans with (1 := G2). cbn. lra.
  - split; [exact Fe|]. destruct He as (G1 & G2). split; [lra|]. apply Rle_trans with (1 := G2). cbn. lra.
Qed.
End Ieee.
