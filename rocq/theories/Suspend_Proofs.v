(** Offline suspensions: times in floating point. *)
From Coq Require Import ZArith Bool List Lia Reals Lra.
From Flocq Require Import Core BinarySingleNaN.
From Verif Require Import Float_Model Float_Proofs Float_BoundProofs Float_ErrorProofs Buffer_ResampleProofs Suspend_Model.
Local Open Scope R_scope.

Lemma of_Z64 n : (Z.abs n <= 2 ^ 53)%Z -> B2R (f64_of_Z n) = IZR n /\ is_finite (f64_of_Z n) = true.
Proof. intros H. destruct (of_Z_exact 53 1024 f64_prec f64_emax n H) as (A & B). split; assumption. Qed.

Lemma duration_val len sr : rate_ok sr -> (0 <= len <= 2 ^ 40)%Z ->
  is_finite (f64_div (f64_of_Z len) (f64_of_f32 sr)) = true /\ Rabs (B2R (f64_div (f64_of_Z len) (f64_of_f32 sr)) * B2R (f64_of_f32 sr) - IZR len) <= / 16.
Proof.
  intros H L. destruct (rate_val sr H) as [F [S1 S2]]. destruct (of_Z64 len) as [E1 E2]; [lia|].
  assert (L' : 0 <= IZR len <= 1099511627776) by (split; apply IZR_le; lia).
  destruct (f64_div_err (f64_of_Z len) (f64_of_f32 sr) 29) as (A & _ & B & _); [exact E2|lra|unfold exp_ok; lia| |].
  - rewrite E1. rewrite Rabs_pos_eq by (apply Rmult_le_pos; [lra|left; apply Rinv_0_lt_compat; lra]).
    change (bpow radix2 29) with 536870912. apply Rmult_le_reg_r with (B2R (f64_of_f32 sr)); [lra|]. unfold Rdiv. rewrite Rmult_assoc, Rinv_l by lra. lra.
  - split; [exact A|]. rewrite E1 in B. set (d := B2R (f64_div _ _)) in *. change (bpow radix2 (29 - 53)) with (/ 16777216) in B.
    replace (d * B2R (f64_of_f32 sr) - IZR len) with ((d - IZR len / B2R (f64_of_f32 sr)) * B2R (f64_of_f32 sr)) by (field; lra).
    rewrite Rabs_mult, (Rabs_pos_eq (B2R (f64_of_f32 sr))) by lra.
    apply Rle_trans with (/ 16777216 * 768000); [apply Rmult_le_compat; [apply Rabs_pos|lra|exact B|lra]|lra].
Qed.

Lemma suspend_val len sr time q : rate_ok sr -> (0 <= len <= 2 ^ 40)%Z -> suspend_quantum len sr time = Some q ->
  is_finite time = true /\ 0 <= B2R time /\ (0 <= q)%Z /\
  B2R time * B2R (f64_of_f32 sr) - / 2048 <= IZR (q * 128) < B2R time * B2R (f64_of_f32 sr) + 128 + / 2048.
Proof.
  intros HR HL. unfold suspend_quantum. destruct (f64_le f64_zero time) eqn:E0; [|discriminate].
  destruct (duration_val len sr HR HL) as [FD DV]. destruct (rate_val sr HR) as [F [S1 S2]].
  destruct (f64_lt time _) eqn:E1; [|discriminate]. destruct (of_Z64 128) as [K1 K2]; [lia|]. remember (f64_of_Z 128) as c128 eqn:E128. clear E128. intros H. injection H as <-.
  assert (L' : 0 <= IZR len <= 1099511627776) by (split; apply IZR_le; lia).
  assert (FT : is_finite time = true).
  { destruct (nan_lt 53 1024 _ _ E1) as [N _]. destruct time as [|s| |]; try reflexivity; try discriminate.
    destruct s; [discriminate E0|]. exfalso. apply (lt_val 53 1024) in E1; [|reflexivity|apply finite_not_nan; exact FD].
    rewrite (val_finite 53 1024 _ FD) in E1. pose proof (val_bound 53 1024 _ FD) as VB. rewrite (val_finite 53 1024 _ FD) in VB. cbn [val] in E1. lra. }
  assert (T0 : 0 <= B2R time) by (apply (f64_le_R f64_zero time) in E0; [exact E0|reflexivity|exact FT]).
  apply (f64_lt_R time _ FT FD) in E1. split; [exact FT|]. split; [exact T0|].
  set (s := B2R (f64_of_f32 sr)) in *. set (tm := B2R time) in *. set (d := B2R (f64_div (f64_of_Z len) (f64_of_f32 sr))) in *.
  apply Rabs_le_inv in DV.
  assert (TS : 0 <= tm * s <= 2199023255552) by (split; [apply Rmult_le_pos; lra|]; apply Rle_trans with (d * s); [apply Rmult_le_compat_r; lra|lra]).
  destruct (f64_mul_err time (f64_of_f32 sr) 41) as (P1 & _ & P2 & P3); [exact FT|exact F|unfold exp_ok; lia|fold tm s; rewrite Rabs_pos_eq by lra; change (bpow radix2 41) with 2199023255552; lra|].
  fold tm s in P2. change (bpow radix2 (41 - 53)) with (/ 4096) in P2. change (bpow radix2 41) with 2199023255552 in P3.
  assert (P0 : 0 <= B2R (f64_mul time (f64_of_f32 sr))).
  { destruct (mult_between 53 1024 f64_prec f64_emax time (f64_of_f32 sr) 0 (2 ^ 41)) as (_ & X); [exact FT|exact F|lia|lia|fold tm s; change (IZR (2 ^ 41)) with 2199023255552; lra|apply X]. }
  set (p := f64_mul time (f64_of_f32 sr)) in *.
  destruct (f64_div_err p c128 34) as (Q1 & _ & Q2 & Q3); [exact P1|rewrite K1; lra|unfold exp_ok; lia|rewrite K1; change (bpow radix2 34) with 17179869184; apply Rabs_le_inv in P3; apply Rabs_le; lra|].
  assert (Q0 : 0 <= B2R (f64_div p c128)).
  { destruct (div_between 53 1024 f64_prec f64_emax p c128 0 (2 ^ 34)) as (_ & X); [exact P1|rewrite K1; lra|lia|lia|rewrite K1; change (IZR (2 ^ 34)) with 17179869184; apply Rabs_le_inv in P3; lra|apply X]. }
  rewrite K1 in Q2. change (bpow radix2 (34 - 53)) with (/ 524288) in Q2. change (bpow radix2 34) with 17179869184 in Q3.
  set (u := f64_div p c128) in *.
  assert (C : B2R (f64_ceil u) = IZR (Zceil (B2R u)) /\ is_finite (f64_ceil u) = true) by (destruct (ceil_val 53 1024 f64_emax u) as [C1 C2]; rewrite Q1 in C2; split; [exact C1|exact C2]). destruct C as [C1 C2].
  rewrite f64_to_usize_val by exact C2.  rewrite C1, Ztrunc_IZR.
  apply Rabs_le_inv in P2. apply Rabs_le_inv in Q2. apply Rabs_le_inv in Q3.
  pose proof (Zceil_ub (B2R u)) as U1.
  assert (U2 : IZR (Zceil (B2R u)) < B2R u + 1).
  { unfold Zceil. rewrite opp_IZR. pose proof (Zfloor_ub (- B2R u)). lra. }
  assert (B1 : (0 <= Zceil (B2R u))%Z) by (apply le_IZR; lra).
  assert (B2 : (Zceil (B2R u) < 2 ^ 35)%Z) by (apply lt_IZR; change (IZR (2 ^ 35)) with 34359738368; lra).
  rewrite Z.max_r by exact B1. rewrite Z.min_r by lia. split; [exact B1|]. rewrite mult_IZR. lra.
Qed.

(** a suspension at the nearest float of a boundary *)
Lemma boundary_val len sr k q : rate_ok sr -> (0 <= len <= 2 ^ 40)%Z -> (0 <= k <= 2 ^ 33)%Z ->
  suspend_quantum len sr (f64_div (f64_of_Z (k * 128)) (f64_of_f32 sr)) = Some q -> q = k \/ (q = k + 1)%Z.
Proof.
  intros HR HL HK H. destruct (suspend_val len sr _ q HR HL H) as (_ & _ & _ & B1 & B2).
  destruct (duration_val (k * 128) sr HR) as [_ D]; [lia|]. apply Rabs_le_inv in D.
  rewrite !mult_IZR in *.
  assert (k - 1 < q)%Z by (apply lt_IZR; rewrite minus_IZR; lra).
  assert (q < k + 2)%Z by (apply lt_IZR; rewrite plus_IZR; lra).
  lia.
Qed.
