(** Normalisation in floating point arithmetic. *)
From Coq Require Import List Arith Bool ZArith Reals Lra Lia.
From Flocq Require Import Core BinarySingleNaN Relative.
From Verif Require Import Float_Model Float_Proofs Float_BoundProofs Float_ErrorProofs Common_Model Arith_Model Route_Proofs Pan_IeeeProofs Wave_Model.
Import ListNotations.
Local Open Scope R_scope.
Notation rnd32 := (round radix2 (SpecFloat.fexp 24 128) ZnearestE).
Notation u24 := (bpow radix2 (-24)).

Section Ieee.
Variable M : libm.
Notation A := (ieee M).
Lemma abs32 (x : f32) : B2R (f32_abs x) = Rabs (B2R x) /\ is_finite (f32_abs x) = is_finite x.
Proof. split; [apply B2R_Babs|apply is_finite_Babs]. Qed.
Lemma peak_ieee : forall (l : list f32) (m : f32), Forall (fun x : f32 => is_finite x = true) l -> is_finite m = true ->
  let p := fold_left (fun m x => if v_lt A m (v_abs A x) then v_abs A x else m) l m in
  is_finite p = true /\ B2R m <= B2R p /\ (forall x, In x l -> Rabs (B2R x) <= B2R p) /\ (p = m \/ exists x, In x l /\ B2R p = Rabs (B2R x)).
Proof.
  induction l as [|x l IH]; intros m F Fm p; [split; [exact Fm|split; [apply Rle_refl|split; [intros x []|left; reflexivity]]]|].
  inversion F as [|? ? Fx Fl]; subst. unfold p. cbn [fold_left]. change (v_lt A m (v_abs A x)) with (f32_lt m (f32_abs x)). change (v_abs A x) with (f32_abs x). destruct (abs32 x) as [Ax Fax]. rewrite Fx in Fax.
  destruct (f32_lt m (f32_abs x)) eqn:E.
  - assert (E' : B2R m < Rabs (B2R x)). { apply (lt_val 24 128) in E; try (apply finite_not_nan; assumption). rewrite !val_finite in E by assumption. rewrite Ax in E. exact E. }
    destruct (IH (f32_abs x) Fl Fax) as (P0 & P1 & P2 & P3). cbv zeta in P0, P1, P2, P3. rewrite Ax in P1. split; [exact P0|]. split; [lra|]. split; [intros y [<-|I]; [exact P1|apply P2; exact I]|].
    right. destruct P3 as [P3|(y & I & P3)]; [exists x; split; [left; reflexivity|rewrite P3; exact Ax]|exists y; split; [right; exact I|exact P3]].
  - assert (E' : Rabs (B2R x) <= B2R m). { apply (lt_val_false 24 128) in E; try (apply finite_not_nan; assumption). rewrite !val_finite in E by assumption. rewrite Ax in E. exact E. }
    destruct (IH m Fl Fm) as (P0 & P1 & P2 & P3). cbv zeta in P0, P1, P2, P3. split; [exact P0|]. split; [exact P1|]. split; [intros y [<-|I]; [lra|apply P2; exact I]|].
    destruct P3 as [P3|(y & I & P3)]; [left; exact P3|right; exists y; split; [right; exact I|exact P3]].
Qed.
Lemma below_one y : y < 1 + u24 -> rnd32 y <= 1.
Proof.
  intros H. pose proof (fexp_valid 24 128 f32_prec) as V. apply (round_N_le_midp radix2 (SpecFloat.fexp 24 128) (fun x => negb (Z.even x))).
  - apply (format_int 24 128 f32_prec f32_emax 1). lia.
  - assert (S : succ radix2 (SpecFloat.fexp 24 128) 1 = 1 + bpow radix2 (-23)). { rewrite succ_eq_pos by lra. f_equal. change 1 with (bpow radix2 0) at 1. rewrite ulp_bpow. reflexivity. }
    rewrite S. replace (bpow radix2 (-23)) with (2 * u24). 2: { change 2 with (bpow radix2 1). rewrite <- bpow_plus. reflexivity. } lra.
Qed.
Lemma above_one y : 1 - u24 <= y -> 1 - u24 <= rnd32 y.
Proof.
  intros H. assert (G : rnd32 (1 - u24) = 1 - u24).
  { apply round_generic; [apply valid_rnd_N|]. replace (1 - u24) with (F2R (Float radix2 16777215 (-24))) by (unfold F2R; cbn; lra). apply generic_format_F2R. intros _. unfold cexp, SpecFloat.fexp.
    assert (L : (mag radix2 (F2R (Float radix2 16777215 (-24))) <= 0)%Z). { apply mag_le_bpow; [unfold F2R; cbn; lra|]. unfold F2R; cbn. rewrite Rabs_pos_eq; lra. } unfold SpecFloat.emin. lia. }
  rewrite <- G at 1. apply mono32. exact H.
Qed.
Lemma inverse_err m : bpow radix2 (-126) <= m <= bpow radix2 126 -> let n := rnd32 (1 / m) in 1 - u24 <= m * n < 1 + u24 /\ 0 < n <= bpow radix2 126.
Proof.
  intros H n. pose proof (bpow_gt_0 radix2 (-126)) as P. assert (Q : bpow radix2 (-126) <= 1 / m <= bpow radix2 126).
  { unfold Rdiv. rewrite Rmult_1_l. split; [change (bpow radix2 (-126)) with (/ bpow radix2 126); apply Rinv_le_contravar; lra|].
    replace (bpow radix2 126) with (/ bpow radix2 (-126)) by (change (bpow radix2 (-126)) with (/ bpow radix2 126); apply Rinv_inv). apply Rinv_le_contravar; lra. }
  assert (E : n = round radix2 (FLX_exp 24) ZnearestE (1 / m)). { unfold n. apply (round_FLT_FLX radix2 (-149) 24). rewrite Rabs_pos_eq by lra. apply Q. }
  pose proof (relative_error_N_FLX' radix2 24 f32_prec (fun x => negb (Z.even x)) (1 / m)) as R. rewrite <- E in R. assert (U : u_ro radix2 24 = u24) by (unfold u_ro; change (-24 + 1)%Z with (-23)%Z; cbn; lra). rewrite U in R. rewrite (Rabs_pos_eq (1 / m)) in R by lra.
  assert (B : Rabs (m * n - 1) <= u24 / (1 + u24)). { replace (m * n - 1) with (m * (n - 1 / m)) by (field; lra). rewrite Rabs_mult, (Rabs_pos_eq m) by lra. apply Rle_trans with (m * (u24 / (1 + u24) * (1 / m))); [apply Rmult_le_compat_l; lra|]. right. field. split; [|lra]. pose proof (bpow_gt_0 radix2 (-24)). lra. }
  assert (C : u24 / (1 + u24) < u24) by (cbn; lra). apply Rabs_le_inv in B. split; [lra|].
  assert (0 < n). { assert (0 < m * n) by (cbn in *; lra). apply Rmult_lt_reg_l with m; lra. } split; [assumption|].
  unfold n. apply Rle_trans with (rnd32 (bpow radix2 126)); [apply mono32; apply Q|]. right. apply round_generic; [apply valid_rnd_N|]. apply generic_format_bpow. unfold SpecFloat.fexp, SpecFloat.emin. lia.
Qed.
Lemma pow32_126 : exists b : f32, is_finite b = true /\ B2R b = bpow radix2 126.
Proof.
  exists (@B754_finite 24 128 false 8388608 103 eq_refl : f32). split; [reflexivity|]. unfold B2R, F2R. cbn [cond_Zopp Fnum Fexp]. change (IZR (Zpos 8388608)) with (bpow radix2 23). rewrite <- bpow_plus. reflexivity.
Qed.
Lemma normalize_ieee (l : list f32) : Forall (fun x : f32 => is_finite x = true) l -> (exists x, In x l /\ bpow radix2 (-126) <= Rabs (B2R x)) -> (forall x, In x l -> Rabs (B2R x) <= bpow radix2 126) ->
  exists m, (exists x, In x l /\ m = Rabs (B2R x)) /\ (forall x, In x l -> Rabs (B2R x) <= m) /\
    (exists y, In y (normalize A l) /\ 1 - u24 <= Rabs (B2R y)) /\
    Forall2 (fun x y : f32 => is_finite y = true /\ Rabs (B2R y) <= 1 /\ Rabs (B2R y - B2R x / m) <= bpow radix2 (-22)) l (normalize A l).
Proof.
  intros F (x0 & I0 & H0) Hm. destruct (peak_ieee l (f32_of_Z 0) F eq_refl) as (P0 & P1 & P2 & P3). cbv zeta in P0, P1, P2, P3.
  unfold normalize, peak_of. change (v_zero A) with (f32_of_Z 0). set (p := fold_left _ l (f32_of_Z 0)) in *. pose proof (bpow_gt_0 radix2 (-126)) as Pb.
  assert (Lo : bpow radix2 (-126) <= B2R p) by (specialize (P2 x0 I0); lra).
  destruct P3 as [P3|(x1 & I1 & P3)]. { rewrite P3, (proj1 (int32 0 ltac:(lia))) in Lo. lra. }
  assert (Hi : B2R p <= bpow radix2 126) by (rewrite P3; apply Hm; exact I1).
  change (v_lt A (f32_of_Z 0) p) with (f32_lt (f32_of_Z 0) p). assert (L : f32_lt (f32_of_Z 0) p = true). { apply (lt_val 24 128); [reflexivity|apply finite_not_nan; exact P0|]. rewrite !val_finite by (exact P0 || reflexivity). rewrite (proj1 (int32 0 ltac:(lia))). lra. } rewrite L.
  destruct pow32_126 as (b & Fb & Vb). destruct (int32 0 ltac:(lia)) as [Z1 Z2]. destruct (int32 1 ltac:(lia)) as [O1 O2]. destruct (int32 2 ltac:(lia)) as [T1 T2]. destruct (int32 (-2) ltac:(lia)) as [N1 N2].
  destruct (inverse_err (B2R p) (conj Lo Hi)) as [R1 R2]. cbv zeta in R1, R2.
  assert (D : is_finite (f32_div (f32_of_Z 1) p) = true /\ B2R (f32_div (f32_of_Z 1) p) = rnd32 (1 / B2R p)).
  { destruct (div_box 24 128 f32_prec f32_emax (f32_of_Z 1) p (f32_of_Z 0) b O2 ltac:(lra)) as (D1 & D2 & _); [|rewrite O1 in D2; split; assumption]. rewrite Z1, O1, Vb. unfold Rdiv. rewrite Rmult_1_l. split; [apply Rlt_le, Rinv_0_lt_compat; lra|].
    replace (bpow radix2 126) with (/ bpow radix2 (-126)) by (change (bpow radix2 (-126)) with (/ bpow radix2 126); apply Rinv_inv). apply Rinv_le_contravar; lra. }
  destruct D as [D1 D2]. change (v_div A (v_one A) p) with (f32_div (f32_of_Z 1) p). set (n := f32_div (f32_of_Z 1) p) in *. rewrite <- D2 in R1, R2.
  assert (E : forall x, In x l -> is_finite (f32_mul x n) = true /\ B2R (f32_mul x n) = rnd32 (B2R x * B2R n) /\ Rabs (B2R x * B2R n) < 1 + u24).
  { intros x I. assert (Fx : is_finite x = true) by (rewrite Forall_forall in F; apply F; exact I). assert (B : Rabs (B2R x * B2R n) < 1 + u24). { rewrite Rabs_mult, (Rabs_pos_eq (B2R n)) by lra. specialize (P2 x I). apply Rle_lt_trans with (B2R p * B2R n); [apply Rmult_le_compat_r; lra|lra]. }
    assert (B' := B). apply Rabs_lt_inv in B'. assert (u24 < 1) by (cbn; lra). destruct (mult_box 24 128 f32_prec f32_emax x n (f32_of_Z (-2)) (f32_of_Z 2) Fx D1) as (G1 & G2 & _); [rewrite T1, N1; lra|]. split; [exact G1|]. split; [exact G2|exact B]. }
  exists (B2R p). split; [exists x1; split; assumption|]. split; [exact P2|]. split.
  - exists (f32_mul x1 n). split; [apply in_map_iff; exists x1; split; [reflexivity|exact I1]|]. destruct (E x1 I1) as (_ & -> & _). rewrite <- round_NE_abs by apply (fexp_valid 24 128 f32_prec). apply above_one. rewrite Rabs_mult, <- P3, (Rabs_pos_eq (B2R n)) by lra. lra.
  - assert (Ql : forall x, In x l -> is_finite (f32_mul x n) = true /\ Rabs (B2R (f32_mul x n)) <= 1 /\ Rabs (B2R (f32_mul x n) - B2R x / B2R p) <= bpow radix2 (-22)).
    { intros x I. destruct (E x I) as (G1 & G2 & G3). split; [exact G1|]. rewrite G2. split; [rewrite <- round_NE_abs by apply (fexp_valid 24 128 f32_prec); apply below_one; exact G3|].
      destruct (rnd_err 24 128 f32_prec f32_emax (B2R x * B2R n) 1) as [Er _]; [split; lia|assert (u24 < 1) by (cbn; lra); cbn in *; lra|]. change (1 - 24)%Z with (-23)%Z in Er.
      assert (Ei : Rabs (B2R x * B2R n - B2R x / B2R p) <= u24). { replace (B2R x * B2R n - B2R x / B2R p) with (B2R x / B2R p * (B2R p * B2R n - 1)) by (field; lra). rewrite Rabs_mult. rewrite <- (Rmult_1_l u24). apply Rmult_le_compat; [apply Rabs_pos|apply Rabs_pos| |apply Rabs_le; lra].
        unfold Rdiv. rewrite Rabs_mult, (Rabs_pos_eq (/ B2R p)) by (apply Rlt_le, Rinv_0_lt_compat; lra). specialize (P2 x I). apply Rmult_le_reg_r with (B2R p); [lra|]. rewrite Rmult_assoc, Rinv_l, Rmult_1_r, Rmult_1_l by lra. exact P2. }
      replace (rnd32 (B2R x * B2R n) - B2R x / B2R p) with ((rnd32 (B2R x * B2R n) - B2R x * B2R n) + (B2R x * B2R n - B2R x / B2R p)) by ring. eapply Rle_trans; [apply Rabs_triang|].
      replace (bpow radix2 (-22)) with (2 * bpow radix2 (-23)) by (cbn; lra). assert (u24 <= bpow radix2 (-23)) by (apply bpow_le; lia). lra. }
    clearbody n p. clear - Ql. induction l as [|x l IH]; [constructor|]. cbn [map]. constructor; [apply Ql; left; reflexivity|]. apply IH. intros y I. apply Ql. right. exact I.
Qed.
End Ieee.
