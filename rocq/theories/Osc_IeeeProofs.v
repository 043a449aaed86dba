(** Oscillators in floating point arithmetic with frequencies that are not negative: the phase stays
    in [0,1) and no table look-up is out of bounds. *)
From Coq Require Import List Arith Bool ZArith Reals Lra Lia.
From Flocq Require Import Core BinarySingleNaN Sterbenz Mult_error.
From Verif Require Import Float_Model Float_Proofs Float_BoundProofs Float_ErrorProofs Buffer_Model Buffer_ResampleProofs
  Common_Model Arith_Model Arith_Real Source_Model Source_Spec Source_Proofs Source_ClockProofs Osc_Proofs Osc_ExactProofs.
Import ListNotations.
Local Open Scope R_scope.

Notation format64 := (generic_format radix2 (SpecFloat.fexp 53 1024)).

(** ** Conversion from f32 is exact *)
Lemma format_32_64 : forall x : f32, format64 (B2R x).
Proof.
  intros x. pose proof (generic_format_B2R 24 128 x) as G. apply (FLT_format_generic radix2 (3 - 128 - 24) 24) in G. destruct G as [f H1 H2 H3].
  apply (generic_format_FLT radix2 (3 - 1024 - 53) 53). exists f; [exact H1| |lia]. eapply Z.lt_trans; [exact H2|]. reflexivity.
Qed.
Lemma f64_of_f32_val : forall x : f32, is_finite x = true -> B2R (f64_of_f32 x) = B2R x /\ is_finite (f64_of_f32 x) = true.
Proof.
  intros x F. assert (G := format_32_64 x). destruct x as [s| | |s m e Hb]; try discriminate; [split; reflexivity|]. cbn [f64_of_f32].
  pose proof (binary_normalize_correct 53 1024 f64_prec f64_emax mode_NE (cond_Zopp s (Zpos m)) e s) as C. cbv zeta in C. cbn [round_mode] in C.
  change (F2R (Float radix2 (cond_Zopp s (Zpos m)) e)) with (B2R (B754_finite s m e Hb : binary_float 24 128)) in C.
  rewrite round_generic in C by (try apply valid_rnd_N; exact G).
  rewrite Rlt_bool_true in C; [destruct C as (C1 & C2 & _); split; assumption|].
  eapply Rlt_le_trans; [apply (abs_B2R_lt_emax 24 128)|apply bpow_le; lia].
Qed.
Lemma f32_bound : forall x : f32, Rabs (B2R x) <= bpow radix2 128.
Proof. intros x. left. apply (abs_B2R_lt_emax 24 128). Qed.

(** ** Exact subtractions *)
Lemma sub_exact : forall x y : f64, is_finite x = true -> is_finite y = true -> B2R y / 2 <= B2R x <= 2 * B2R y -> B2R y <= B2R x -> Rabs (B2R x) <= bpow radix2 1000 ->
  is_finite (f64_sub x y) = true /\ B2R (f64_sub x y) = B2R x - B2R y.
Proof.
  intros x y Fx Fy H L B. assert (G : format64 (B2R x - B2R y)) by (apply (sterbenz radix2 (SpecFloat.fexp 53 1024)); [apply generic_format_B2R|apply generic_format_B2R|exact H]).
  destruct (f64_sub_err x y 1000 Fx Fy (eok 1000 ltac:(lia))) as (F & E & _ & _).
  { eapply Rle_trans; [|exact B]. rewrite !Rabs_pos_eq by lra. lra. }
  split; [exact F|]. rewrite E. apply round_generic; [apply valid_rnd_N|exact G].
Qed.

Definition phase64 (p : f64) : Prop := is_finite p = true /\ 0 <= B2R p < 1.

Lemma one_val : B2R (f64_of_Z 1) = 1 /\ is_finite (f64_of_Z 1) = true.
Proof. destruct (f64_of_Z_exact 1) as [E F]; [lia|]. split; assumption. Qed.
Lemma zero_val : B2R (f64_of_Z 0) = 0 /\ is_finite (f64_of_Z 0) = true.
Proof. destruct (f64_of_Z_exact 0) as [E F]; [lia|]. split; assumption. Qed.

Section Ieee.
Variable M : libm.
Notation A := (ieee M).

Lemma unroll_phase_ieee : forall p : f64, is_finite p = true -> 0 <= B2R p < 2 -> phase64 (unroll_phase A p).
Proof.
  intros p F H. unfold unroll_phase, t_one, t_zero. cbn [ieee t_le t_lt t_sub t_add t_of_Z]. destruct one_val as [E1 F1]. destruct zero_val as [E0 F0].
  destruct (f64_le (f64_of_Z 1) p) eqn:C.
  - apply f64_le_R in C; [|assumption|assumption]. rewrite E1 in C. destruct (sub_exact p (f64_of_Z 1)) as [F2 E2]; try assumption; try (rewrite E1; lra).
    { rewrite Rabs_pos_eq by lra. apply Rle_trans with 2; [lra|]. change 2 with (bpow radix2 1). apply bpow_le. lia. }
    split; [exact F2|]. rewrite E2, E1. lra.
  - assert (B2R p < 1). { destruct (Rlt_le_dec (B2R p) 1) as [L|L]; [exact L|]. rewrite <- E1 in L. apply f64_le_R in L; [congruence|assumption|assumption]. }
    destruct (f64_lt p (f64_of_Z 0)) eqn:C0; [|split; [exact F|lra]]. apply f64_lt_R in C0; [|assumption|assumption]. rewrite E0 in C0. lra.
Qed.

Lemma unroll_unbounded_ieee : forall p : f64, is_finite p = true -> 0 <= B2R p -> B2R p <= bpow radix2 1000 -> phase64 (unroll_unbounded A p).
Proof.
  intros p F H B. unfold unroll_unbounded, t_one, t_zero. cbn [ieee t_rem1 t_lt t_add t_of_Z]. destruct zero_val as [E0 F0].
  assert (Q : phase64 (f64_rem1 p)).
  { unfold f64_rem1, f64_trunc. pose proof (Bnearbyint_correct 53 1024 f64_emax mode_ZR p) as (T1 & T2 & _). cbn [round_mode] in T1.
    change (round radix2 (FIX_exp 0) Ztrunc (B2R p)) with (F2R (Float radix2 (Ztrunc (B2R p * bpow radix2 (- 0))) 0)) in T1. unfold F2R in T1. cbn [Fnum Fexp bpow Z.opp] in T1. rewrite !Rmult_1_r in T1.
    rewrite F in T2. pose proof (frac_range (B2R p) H) as R. set (z := Ztrunc (B2R p)) in *. assert (Hz : (0 <= z)%Z) by (unfold z; rewrite Ztrunc_floor by exact H; apply Zfloor_lub; exact H).
    destruct (Z.eq_dec z 0) as [Ez|Nz].
    - rewrite Ez in *. destruct (f64_sub_err p (Bnearbyint mode_ZR p) 1000 F T2 (eok 1000 ltac:(lia))) as (F3 & E3 & _ & _).
      { rewrite T1. rewrite Rabs_pos_eq by lra. lra. }
      split; [exact F3|]. rewrite E3, T1, Rminus_0_r, round_generic by (try apply valid_rnd_N; apply generic_format_B2R). lra.
    - assert (1 <= IZR z) by (apply IZR_le; lia). destruct (sub_exact p (Bnearbyint mode_ZR p) F T2) as [F3 E3]; rewrite ?T1; try lra; [rewrite Rabs_pos_eq by lra; exact B|].
      split; [exact F3|]. rewrite E3, T1. lra. }
  destruct (f64_lt (f64_rem1 p) (f64_of_Z 0)) eqn:C; [|exact Q]. destruct Q as [Q1 Q2]. apply f64_lt_R in C; [|assumption|assumption]. rewrite E0 in C. lra.
Qed.

(** tables have 2^k entries (2048 and 8192 in the code) *)
Definition wave64 {X} (w : list X) : Prop := exists k, (0 <= k <= 40)%Z /\ Z.of_nat (length w) = (2 ^ k)%Z.

Lemma table_ieee : forall (w : list f32) p, wave64 w -> phase64 p -> exists v, table_sample A w p = Ok v.
Proof.
  intros w p (k & Hk & Hw) [F [H0 H1]]. unfold table_sample. cbn [ieee t_mul t_of_Z t_floor t_to_Z t_sub v_of_t v_fma v_sub v_mul].
  assert (Hb : (2 ^ k <= 2 ^ 40)%Z) by (apply Z.pow_le_mono_r; lia). assert (Hp : (0 < 2 ^ k)%Z) by (apply Z.pow_pos_nonneg; lia).
  destruct (f64_of_Z_exact (Z.of_nat (length w))) as [E1 F1]; [rewrite Hw; change (2 ^ 40)%Z with 1099511627776%Z in Hb; lia|].
  assert (Ek : IZR (2 ^ k) = bpow radix2 k) by (rewrite <- IZR_Zpower by lia; reflexivity). rewrite Hw, Ek in E1. rewrite Hw in F1. rewrite Hw.
  assert (Pk : 0 < bpow radix2 k) by apply bpow_gt_0.
  destruct (f64_mul_err p (f64_of_Z (2 ^ k)) 40 F F1 (eok 40 ltac:(lia))) as (F2 & E2 & _ & _).
  { rewrite E1. rewrite Rabs_pos_eq by nra. assert (bpow radix2 k <= bpow radix2 40) by (apply bpow_le; lia). nra. }
  rewrite E1 in E2. rewrite round_generic in E2; [|apply valid_rnd_N|apply (mult_bpow_pos_exact_FLT radix2 (3 - 1024 - 53) 53); [apply generic_format_B2R|lia]].
  set (x := f64_mul p (f64_of_Z (2 ^ k))) in *. destruct (floor_val 53 1024 f64_emax x) as [E3 F3]. rewrite F2 in F3. unfold f64_floor.
  assert (Hx : 0 <= B2R x < IZR (2 ^ k)) by (rewrite E2, Ek; split; nra).
  assert (Z0 : (0 <= Zfloor (B2R x))%Z) by (apply Zfloor_lub; exact (proj1 Hx)). assert (Z1 : (Zfloor (B2R x) < 2 ^ k)%Z) by (apply lt_IZR; eapply Rle_lt_trans; [apply Zfloor_lb|exact (proj2 Hx)]).
  rewrite f64_to_usize_val by exact F3. rewrite E3, Ztrunc_IZR, Z.max_r, Z.min_r by (try exact Z0; change (2 ^ 40)%Z with 1099511627776%Z in Hb; lia).
  unfold index. destruct (nth_error w (Z.to_nat (Zfloor (B2R x)))) as [a|] eqn:Ea; [|apply nth_error_None in Ea; lia]. cbn [from_option bind].
  match goal with |- context [nth_error w (Z.to_nat ?z)] => assert (B : (0 <= z < 2 ^ k)%Z) by (destruct (Z.eqb_spec (Zfloor (B2R x) + 1) (2 ^ k)); lia) end.
  match goal with |- context [nth_error w ?j] => destruct (nth_error w j) as [b|] eqn:Eb; [|apply nth_error_None in Eb; lia] end. cbn [from_option bind]. eexists; reflexivity.
Qed.

Variable sr : f32.
Hypothesis Hsr : rate_ok sr.
Let S := B2R (f64_of_f32 sr).
(** exp2 of numbers in the range of detune/1200 is a finite number that is not negative (and has at least a few correct bits) *)
Hypothesis Hexp2 : forall x : f64, is_finite x = true -> Rabs (B2R x) <= 128 -> is_finite (m64_exp2 M x) = true /\ 0 <= B2R (m64_exp2 M x) <= bpow radix2 129.

(** frequencies: finite and not negative; detune: in the nominal range of the parameter *)
Definition freq_ok (f d : f32) : Prop := is_finite f = true /\ 0 <= B2R f /\ is_finite d = true /\ Rabs (B2R d) <= 153600.

Lemma freq_val : forall f d, freq_ok f d -> is_finite (computed_freq A f d) = true /\ 0 <= B2R (computed_freq A f d) <= bpow radix2 257.
Proof.
  intros f d (F1 & P1 & F2 & B2). unfold computed_freq. cbn [ieee t_mul t_of_v t_exp2 t_div t_of_Z]. destruct (f64_of_f32_val f F1) as [E1 G1]. destruct (f64_of_f32_val d F2) as [E2 G2].
  destruct (f64_of_Z_exact 1200) as [E3 G3]; [lia|]. apply Rabs_le_inv in B2.
  destruct (div_between 53 1024 f64_prec f64_emax (f64_of_f32 d) (f64_of_Z 1200) (-128) 128 G2) as (F4 & _ & B4); [rewrite E3; lra|lia|lia|rewrite E2, E3; lra|].
  destruct (Hexp2 (f64_div (f64_of_f32 d) (f64_of_Z 1200)) F4) as [F5 B5]; [apply Rabs_le; exact B4|].
  set (y := m64_exp2 M _) in *. pose proof (f32_bound f) as Bf. rewrite Rabs_pos_eq in Bf by exact P1.
  assert (B6 : 0 <= B2R (f64_of_f32 f) * B2R y <= bpow radix2 257). { rewrite E1. split; [nra|]. change 257%Z with (128 + 129)%Z. rewrite bpow_plus. apply Rmult_le_compat; lra. }
  destruct (f64_mul_err (f64_of_f32 f) y 257 G1 F5 (eok 257 ltac:(lia))) as (F7 & E7 & _ & B7); [rewrite Rabs_pos_eq by lra; lra|].
  split; [exact F7|]. apply Rabs_le_inv in B7. split; [|lra]. rewrite E7. rewrite <- (rnd_0 53 1024). apply rnd_mono; [exact f64_prec|lra].
Qed.

Let incr f d := t_div A (computed_freq A f d) (t_of_v A sr).
Let outside f d := t_le A (t_div A (t_of_v A sr) (t_of_Z A 2)) (t_abs A (computed_freq A f d)).

Lemma incr_val : forall f d, freq_ok f d -> is_finite (incr f d) = true /\ 0 <= B2R (incr f d) <= bpow radix2 257 /\ (outside f d = false -> B2R (incr f d) <= / 2).
Proof.
  intros f d H. destruct (freq_val f d H) as [F1 B1]. pose proof (S_range sr Hsr) as R. fold S in R. pose proof (S_finite sr Hsr) as F2. pose proof (S_inv sr Hsr) as I. fold S in I.
  unfold incr, outside. cbn [ieee t_div t_of_v t_le t_abs t_of_Z]. set (x := computed_freq A f d) in *.
  assert (B : 0 <= B2R x / S <= bpow radix2 257). { unfold Rdiv. split; [nra|]. assert (0 < bpow radix2 257) by apply bpow_gt_0. nra. }
  destruct (f64_div_err x (f64_of_f32 sr) 257 F1) as (F3 & E3 & _ & B3); [fold S; lra|apply eok; lia|fold S; rewrite Rabs_pos_eq; lra|]. fold S in E3.
  split; [exact F3|]. split; [apply Rabs_le_inv in B3; split; [rewrite E3, <- (rnd_0 53 1024); apply rnd_mono; [exact f64_prec|lra]|lra]|].
  intros Ho. destruct (f64_of_Z_exact 2) as [E4 F4]; [lia|].
  destruct (f64_div_err (f64_of_f32 sr) (f64_of_Z 2) 20 F2) as (F5 & E5 & _ & _); [rewrite E4; lra|apply eok; lia|rewrite E4; fold S; rewrite Rabs_pos_eq by lra; change (bpow radix2 20) with 1048576; lra|].
  rewrite E4 in E5. fold S in E5.
  assert (N : B2R x <= B2R (f64_div (f64_of_f32 sr) (f64_of_Z 2))).
  { destruct (Rle_lt_dec (B2R x) (B2R (f64_div (f64_of_f32 sr) (f64_of_Z 2)))) as [L|L]; [exact L|]. assert (L2 : f64_le (f64_div (f64_of_f32 sr) (f64_of_Z 2)) (f64_abs x) = true); [|congruence].
    unfold f64_abs. apply f64_le_R; [exact F5|rewrite is_finite_Babs; exact F1|]. rewrite B2R_Babs, Rabs_pos_eq by lra. lra. }
  assert (H2 : B2R (f64_div (f64_of_f32 sr) (f64_of_Z 2)) = S / 2).
  { rewrite E5. apply round_generic; [apply valid_rnd_N|]. unfold Rdiv. change (/ 2) with (bpow radix2 (-1)). apply (mult_bpow_exact_FLT radix2 (3 - 1024 - 53) 53); [apply generic_format_B2R|].
    assert (1 <= mag radix2 S)%Z; [|lia]. apply mag_ge_bpow. change (bpow radix2 (1 - 1)) with 1. rewrite Rabs_pos_eq; lra. }
  rewrite H2 in N. rewrite E3.
  assert (Hh : format64 (/ 2)). { change (/ 2) with (bpow radix2 (-1)). apply generic_format_bpow. cbn; lia. }
  rewrite <- (round_generic radix2 (SpecFloat.fexp 53 1024) ZnearestE (/ 2) Hh). apply rnd_mono; [exact f64_prec|].
  apply Rmult_le_reg_r with S; [lra|]. unfold Rdiv. rewrite Rmult_assoc, Rinv_l by lra. lra.
Qed.

Lemma step_ieee : forall p f d, phase64 p -> freq_ok f d -> phase64 (unroll A (outside f d) (t_add A p (incr f d))).
Proof.
  intros p f d [F [P0 P1]] H. destruct (incr_val f d H) as (F1 & [B0 B1] & Hh). cbn [ieee t_add].
  assert (Big : bpow radix2 257 + 1 <= bpow radix2 258) by (change 258%Z with (1 + 257)%Z; rewrite bpow_plus; change (bpow radix2 1) with 2; assert (1 <= bpow radix2 257) by (change 1 with (bpow radix2 0); apply bpow_le; lia); lra).
  destruct (f64_add_err p (incr f d) 258 F F1 (eok 258 ltac:(lia))) as (F2 & E2 & _ & B2); [rewrite Rabs_pos_eq by lra; lra|].
  assert (N : 0 <= B2R (f64_add p (incr f d))) by (rewrite E2, <- (rnd_0 53 1024); apply rnd_mono; [exact f64_prec|lra]).
  unfold unroll. destruct (outside f d).
  - apply unroll_unbounded_ieee; [exact F2|exact N|]. apply Rabs_le_inv in B2. eapply Rle_trans; [exact (proj2 B2)|]. apply bpow_le. lia.
  - specialize (Hh eq_refl). apply unroll_phase_ieee; [exact F2|]. split; [exact N|].
    destruct (f64_add_err p (incr f d) 1 F F1 (eok 1 ltac:(lia))) as (_ & _ & E3 & _); [rewrite Rabs_pos_eq by lra; change (bpow radix2 1) with 2; lra|].
    apply Rabs_le_inv in E3. change (bpow radix2 (1 - 53)) with (/ 4503599627370496) in E3. lra.
Qed.

Definition time_ok (t : f64) : Prop := is_finite t = true.
Definition near64 (start t : f64) : Prop := B2R t - B2R start <= B2R (dt A sr) + bpow radix2 (-28).

Lemma dt_pos : bpow radix2 (-20) <= B2R (dt A sr).
Proof. destruct (dt_ieee M sr Hsr) as (_ & Ab & _). pose proof (S_inv sr Hsr) as I. apply Rabs_le_inv in Ab. change (bpow radix2 (-64)) with (/ 18446744073709551616) in Ab. change (bpow radix2 (-20)) with (/ 1048576). lra. Qed.

Lemma near_phase : forall (t start : f64) f d, is_finite t = true -> is_finite start = true -> freq_ok f d -> near64 start t -> B2R start < B2R t ->
  phase64 (unroll A (outside f d) (t_mul A (incr f d) (t_div A (t_sub A t start) (dt A sr)))).
Proof.
  intros t start f d Ft Fs Hf N L. destruct (incr_val f d Hf) as (F1 & [B0 B1] & Hh). destruct (dt_ieee M sr Hsr) as (Fd & _ & [D0 D1]). pose proof dt_pos as D2. unfold near64 in N.
  change (bpow radix2 (-28)) with (/ 268435456) in N. change (bpow radix2 (-20)) with (/ 1048576) in D2. cbn [ieee t_sub t_div t_mul].
  set (D := B2R (dt A sr)) in *.
  destruct (f64_sub_err t start (-10) Ft Fs (eok (-10) ltac:(lia))) as (F2 & E2 & A2 & _); [rewrite Rabs_pos_eq by lra; change (bpow radix2 (-10)) with (/ 1024); lra|].
  assert (P2 : 0 <= B2R (f64_sub t start)) by (rewrite E2, <- (rnd_0 53 1024); apply rnd_mono; [exact f64_prec|lra]).
  apply Rabs_le_inv in A2. change (bpow radix2 (-10 - 53)) with (/ 9223372036854775808) in A2. set (x := f64_sub t start) in *.
  assert (Hx : B2R x <= D * (101 / 100)) by lra.
  assert (Hq : 0 <= B2R x / D <= 101 / 100). { split; [apply Rmult_le_pos; [exact P2|left; apply Rinv_0_lt_compat; lra]|]. apply Rmult_le_reg_r with D; [lra|]. unfold Rdiv. rewrite Rmult_assoc, Rinv_l by lra. lra. }
  destruct (f64_div_err x (dt A sr) 1 F2) as (F3 & E3 & A3 & _); [fold D; lra|apply eok; lia|fold D; rewrite Rabs_pos_eq by lra; change (bpow radix2 1) with 2; lra|]. fold D in E3, A3.
  assert (P3 : 0 <= B2R (f64_div x (dt A sr))) by (rewrite E3, <- (rnd_0 53 1024); apply rnd_mono; [exact f64_prec|lra]).
  apply Rabs_le_inv in A3. change (bpow radix2 (1 - 53)) with (/ 4503599627370496) in A3. set (q := f64_div x (dt A sr)) in *. assert (Hq2 : B2R q <= 2) by lra.
  assert (B4 : 0 <= B2R (incr f d) * B2R q <= bpow radix2 258). { split; [nra|]. change 258%Z with (257 + 1)%Z. rewrite bpow_plus. change (bpow radix2 1) with 2. apply Rmult_le_compat; lra. }
  destruct (f64_mul_err (incr f d) q 258 F1 F3 (eok 258 ltac:(lia))) as (F4 & E4 & _ & B5); [rewrite Rabs_pos_eq by lra; lra|].
  assert (P4 : 0 <= B2R (f64_mul (incr f d) q)) by (rewrite E4, <- (rnd_0 53 1024); apply rnd_mono; [exact f64_prec|lra]).
  unfold unroll. destruct (outside f d).
  - apply unroll_unbounded_ieee; [exact F4|exact P4|]. apply Rabs_le_inv in B5. eapply Rle_trans; [exact (proj2 B5)|]. apply bpow_le. lia.
  - specialize (Hh eq_refl). apply unroll_phase_ieee; [exact F4|]. split; [exact P4|].
    destruct (f64_mul_err (incr f d) q 0 F1 F3 (eok 0 ltac:(lia))) as (_ & _ & _ & A6); [rewrite Rabs_pos_eq by lra; change (bpow radix2 0) with 1; nra|].
    apply Rabs_le_inv in A6. change (bpow radix2 0) with 1 in A6. lra.
Qed.

Lemma osc_ieee : forall (table : list f32) ty (l : list (@osc_action f64 f32)), wave64 table -> ty <> Custom ->
  Forall (osc_action_ok A wave64 freq_ok time_ok) l -> IZR (128 * Z.of_nat (osc_quanta l)) / S <= 8388608 ->
  exists s f os, osc_run A sr table (osc_new A ty) 0 l = Ok (s, f, os) /\ phase64 (os_phase s) /\ length os = osc_quanta l /\ Forall (fun o => length (o_output o) = 128%nat) os.
Proof.
  intros table ty l Ht Hty Hl Hm.
  assert (He : forall k, (k < osc_quanta l)%nat -> early sr (0 + 128 * Z.of_nat k)).
  { intros k Hk. split; [lia|]. eapply Rle_trans; [|exact Hm]. pose proof (S_range sr Hsr). apply Rmult_le_compat_r; [left; apply Rinv_0_lt_compat; unfold S; lra|apply IZR_le; lia]. }
  destruct (run_ok A sr table phase64 wave64 freq_ok time_ok (early sr) near64) with (l := l) (s := osc_new A ty) (frame := 0%Z) as (s & f & os & E & G & L & F).
  - intros frame H. apply (block_ieee M sr Hsr frame H).
  - intros w p. apply table_ieee.
  - exact Ht.
  - exact step_ieee.
  - intros frame i start H Hi Ts C. destruct (advance_ieee M sr Hsr frame i H ltac:(lia)) as (F1 & A1 & _). destruct (advance_ieee M sr Hsr frame (Datatypes.S i) H ltac:(lia)) as (F2 & _ & _).
    cbn [ieee t_lt] in C. apply f64_lt_R in C; [|exact F1|exact Ts]. unfold near64. destruct (dt_ieee M sr Hsr) as (Fd & _ & [D0 D1]).
    assert (i <= 127)%nat by lia. assert (INR i <= 127) by (rewrite INR_IZR_INZ; apply IZR_le; lia). pose proof (pos_INR i). apply Rabs_le_inv in A1. change (bpow radix2 (-28)) with (/ 268435456) in A1.
    assert (T : 0 <= IZR (frame + Z.of_nat i) / B2R (f64_of_f32 sr) <= 8388608).
    { destruct H as [Ha Hb]. pose proof (S_range sr Hsr). split; [apply Rmult_le_pos; [apply (IZR_le 0); lia|left; apply Rinv_0_lt_compat; lra]|]. eapply Rle_trans; [|exact Hb]. apply Rmult_le_compat_r; [left; apply Rinv_0_lt_compat; lra|apply IZR_le; lia]. }
    cbn [ieee t_add]. destruct (f64_add_err (advance A sr i (block_time A sr frame)) (dt A sr) 24 F1 Fd (eok 24 ltac:(lia))) as (_ & _ & A3 & _).
    { change (bpow radix2 24) with 16777216. apply Rabs_le. lra. }
    apply Rabs_le_inv in A3. change (bpow radix2 (24 - 53)) with (/ 536870912) in A3. change (bpow radix2 (-28)) with (/ 268435456). lra.
  - intros frame start H Ts C. destruct (block_ieee M sr Hsr frame H) as (F1 & _ & _). destruct (dt_ieee M sr Hsr) as (Fd & _ & [D0 D1]). unfold near64. change (bpow radix2 (-28)) with (/ 268435456).
    assert (~ B2R start < B2R (block_time A sr frame)); [|lra]. intros C2. apply f64_lt_R in C2; [|exact Ts|exact F1]. cbn [ieee t_lt] in C. congruence.
  - intros frame i start f d H Hi Ts Hf N C. destruct (advance_ieee M sr Hsr frame i H ltac:(lia)) as (F1 & _ & _). cbn [ieee t_lt] in C. apply f64_lt_R in C; [|exact Ts|exact F1].
    apply near_phase; assumption.
  - intros frame i stop H Hi Tp C. destruct (advance_ieee M sr Hsr frame i H ltac:(lia)) as (F1 & A1 & _). destruct (advance_ieee M sr Hsr frame (Datatypes.S i) H ltac:(lia)) as (F2 & _ & _). rewrite advance_last in F2.
    destruct (dt_ieee M sr Hsr) as (Fd & _ & [D0 D1]). cbn [ieee t_le t_add] in *. apply f64_le_R; [exact Tp|exact F2|]. apply f64_le_R in C; [|exact Tp|exact F1]. eapply Rle_trans; [exact C|].
    apply rnd_grow; [exact F1|exact Fd|lra|]. change (bpow radix2 24) with 16777216. change (bpow radix2 (-28)) with (/ 268435456) in A1. apply Rabs_le_inv in A1.
    assert (INR i <= 127) by (rewrite INR_IZR_INZ; apply IZR_le; lia). pose proof (pos_INR i).
    assert (T : 0 <= IZR (frame + Z.of_nat i) / B2R (f64_of_f32 sr) <= 8388608).
    { destruct H as [Ha Hb]. pose proof (S_range sr Hsr). split; [apply Rmult_le_pos; [apply (IZR_le 0); lia|left; apply Rinv_0_lt_compat; lra]|]. eapply Rle_trans; [|exact Hb]. apply Rmult_le_compat_r; [left; apply Rinv_0_lt_compat; lra|apply IZR_le; lia]. }
    apply Rabs_le. lra.
  - intros frame H. destruct (block_ieee M sr Hsr frame H) as (F1 & _ & _). destruct (t_lt A _ _) eqn:C; [|reflexivity]. cbn [ieee t_lt] in C. apply f64_lt_R in C; [lra|exact F1|exact F1].
  - exact Hl.
  - apply good_new; [|reflexivity|exact Hty]. split; [reflexivity|]. change (B2R (t_zero A)) with 0. lra.
  - exact He.
  - exists s, f, os. split; [exact E|]. split; [apply G|]. split; assumption.
Qed.
End Ieee.
