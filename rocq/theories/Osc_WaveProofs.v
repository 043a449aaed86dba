(** Samples of a sine and of a triangle in floating point arithmetic. *)
From Coq Require Import List Arith Bool ZArith Reals Lra Lia.
From Flocq Require Import Core BinarySingleNaN Sterbenz Mult_error.
From Verif Require Import Float_Model Float_Proofs Float_BoundProofs Float_ErrorProofs Buffer_Model Buffer_ResampleProofs
  Common_Model Arith_Model Arith_Real Source_Model Source_Spec Source_Proofs Source_ClockProofs Osc_Proofs Osc_ExactProofs Osc_IeeeProofs Delay_IeeeProofs Osc_SoundSpec Osc_ToneProofs Osc_PhaseSpec Osc_PhaseProofs.
Import ListNotations.
Local Open Scope R_scope.

Section Wave.
Variable M : libm.
Notation A := (ieee M).
Notation zero32 := (B754_zero false : f32).

Definition unit32 (v : f32) : Prop := is_finite v = true /\ Rabs (B2R v) <= 1.

Lemma mix_ieee : forall (a b k : f32) u, unit32 a -> unit32 b -> is_finite k = true -> 0 <= B2R k <= 1 -> Rabs (B2R k - u) <= / 16777000 -> 0 <= u <= 1 ->
  Rabs (B2R (f32_fma a (f32_sub (f32_of_Z 1) k) (f32_mul b k)) - (B2R a + u * (B2R b - B2R a))) <= / 2097152.
Proof.
  intros a b k u [Fa Ba] [Fb Bb] Fk Bk Hu Bu. apply Rabs_le_inv in Ba, Bb, Hu.
  assert (E1 : B2R (f32_of_Z 1) = 1 /\ is_finite (f32_of_Z 1) = true). { pose proof (of_Z_exact 24 128 f32_prec f32_emax 1 ltac:(lia)) as E. exact E. }
  destruct E1 as [E1 F1].
  destruct (minus_err 24 128 f32_prec f32_emax (f32_of_Z 1) k 0 F1 Fk) as (F2 & _ & A2 & B2); [unfold exp_ok; lia|rewrite E1, Rabs_pos_eq by lra; change (bpow radix2 0) with 1; lra|].
  change (Bminus mode_NE (f32_of_Z 1) k) with (f32_sub (f32_of_Z 1) k) in *. set (c := f32_sub (f32_of_Z 1) k) in *. rewrite E1 in A2. change (bpow radix2 (0 - 24)) with (/ 16777216) in A2. change (bpow radix2 0) with 1 in B2.
  destruct (mult_err 24 128 f32_prec f32_emax b k 0 Fb Fk) as (F3 & _ & A3 & B3); [unfold exp_ok; lia|rewrite Rabs_mult, (Rabs_pos_eq (B2R k)) by lra; change (bpow radix2 0) with 1; assert (Rabs (B2R b) <= 1) by (apply Rabs_le; lra); pose proof (Rabs_pos (B2R b)); nra|].
  change (Bmult mode_NE b k) with (f32_mul b k) in *. set (m := f32_mul b k) in *. change (bpow radix2 (0 - 24)) with (/ 16777216) in A3. change (bpow radix2 0) with 1 in B3.
  apply Rabs_le_inv in A2, B2, A3, B3.
  assert (Bac : - 1 <= B2R a * B2R c <= 1) by (split; nra).
  destruct (fma_err 24 128 f32_prec f32_emax a c m 1 Fa F2 F3) as (F4 & _ & A4 & _); [unfold exp_ok; lia|change (bpow radix2 1) with 2; apply Rabs_le; lra|].
  change (Bfma mode_NE a c m) with (f32_fma a c m) in *. change (bpow radix2 (1 - 24)) with (/ 8388608) in A4. apply Rabs_le_inv in A4.
  set (r := f32_fma a c m) in *. clearbody r m c.
  set (x := B2R a) in *. set (y := B2R b) in *. set (kk := B2R k) in *. set (cc := B2R c) in *. set (mm := B2R m) in *. set (rr := B2R r) in *. clearbody x y kk cc mm rr.
  assert (H1 : - / 16777216 <= x * (cc - (1 - kk)) <= / 16777216) by (split; nra).
  assert (H2 : - (2 / 16777000) <= (kk - u) * (y - x) <= 2 / 16777000) by (split; nra).
  apply Rabs_le. replace (rr - (x + u * (y - x))) with ((rr - (x * cc + mm)) + x * (cc - (1 - kk)) + (mm - y * kk) + (kk - u) * (y - x)) by ring. lra.
Qed.

Lemma table_value : forall (table : list f32) p v, wave64 table -> Forall unit32 table -> phase64 p -> table_sample A table p = Ok v ->
  Rabs (B2R v - interp (map (@B2R 24 128) table) (B2R p)) <= / 2097152.
Proof.
  intros w p v (k & Hk & Hw) Hu [F [H0 H1]]. unfold table_sample. cbn [ieee t_mul t_of_Z t_floor t_to_Z t_sub v_of_t v_fma v_sub v_mul].
  assert (Hb : (2 ^ k <= 2 ^ 40)%Z) by (apply Z.pow_le_mono_r; lia). assert (Hp : (0 < 2 ^ k)%Z) by (apply Z.pow_pos_nonneg; lia).
  destruct (f64_of_Z_exact (Z.of_nat (length w))) as [E1 F1]; [rewrite Hw; change (2 ^ 40)%Z with 1099511627776%Z in Hb; lia|].
  assert (Ek : IZR (2 ^ k) = bpow radix2 k) by (rewrite <- IZR_Zpower by lia; reflexivity). rewrite Hw, Ek in E1. rewrite Hw in F1. rewrite Hw.
  assert (Pk : 0 < bpow radix2 k) by apply bpow_gt_0.
  destruct (f64_mul_err p (f64_of_Z (2 ^ k)) 40 F F1 (eok 40 ltac:(lia))) as (F2 & E2 & _ & _).
  { rewrite E1. rewrite Rabs_pos_eq by nra. assert (bpow radix2 k <= bpow radix2 40) by (apply bpow_le; lia). nra. }
  rewrite E1 in E2. rewrite round_generic in E2; [|apply valid_rnd_N|apply (mult_bpow_pos_exact_FLT radix2 (3 - 1024 - 53) 53); [apply generic_format_B2R|lia]].
  set (x := f64_mul p (f64_of_Z (2 ^ k))) in *. destruct (floor_val 53 1024 f64_emax x) as [E3 F3]. rewrite F2 in F3. unfold f64_floor.
  assert (Hx : 0 <= B2R x < IZR (2 ^ k)) by (rewrite E2, Ek; split; nra).
  assert (Z0 : (0 <= Zfloor (B2R x))%Z) by (apply Zfloor_lub; exact (proj1 Hx)). assert (Z1 : (Zfloor (B2R x) < 2 ^ k)%Z) by (apply lt_IZR; eapply Rle_lt_trans; [apply Zfloor_lb|exact (proj2 Hx)]).
  rewrite f64_to_usize_val by exact F3. rewrite E3, Ztrunc_IZR, Z.max_r, Z.min_r by (try exact Z0; change (2 ^ 40)%Z with 1099511627776%Z in Hb; lia).
  pose proof (Zfloor_lb (B2R x)) as L1. pose proof (Zfloor_ub (B2R x)) as L2.
  destruct (f64_sub_err x (Bnearbyint mode_DN x) 0 F2 F3 (eok 0 ltac:(lia))) as (F4 & E4 & A4 & _); [rewrite E3, Rabs_pos_eq by lra; change (bpow radix2 0) with 1; lra|]. rewrite E3 in E4, A4.
  set (k64 := f64_sub x (Bnearbyint mode_DN x)) in *.
  assert (R64 : 0 <= B2R k64 <= 1) by (rewrite E4; apply (rnd_between 53 1024 f64_prec 0 1); [apply generic_format_0|apply (format_int 53 1024 f64_prec f64_emax 1); lia|lra]).
  destruct (f32_of_f64_err k64 0 F4) as (F5 & E5 & A5 & _); [unfold exp_ok; lia|rewrite Rabs_pos_eq by lra; change (bpow radix2 0) with 1; lra|]. set (k32 := f32_of_f64 k64) in *.
  assert (R32 : 0 <= B2R k32 <= 1) by (rewrite E5; apply (rnd_between 24 128 f32_prec 0 1); [apply generic_format_0|apply (format_int 24 128 f32_prec f32_emax 1); lia|lra]).
  change (bpow radix2 (0 - 53)) with (/ 9007199254740992) in A4. change (bpow radix2 (0 - 24)) with (/ 16777216) in A5. apply Rabs_le_inv in A4, A5.
  unfold index. destruct (nth_error w (Z.to_nat (Zfloor (B2R x)))) as [a|] eqn:Ea; [|discriminate]. cbn [from_option bind].
  match goal with |- context [nth_error w ?j] => destruct (nth_error w j) as [b|] eqn:Eb; [|discriminate] end. cbn [from_option bind].
  change (v_one A) with (f32_of_Z 1). intros E. injection E as <-.
  rewrite Forall_forall in Hu. pose proof (Hu a (nth_error_In _ _ Ea)) as Ua. pose proof (Hu b (nth_error_In _ _ Eb)) as Ub.
  assert (Ln : INR (length w) = bpow radix2 k) by (rewrite INR_IZR_INZ, Hw; exact Ek).
  replace (interp (map (@B2R 24 128) w) (B2R p)) with (B2R a + (B2R x - IZR (Zfloor (B2R x))) * (B2R b - B2R a)).
  { apply mix_ieee; [exact Ua|exact Ub|exact F5|exact R32|apply Rabs_le; lra|lra]. }
  unfold interp. cbv zeta. assert (Lm : length (map (@B2R 24 128) w) = length w) by apply map_length. rewrite Lm, Ln, <- E2. set (j := Z.to_nat (Zfloor (B2R x))) in *. assert (Ej : Zfloor (B2R x) = Z.of_nat j) by (unfold j; rewrite Z2Nat.id by exact Z0; reflexivity).
  rewrite INR_IZR_INZ, <- Ej.
  assert (Na : nth j (map (@B2R 24 128) w) 0 = B2R a). { apply nth_error_nth. exact (map_nth_error (@B2R 24 128) j w Ea). }
  assert (Nb : nth ((j + 1) mod length w) (map (@B2R 24 128) w) 0 = B2R b). { apply nth_error_nth. replace ((j + 1) mod length w)%nat with (Z.to_nat (if Zfloor (B2R x) + 1 =? 2 ^ k then 0 else Zfloor (B2R x) + 1)%Z); [exact (map_nth_error (@B2R 24 128) _ w Eb)|].
    destruct (Z.eqb_spec (Zfloor (B2R x) + 1) (2 ^ k)) as [Q|Q].
    - replace (j + 1)%nat with (length w) by lia. rewrite Nat.mod_same by lia. reflexivity.
    - rewrite Nat.mod_small by lia. lia. }
  rewrite Na, Nb. reflexivity.
Qed.

Lemma sin_lipschitz : forall a b, Rabs (sin b - sin a) <= Rabs (b - a).
Proof.
  intros a b. pose proof (cos_lipschitz (PI / 2 - a) (PI / 2 - b)) as C. rewrite !cos_shift in C. replace (PI / 2 - b - (PI / 2 - a)) with (- (b - a)) in C by ring. rewrite Rabs_Ropp in C. exact C.
Qed.

Lemma sine_value : forall (table : list f32) e n x p v, length table = Z.to_nat 2048 -> Forall unit32 table -> (forall k, (k < length table)%nat -> Rabs (B2R (nth k table zero32) - sin (2 * PI * INR k / 2048)) <= e) ->
  follows n x p -> table_sample A table p = Ok v -> Rabs (B2R v - sin (2 * PI * x)) <= 25 / 10000000 + e + 8 * INR n * bpow radix2 (-51).
Proof.
  intros table e n x p v L U He [Hp [z Hz]] Ev. assert (W : wave64 table). { exists 11%Z. split; [lia|]. rewrite L, Z2Nat.id by lia. reflexivity. }
  pose proof (table_value table p v W U Hp Ev) as H1. destruct Hp as [Fp Bp].
  assert (Lm : length (map (@B2R 24 128) table) = length table) by apply map_length.
  assert (LR : INR (length (map (@B2R 24 128) table)) = 2048) by (rewrite Lm, L, INR_IZR_INZ, Z2Nat.id by lia; reflexivity).
  pose proof (interp_sine (map (@B2R 24 128) table) e (B2R p)) as H2. rewrite LR in H2. rewrite Lm in H2.
  assert (H3 : Rabs (interp (map (@B2R 24 128) table) (B2R p) - sin (2 * PI * B2R p)) <= (2 * PI / 2048)² / 8 + e).
  { apply H2; [intros C; rewrite C in LR; cbn in LR; lra| |exact Bp]. intros k Hk. change 0 with (B2R zero32). pose proof (map_nth (@B2R 24 128) table zero32 k) as Q. rewrite Q. apply He. exact Hk. }
  assert (H4 : Rabs (sin (2 * PI * B2R p) - sin (2 * PI * x)) <= 2 * PI * (INR n * bpow radix2 (-51))).
  { rewrite <- (sin_turns (2 * PI * B2R p) z). eapply Rle_trans; [apply sin_lipschitz|]. replace (2 * PI * B2R p + 2 * PI * IZR z - 2 * PI * x) with (2 * PI * (B2R p + IZR z - x)) by ring. rewrite Rabs_mult. pose proof PI_RGT_0. rewrite (Rabs_pos_eq (2 * PI)) by lra. apply Rmult_le_compat_l; [lra|exact Hz]. }
  assert (H5 : (2 * PI / 2048)² / 8 <= 2 / 1000000). { unfold Rsqr. pose proof PI_4. pose proof PI_RGT_0. assert (0 <= 2 * PI / 2048 <= 8 / 2048) by lra. set (y := 2 * PI / 2048) in *. clearbody y. nra. }
  assert (H6 : 2 * PI * (INR n * bpow radix2 (-51)) <= 8 * INR n * bpow radix2 (-51)).
  { rewrite (Rmult_assoc 8). assert (0 <= INR n * bpow radix2 (-51)) by (apply Rmult_le_pos; [apply pos_INR|apply bpow_ge_0]). apply Rmult_le_compat_r; [assumption|]. pose proof PI_4. lra. }
  apply Rabs_le_inv in H1, H3, H4. apply Rabs_le. lra.
Qed.

(** the fold of the triangle *)
Lemma fold_close : forall (s : f64) y, is_finite s = true -> Rabs (B2R s - y) <= / 1000000000 -> -2 <= y <= 2 ->
  let r := if f64_lt (f64_of_Z 1) s then f64_sub (f64_of_Z 2) s else if f64_lt s (f64_of_Z (-1)) then f64_sub (f64_of_Z (-2)) s else s in
  is_finite r = true /\ Rabs (B2R r - (if Rlt_dec 1 y then 2 - y else if Rlt_dec y (-1) then -2 - y else y)) <= 4 / 1000000000.
Proof.
  intros s y F H Hy r. apply Rabs_le_inv in H. destruct (f64_of_Z_exact 1) as [E1 F1]; [lia|]. destruct (f64_of_Z_exact 2) as [E2 F2]; [lia|]. destruct (f64_of_Z_exact (-1)) as [E3 F3]; [lia|]. destruct (f64_of_Z_exact (-2)) as [E4 F4]; [lia|].
  unfold r. clear r. destruct (f64_lt (f64_of_Z 1) s) eqn:C1.
  - apply f64_lt_R in C1; [|assumption|assumption]. rewrite E1 in C1. destruct (f64_sub_err (f64_of_Z 2) s 1 F2 F (eok 1 ltac:(lia))) as (F5 & _ & A5 & _); [rewrite E2; change (bpow radix2 1) with 2; apply Rabs_le; lra|].
    rewrite E2 in A5. change (bpow radix2 (1 - 53)) with (/ 4503599627370496) in A5. apply Rabs_le_inv in A5. split; [exact F5|]. apply Rabs_le. destruct (Rlt_dec 1 y); [lra|]. destruct (Rlt_dec y (-1)); lra.
  - assert (C1' : ~ 1 < B2R s) by (intros C; rewrite <- E1 in C; apply f64_lt_R in C; [congruence|assumption|assumption]). destruct (f64_lt s (f64_of_Z (-1))) eqn:C2.
    + apply f64_lt_R in C2; [|assumption|assumption]. rewrite E3 in C2. destruct (f64_sub_err (f64_of_Z (-2)) s 1 F4 F (eok 1 ltac:(lia))) as (F5 & _ & A5 & _); [rewrite E4; change (bpow radix2 1) with 2; apply Rabs_le; lra|].
      rewrite E4 in A5. change (bpow radix2 (1 - 53)) with (/ 4503599627370496) in A5. apply Rabs_le_inv in A5. split; [exact F5|]. apply Rabs_le. destruct (Rlt_dec 1 y); [lra|]. destruct (Rlt_dec y (-1)); lra.
    + assert (C2' : ~ B2R s < -1) by (intros C; rewrite <- E3 in C; apply f64_lt_R in C; [congruence|assumption|assumption]). split; [exact F|]. apply Rabs_le. destruct (Rlt_dec 1 y); [lra|]. destruct (Rlt_dec y (-1)); lra.
Qed.

Lemma triangle_range : forall p, 0 <= p < 1 -> -1 <= triangle p <= 1.
Proof. intros p H. unfold triangle. destruct (Rlt_dec p (/ 4)); [lra|]. destruct (Rle_dec p (3 / 4)); lra. Qed.

Lemma triangle_sample_value : forall p, phase64 p -> Rabs (B2R (triangle_sample A p) - triangle (B2R p)) <= / 8000000.
Proof.
  intros p [F [P0 P1]]. unfold triangle_sample. change (t_one A) with (f64_of_Z 1). cbn [ieee t_mul t_add t_sub t_lt t_of_Z v_of_t]. destruct (f64_of_Z_exact (-4)) as [E1 F1]; [lia|]. destruct (f64_of_Z_exact 2) as [E2 F2]; [lia|].
  destruct (f64_mul_err (f64_of_Z (-4)) p 2 F1 F (eok 2 ltac:(lia))) as (F3 & _ & A3 & _); [rewrite E1; change (bpow radix2 2) with 4; apply Rabs_le; lra|]. rewrite E1 in A3. change (bpow radix2 (2 - 53)) with (/ 2251799813685248) in A3. apply Rabs_le_inv in A3.
  destruct (f64_add_err (f64_mul (f64_of_Z (-4)) p) (f64_of_Z 2) 2 F3 F2 (eok 2 ltac:(lia))) as (F4 & _ & A4 & _); [rewrite E2; change (bpow radix2 2) with 4; apply Rabs_le; lra|]. rewrite E2 in A4. change (bpow radix2 (2 - 53)) with (/ 2251799813685248) in A4. apply Rabs_le_inv in A4.
  set (s := f64_add _ _) in *. destruct (fold_close s (2 - 4 * B2R p) F4) as [F5 A5]; [apply Rabs_le; lra|lra|]. cbv zeta in F5, A5. set (r := if f64_lt (f64_of_Z 1) s then _ else _) in *.
  assert (Et : (if Rlt_dec 1 (2 - 4 * B2R p) then 2 - (2 - 4 * B2R p) else if Rlt_dec (2 - 4 * B2R p) (-1) then -2 - (2 - 4 * B2R p) else 2 - 4 * B2R p) = triangle (B2R p)).
  { unfold triangle. destruct (Rlt_dec 1 _); destruct (Rlt_dec (B2R p) (/ 4)); try lra. destruct (Rlt_dec _ (-1)); destruct (Rle_dec _ _); lra. }
  rewrite Et in A5. pose proof (triangle_range (B2R p) (conj P0 P1)) as B. apply Rabs_le_inv in A5.
  destruct (f32_of_f64_err r 1 F5) as (_ & _ & A6 & _); [unfold exp_ok; lia|change (bpow radix2 1) with 2; apply Rabs_le; lra|]. change (bpow radix2 (1 - 24)) with (/ 8388608) in A6. apply Rabs_le_inv in A6. apply Rabs_le. lra.
Qed.

Lemma triangle_near : forall p q (z : Z) e, 0 <= p < 1 -> 0 <= q < 1 -> Rabs (p + IZR z - q) <= e -> Rabs (triangle p - triangle q) <= 4 * e.
Proof.
  intros p q z e Hp Hq H. pose proof (triangle_range p Hp) as B1. pose proof (triangle_range q Hq) as B2. apply Rabs_le_inv in H. apply Rabs_le.
  destruct (Rle_lt_dec (/ 2) e) as [L|L]; [lra|].
  assert (Z1 : (-2 < z < 2)%Z) by (split; apply lt_IZR; lra).
  assert (C : z = (-1)%Z \/ z = 0%Z \/ z = 1%Z) by lia. unfold triangle in *.
  destruct C as [-> |[-> | ->]]; destruct (Rlt_dec p (/ 4)), (Rlt_dec q (/ 4)); try lra; destruct (Rle_dec p (3 / 4)); try lra; destruct (Rle_dec q (3 / 4)); lra.
Qed.

Lemma triangle_value : forall n x p, follows n x p -> Rabs (B2R (triangle_sample A p) - triangle (x - IZR (Zfloor x))) <= / 8000000 + 4 * (INR n * bpow radix2 (-51)).
Proof.
  intros n x p [Hp [z Hz]]. pose proof (triangle_sample_value p Hp) as H1. assert (Hq : 0 <= x - IZR (Zfloor x) < 1) by (pose proof (Zfloor_lb x); pose proof (Zfloor_ub x); lra).
  pose proof (triangle_near (B2R p) (x - IZR (Zfloor x)) (z - Zfloor x) (INR n * bpow radix2 (-51)) (proj2 Hp) Hq) as H2. rewrite minus_IZR in H2. replace (B2R p + (IZR z - IZR (Zfloor x)) - (x - IZR (Zfloor x))) with (B2R p + IZR z - x) in H2 by ring. specialize (H2 Hz).
  apply Rabs_le_inv in H1, H2. apply Rabs_le. lra.
Qed.
End Wave.
