(** The IEEE instance of the AudioParam model satisfies the assumptions of the generic proofs. *)
From Coq Require Import List Arith Bool ZArith Lia Reals Lra.
From Flocq Require Import Core BinarySingleNaN Relative.
From Verif Require Import Float_Model Float_Proofs Param_Model Param_Inst Param_Spec.
Local Open Scope R_scope.

(** A decidable condition: the clock resolves the frames of the quantum *)
Definition grid (time dt : f64) (count : nat) : bool :=
  let next := f64_fma dt (f64_of_Z (Z.of_nat count)) time in
  f64_is_finite time && f64_is_finite dt && f64_is_finite next && f64_lt f64_zero dt &&
  Nat.eqb (Z.to_nat (Z.min (f64_to_usize (f64_round (f64_div (f64_max (f64_sub next time) f64_zero) dt))) (Z.of_nat count))) count.

Section Ieee.
Variable f64_exp : f64 -> f64.
Variable f32_powf : f32 -> f32 -> f32.
Notation P := (ieee_ops f64_exp f32_powf).
Definition not_nan (x : f64) : Prop := is_nan x = false.

Notation val64 := (val 53 1024).
Notation val32 := (val 24 128).

Lemma ieee_time_order : time_order P not_nan.
Proof.
  unfold not_nan. constructor; cbn.
  - intros x y Hx Hy. destruct (Rle_lt_dec (val64 x) (val64 y)) as [H|H]; [left|right]; apply le_val; try assumption; lra.
  - intros x y z Hx Hy Hz H1 H2. apply le_val in H1; try assumption. apply le_val in H2; try assumption. apply le_val; try assumption. lra.
  - intros x y Hx Hy. unfold f64_lt, f64_le. destruct (Bleb y x) eqn:E.
    + apply le_val in E; try assumption. apply lt_val_false; assumption.
    + apply le_val_false in E; try assumption. apply lt_val; assumption.
  - intros x H. apply finite_not_nan. exact H.
  - reflexivity.
  - intros x y Hx Hy _. apply plus_not_nan; assumption.
Qed.

Lemma ieee_value_order : value_order P.
Proof.
  constructor; cbn; unfold f32_is_nan, f32_is_finite, f32_lt, f32_max, f32_min, f32_is_nan, f32_lt.
  - intros x lo Hx Hl. rewrite Hx, Hl. destruct (Bltb x lo) eqn:E; (split; [assumption|]); [apply lt_val_false; try assumption; lra|exact E].
  - intros x hi Hx Hh. rewrite Hx, Hh. destruct (Bltb hi x) eqn:E; (split; [assumption|]); [apply lt_val_false; try assumption; lra|exact E].
  - intros x lo hi Hx Hl Hh H1 H2. rewrite Hx, Hh. destruct (Bltb hi x); assumption.
  - intros x H. apply finite_not_nan. exact H.
Qed.

Lemma ieee_to_nat_le : forall x n, (t_to_nat P x n <= n)%nat.
Proof. intros. cbn. lia. Qed.

(** ** The frames of a quantum *)
Lemma f64_of_Z_small : forall n, (Z.abs n <= 2 ^ 53)%Z -> B2R (f64_of_Z n) = IZR n /\ is_finite (f64_of_Z n) = true.
Proof.
  intros n H. unfold f64_of_Z.
  pose proof (binary_normalize_correct 53 1024 f64_prec f64_emax mode_NE n 0 false) as C. cbv zeta in C.
  assert (E : F2R (Float radix2 n 0) = IZR n) by (unfold F2R; cbn; ring). rewrite E in C.
  assert (G : generic_format radix2 (SpecFloat.fexp 53 1024) (IZR n)).
  { apply (generic_format_FLT radix2 (-1074) 53). destruct (Z.eq_dec (Z.abs n) (2 ^ 53)) as [Eb|Nb].
    - exists (Float radix2 (Z.sgn n) 53); cbn; [|lia|lia].
      unfold F2R. cbn. destruct (Z.abs_spec n) as [[? A]|[? A]].
      + rewrite Z.sgn_pos by lia. rewrite A in Eb. rewrite Eb. lra.
      + rewrite Z.sgn_neg by lia. replace n with (- 2 ^ 53)%Z by lia. cbn. lra.
    - exists (Float radix2 n 0); cbn; [symmetry; exact E|lia|lia]. }
  cbn [round_mode] in C. rewrite (round_generic radix2 (SpecFloat.fexp 53 1024) ZnearestE _ G) in C.
  rewrite Rlt_bool_true in C; [tauto|].
  rewrite <- abs_IZR. apply Rle_lt_trans with (IZR (2 ^ 53)); [apply IZR_le; exact H|].
  change (2 ^ 53)%Z with (Zpower radix2 53). rewrite IZR_Zpower by lia. apply bpow_lt. lia.
Qed.

Lemma f64_to_usize_mono : forall x y, is_nan x = false -> is_nan y = false -> 0 <= val64 x -> val64 x <= val64 y -> (f64_to_usize x <= f64_to_usize y)%Z.
Proof.
  intros x y Hx Hy Px L. pose proof (bpow_gt_0 radix2 1024) as B.
  assert (Bd : forall z, (f64_to_usize z <= 2 ^ 64 - 1)%Z) by (intros [|[]| |]; cbn -[Z.pow]; lia).
  assert (F : forall z : f64, is_finite z = true -> f64_to_usize z = Z.min (2 ^ 64 - 1) (Z.max 0 (Btrunc z))) by (intros [| | |]; try discriminate; reflexivity).
  destruct (is_finite y) eqn:Fy.
  - destruct (is_finite x) eqn:Fx.
    + rewrite !F by assumption. pose proof (trunc_mono 53 1024 _ x y Fx Fy L). lia.
    + destruct x as [|s| |]; try discriminate. pose proof (val_bound 53 1024 y Fy). destruct s; cbn [val] in *; lra.
  - destruct y as [|s| |]; try discriminate. destruct s; [cbn [val] in L; lra|]. apply Bd.
Qed.

Lemma f64_max0 : forall x : f64, is_nan x = false -> is_nan (f64_max x f64_zero) = false /\ val64 (f64_max x f64_zero) = Rmax (val64 x) 0.
Proof. intros x H. exact (max0_val 53 1024 x H). Qed.

Lemma fma_not_nan : forall x y z : f64, is_finite x = true -> is_finite y = true -> is_finite z = true -> is_nan (f64_fma x y z) = false.
Proof.
  intros x y z Hx Hy Hz. pose proof (Bfma_correct 53 1024 _ _ mode_NE x y z Hx Hy Hz) as H. cbv zeta in H. unfold f64_fma.
  destruct (Rlt_bool _ _); [apply finite_not_nan; tauto|].
  destruct (Bfma mode_NE x y z); try reflexivity. discriminate.
Qed.

Lemma add_finite_not_nan : forall x y : f64, is_nan x = false -> is_finite y = true -> is_nan (f64_add x y) = false.
Proof.
  intros x y Hx Hy. destruct (is_finite x) eqn:Fx; [apply plus_not_nan; assumption|].
  destruct x as [|s| |]; try discriminate. destruct y; try discriminate; reflexivity.
Qed.

Lemma to_nat_full : forall z n, Z.to_nat (Z.min z (Z.of_nat n)) = n <-> (Z.of_nat n <= z)%Z \/ n = 0%nat.
Proof. intros. lia. Qed.

Lemma grid_block_ok : forall time dt count, (Z.of_nat count <= 2 ^ 53)%Z -> grid time dt count = true -> block_ok P not_nan time dt count.
Proof.
  intros time dt count Hc H. unfold grid in H. repeat (apply andb_prop in H; destruct H as [H ?]).
  set (next := f64_fma dt (f64_of_Z (Z.of_nat count)) time) in *.
  match goal with A : Nat.eqb _ _ = true |- _ => apply Nat.eqb_eq in A; rename A into E end.
  match goal with A : f64_lt f64_zero dt = true |- _ => rename A into Hdt end.
  match goal with A : f64_is_finite next = true |- _ => rename A into Fn end.
  match goal with A : f64_is_finite dt = true |- _ => rename A into Fdt end.
  rename H into Ft.
  assert (Pdt : 0 < B2R dt).
  { apply lt_val in Hdt; [|reflexivity|apply finite_not_nan; exact Fdt]. rewrite (val_finite 53 1024 dt Fdt) in Hdt. exact Hdt. }
  unfold block_ok. change (t_fma P dt (t_of_nat P count) time) with next.
  split; [apply finite_not_nan; exact Ft|]. split; [exact Fn|]. split; [intro a; exact E|]. split.
  - intros a t Ht Hle. change (end_index P (mk_block time dt count true next) t = count).
    unfold end_index in *. cbn [t_to_nat t_round t_div t_max t_sub t_zero ieee_ops b_time b_dt b_count] in *.
    change (f64_le next t = true) in Hle. apply le_val in Hle; [|apply finite_not_nan; exact Fn|exact Ht].
    destruct (minus_mono 53 1024 _ _ next t time Fn Ht Ft Hle) as [N1 L1].
    destruct (minus_val 53 1024 _ _ next time Fn Ft) as [_ N0].
    destruct (f64_max0 _ N0) as [N2 V2]. destruct (f64_max0 _ N1) as [N3 V3].
    fold (f64_sub next time) in *. fold (f64_sub t time) in *.
    assert (L2 : val64 (f64_max (f64_sub next time) f64_zero) <= val64 (f64_max (f64_sub t time) f64_zero)).
    { rewrite V2, V3. apply Rle_max_compat_r. exact L1. }
    assert (P2 : 0 <= val64 (f64_max (f64_sub next time) f64_zero)) by (rewrite V2; apply Rmax_r).
    destruct (div_mono 53 1024 _ _ _ _ dt N2 N2 P2 Fdt Pdt (Rle_refl _)) as [N4 _].
    destruct (div_mono 53 1024 _ _ _ _ dt N2 N3 P2 Fdt Pdt L2) as [N5 L3].
    assert (P3 : 0 <= val64 (f64_div (f64_max (f64_sub next time) f64_zero) dt)).
    { assert (Z0 : val64 (f64_div f64_zero dt) = 0).
      { clear -Pdt Fdt. destruct dt as [s| | |s m e]; try discriminate; [cbn in Pdt; lra|reflexivity]. }
      rewrite <- Z0. apply div_mono; try assumption; try reflexivity; cbn [val f64_zero B2R]; lra. }
    destruct (nearbyint_mono 53 1024 _ mode_NA _ _ N4 N5 P3 L3) as (N6 & N7 & L4).
    assert (P4 : 0 <= val64 (f64_round (f64_div (f64_max (f64_sub next time) f64_zero) dt))).
    { assert (Z0 : val64 (f64_round f64_zero) = 0) by reflexivity. rewrite <- Z0.
      destruct (nearbyint_mono 53 1024 _ mode_NA f64_zero _ eq_refl N4 (Rle_refl 0) P3) as (_ & _ & A). exact A. }
    pose proof (f64_to_usize_mono _ _ N7 N6 P4 L4) as L5.
    apply to_nat_full in E. apply to_nat_full. destruct E as [E|E]; [left|right; exact E].
    eapply Z.le_trans; [exact E|exact L5].
  - intros k n Hk. assert (Fk : is_finite (f64_of_Z (Z.of_nat k)) = true) by (apply f64_of_Z_small; lia).
    induction n as [|n IH]; [apply fma_not_nan; assumption|].
    change (not_nan (f64_add (Nat.iter n (fun t => t_add P t dt) (t_fma P (t_of_nat P k) dt time)) dt)).
    apply add_finite_not_nan; assumption.
Qed.

Lemma ieee_clamp : forall x lo hi, f32_lt hi lo = false -> is_nan lo = false -> is_nan hi = false -> v_clamp P x lo hi <> None.
Proof.
  intros x lo hi H Hl Hh. cbn. unfold f32_clamp. replace (f32_le lo hi) with true; [discriminate|].
  symmetry. apply le_val; try assumption. apply lt_val_false in H; assumption.
Qed.
End Ieee.

(** ** The clock of a context satisfies [grid] for the first 2^48 frames (thousands of years) *)
Section Clock.
Notation rnd := (round radix2 (SpecFloat.fexp 53 1024) ZnearestE).
Definition u : R := bpow radix2 (-53).

Lemma u_val : u = / 9007199254740992.
Proof. unfold u. cbn. reflexivity. Qed.

Lemma rnd_rel : forall x, bpow radix2 (-60) <= Rabs x -> exists eps, Rabs eps <= u /\ rnd x = x * (1 + eps).
Proof.
  intros x H. destruct (relative_error_N_FLT_ex radix2 (-1074) 53 eq_refl (fun z => negb (Z.even z)) x) as (eps & H1 & H2).
  - eapply Rle_trans; [|exact H]. apply bpow_le. lia.
  - exists eps. split; [|exact H2]. eapply Rle_trans; [exact H1|]. unfold u. cbn. lra.
Qed.

Lemma rnd_small : forall x, Rabs x <= bpow radix2 100 -> Rabs (rnd x) < bpow radix2 1024.
Proof.
  intros x H. apply Rle_lt_trans with (bpow radix2 100); [|apply bpow_lt; lia].
  apply abs_round_le_generic; [apply FLT_exp_valid; reflexivity|apply valid_rnd_N| |exact H].
  apply generic_format_bpow. unfold SpecFloat.fexp, SpecFloat.emin. lia.
Qed.

Lemma div_small : forall x y : f64, is_finite x = true -> B2R y <> 0 -> Rabs (B2R x / B2R y) <= bpow radix2 100 ->
  B2R (f64_div x y) = rnd (B2R x / B2R y) /\ is_finite (f64_div x y) = true.
Proof.
  intros x y Fx Hy H. pose proof (Bdiv_correct 53 1024 _ _ mode_NE x y Hy) as C. cbn [round_mode] in C.
  rewrite Rlt_bool_true in C by (apply rnd_small; exact H). rewrite Fx in C. unfold f64_div. tauto.
Qed.

Lemma b100 : bpow radix2 100 = 1267650600228229401496703205376.
Proof. reflexivity. Qed.
Lemma b60 : bpow radix2 (-60) = / 1152921504606846976.
Proof. reflexivity. Qed.

Lemma clock_grid : forall (frames : Z) (sr : f64), (0 <= frames <= 2 ^ 48)%Z -> is_finite sr = true -> 3000 <= B2R sr <= 768000 ->
  grid (f64_div (f64_of_Z frames) sr) (f64_div f64_one sr) 128 = true.
Proof.
  intros frames sr Hf Fsr Hsr. set (s := B2R sr) in *. set (n := IZR frames).
  assert (Hn : 0 <= n <= 281474976710656) by (unfold n; split; [apply (IZR_le 0)|apply (IZR_le _ 281474976710656)]; lia).
  destruct (f64_of_Z_small frames) as [Vn Fn]; [lia|]. fold n in Vn.
  assert (V1 : B2R f64_one = 1) by (apply (f64_of_Z_small 1); lia).
  assert (F1 : is_finite f64_one = true) by reflexivity.
  destruct (f64_of_Z_small 128) as [V128 F128]; [lia|].
  assert (Is : / 768000 <= / s <= / 3000) by (split; apply Rinv_le; lra).
  assert (Hts : 0 <= n * / s <= 281474976710656 * / 3000).
  { split; [apply Rmult_le_pos; lra|apply Rmult_le_compat; lra]. }
  destruct (div_small (f64_of_Z frames) sr Fn) as [Vt Ft]; [fold s; lra|rewrite Vn, b100; fold s; unfold Rdiv; rewrite Rabs_pos_eq; lra|].
  destruct (div_small f64_one sr F1) as [Vd Fd]; [fold s; lra|rewrite V1, b100; fold s; unfold Rdiv; rewrite Rabs_pos_eq; lra|].
  set (time := f64_div (f64_of_Z frames) sr) in *. set (dt := f64_div f64_one sr) in *.
  rewrite Vn in Vt. rewrite V1 in Vd. fold s in Vt, Vd.
  set (T := B2R time) in *. set (D := B2R dt) in *.
  pose proof u_val as U.
  (* dt *)
  destruct (rnd_rel (1 / s)) as (e1 & He1 & E1).
  { rewrite b60. unfold Rdiv. rewrite Rabs_pos_eq; lra. }
  rewrite E1 in Vd. apply Rabs_le_inv in He1. rewrite U in He1.
  assert (D1 : D = / s * (1 + e1)) by (rewrite Vd; unfold Rdiv; ring). 
  assert (Dlo : / s * (1 - u) <= D) by (rewrite D1; apply Rmult_le_compat_l; lra).
  assert (Dhi : D <= / s * (1 + u)) by (rewrite D1; apply Rmult_le_compat_l; lra).
  assert (Dpos : / 800000 <= D) by nra.
  assert (Dmax : D <= / 2000) by nra.
  (* time *)
  assert (Tb : 0 <= T /\ T <= n * / s * (1 + u)).
  { destruct (Z.eq_dec frames 0) as [->|N].
    - assert (n = 0) by reflexivity. rewrite Vt, H. unfold Rdiv. rewrite Rmult_0_l. rewrite round_0 by apply valid_rnd_N. lra.
    - assert (1 <= n) by (apply (IZR_le 1); lia).
      destruct (rnd_rel (n / s)) as (e2 & He2 & E2).
      { rewrite b60. unfold Rdiv. rewrite Rabs_pos_eq by lra. assert (1 * / 768000 <= n * / s) by (apply Rmult_le_compat; lra). lra. }
      apply Rabs_le_inv in He2. rewrite U in He2. rewrite Vt, E2. unfold Rdiv. split.
      + apply Rmult_le_pos; lra.
      + apply Rmult_le_compat_l; lra. }
  assert (Tmax : T <= 100000000000) by (rewrite U in Tb; nra).
  assert (TD : u * T <= / 16 * D).
  { destruct Tb as [_ Tb]. apply Rle_trans with (u * (n * / s * (1 + u))); [apply Rmult_le_compat_l; [rewrite U; lra|exact Tb]|].
    apply Rle_trans with (/ 16 * (/ s * (1 - u))); [|apply Rmult_le_compat_l; lra].
    replace (u * (n * / s * (1 + u))) with (/ s * (u * n * (1 + u))) by ring.
    replace (/ 16 * (/ s * (1 - u))) with (/ s * (/ 16 * (1 - u))) by ring.
    apply Rmult_le_compat_l; [lra|]. rewrite U. lra. }
  (* next *)
  pose proof (Bfma_correct 53 1024 _ _ mode_NE dt (f64_of_Z 128) time Fd F128 Ft) as C. cbv zeta in C. cbn [round_mode] in C.
  fold D T in C. rewrite V128 in C.
  rewrite Rlt_bool_true in C by (apply rnd_small; rewrite b100; rewrite Rabs_pos_eq; lra).
  fold (f64_fma dt (f64_of_Z 128) time) in C. set (next := f64_fma dt (f64_of_Z 128) time) in *.
  destruct C as (Vx & Fx & _). set (N := B2R next) in *.
  destruct (rnd_rel (D * 128 + T)) as (e3 & He3 & E3); [rewrite b60, Rabs_pos_eq; lra|].
  apply Rabs_le_inv in He3. rewrite E3 in Vx.
  assert (Nlo : 127 * D <= N - T).
  { assert (0 <= (D * 128 + T) * (e3 + u)) by (apply Rmult_le_pos; lra). rewrite U in *. nra. }
  assert (Nhi : N - T <= 129 * D).
  { assert (0 <= (D * 128 + T) * (u - e3)) by (apply Rmult_le_pos; lra). rewrite U in *. nra. }
  assert (Nlo' : (128 - / 16 - 128 * u) * D <= N - T).
  { assert (0 <= (D * 128 + T) * (e3 + u)) by (apply Rmult_le_pos; lra). nra. }
  (* the difference *)
  pose proof (Bminus_correct 53 1024 _ _ mode_NE next time Fx Ft) as C2. cbn [round_mode] in C2. fold N T in C2.
  rewrite Rlt_bool_true in C2 by (apply rnd_small; rewrite b100; rewrite Rabs_pos_eq; lra).
  fold (f64_sub next time) in C2. destruct C2 as (Vm & Fm & _).
  destruct (rnd_rel (N - T)) as (e4 & He4 & E4); [rewrite b60, Rabs_pos_eq; lra|].
  apply Rabs_le_inv in He4. rewrite E4 in Vm. rewrite U in He4.
  assert (Mlo : (255 / 2) * D <= B2R (f64_sub next time)).
  { rewrite Vm. assert ((N - T) * (1 - u) <= (N - T) * (1 + e4)) by (apply Rmult_le_compat_l; rewrite ?U; lra). rewrite U in *. nra. }
  assert (Mhi : B2R (f64_sub next time) <= 130 * D).
  { rewrite Vm. assert ((N - T) * (1 + e4) <= (N - T) * (1 + u)) by (apply Rmult_le_compat_l; rewrite ?U; lra). rewrite U in *. nra. }
  assert (Em : f64_max (f64_sub next time) f64_zero = f64_sub next time).
  { unfold f64_max. replace (f64_is_nan (f64_sub next time)) with false by (symmetry; apply finite_not_nan; exact Fm).
    change (f64_is_nan f64_zero) with false. cbv iota. replace (f64_lt (f64_sub next time) f64_zero) with false; [reflexivity|].
    symmetry. apply lt_val_false; [apply finite_not_nan; exact Fm|reflexivity|]. cbn [val f64_zero B2R]. rewrite val_finite by exact Fm. lra. }
  (* the quotient *)
  assert (Q : 255 / 2 <= B2R (f64_sub next time) / D <= 130).
  { assert (Eq : B2R (f64_sub next time) / D * D = B2R (f64_sub next time)) by (field; lra).
    split; apply Rmult_le_reg_r with D; rewrite ?Eq; lra. }
  destruct (div_small (f64_sub next time) dt Fm) as [Vq Fq]; [fold D; lra|fold D; rewrite b100, Rabs_pos_eq; lra|]. fold D in Vq.
  assert (Qlo : 255 / 2 <= B2R (f64_div (f64_sub next time) dt)).
  { rewrite Vq. apply round_ge_generic; [apply FLT_exp_valid; reflexivity|apply valid_rnd_N| |lra].
    apply (generic_format_FLT radix2 (-1074) 53). exists (Float radix2 255 (-1)); cbn; [unfold F2R; cbn; lra|lia|lia]. }
  destruct (Bnearbyint_correct 53 1024 _ mode_NA (f64_div (f64_sub next time) dt)) as (Vr & Fr & _). cbn [round_mode] in Vr.
  assert (Rlo : 128 <= B2R (f64_round (f64_div (f64_sub next time) dt))).
  { unfold f64_round. rewrite Vr. apply Rle_trans with (round radix2 (FIX_exp 0) ZnearestA (255 / 2)).
    - unfold round, F2R, scaled_mantissa, cexp, FIX_exp. cbn [Fnum Fexp Z.opp bpow]. rewrite !Rmult_1_r.
      replace (ZnearestA (255 / 2)) with 128%Z; [lra|]. symmetry. 
      unfold Znearest. assert (Fl : Zfloor (255 / 2) = 127%Z) by (apply Zfloor_imp; cbn; lra). rewrite Fl.
      rewrite Rcompare_Eq by lra. cbn. assert (Ce : Zceil (255 / 2) = 128%Z) by (apply Zceil_imp; cbn; lra). exact Ce.
    - apply round_le; [apply FIX_exp_valid|apply valid_rnd_NA|exact Qlo]. }
  assert (Tr : (128 <= Btrunc (f64_round (f64_div (f64_sub next time) dt)))%Z).
  { apply le_IZR. rewrite Btrunc_correct by exact f64_emax.
    apply Rle_trans with (round radix2 (FIX_exp 0) Ztrunc 128).
    - unfold round, F2R, scaled_mantissa, cexp, FIX_exp. cbn [Fnum Fexp Z.opp bpow]. rewrite !Rmult_1_r. rewrite (Ztrunc_IZR 128). lra.
    - apply round_le; [apply FIX_exp_valid|apply valid_rnd_ZR|exact Rlo]. }
  unfold grid. change (Z.of_nat 128) with 128%Z. fold next. rewrite Em.
  unfold f64_is_finite. rewrite Ft, Fd, Fx. cbn [andb].
  replace (f64_lt f64_zero dt) with true.
  2: { symmetry. apply lt_val; [reflexivity|apply finite_not_nan; exact Fd|]. rewrite (val_finite 53 1024 dt Fd). fold D. cbn. lra. }
  cbn [andb]. apply Nat.eqb_eq. 
  assert (Us : (128 <= f64_to_usize (f64_round (f64_div (f64_sub next time) dt)))%Z).
  { assert (Fr' : is_finite (f64_round (f64_div (f64_sub next time) dt)) = true) by (unfold f64_round; rewrite Fr; exact Fq).
    destruct (f64_round (f64_div (f64_sub next time) dt)); try discriminate; unfold f64_to_usize; lia. }
  lia.
Qed.
End Clock.
