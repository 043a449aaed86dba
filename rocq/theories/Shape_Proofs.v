(** Wave shaper: proofs. *)
From Coq Require Import List Arith Bool ZArith Lia Reals Lra.
From Flocq Require Import Core BinarySingleNaN Sterbenz.
From Verif Require Import Float_Model Float_Proofs Float_BoundProofs Float_ErrorProofs Arith_Model Arith_Real Absn_ExactProofs Delay_Proofs Route_Spec Route_Proofs Shape_Model Shape_Spec.
Import ListNotations.
Local Open Scope R_scope.

(** ** Exact arithmetic *)
Lemma index_nth : forall X (l : list X) i d, (i < length l)%nat -> index l i = Ok (nth i l d).
Proof. intros X l i d H. apply index_Some. apply nth_error_nth'. exact H. Qed.

Lemma curve_point : forall curve i, curve_at curve (IZR i) = nth (Z.to_nat (Z.max 0 (Z.min i (Z.of_nat (length curve - 1))))) curve 0.
Proof.
  intros curve i. unfold curve_at. rewrite INR_IZR_INZ. assert (E : Rmax 0 (Rmin (IZR i) (IZR (Z.of_nat (length curve - 1)))) = IZR (Z.max 0 (Z.min i (Z.of_nat (length curve - 1))))).
  { destruct (Z.le_gt_cases i (Z.of_nat (length curve - 1))) as [L|L].
    - rewrite Rmin_left by (apply IZR_le; exact L). rewrite Z.min_l by exact L. destruct (Z.le_gt_cases 0 i); [rewrite Rmax_right, Z.max_r by (try apply IZR_le; lia)|rewrite Rmax_left, Z.max_l by (try apply IZR_le; lia)]; reflexivity.
    - rewrite Rmin_right by (apply IZR_le; lia). rewrite Z.min_r by lia. rewrite Rmax_right by (apply IZR_le; lia). rewrite Z.max_r by lia. reflexivity. }
  cbv zeta. rewrite E, Zfloor_IZR, Rminus_eq_0. ring.
Qed.
Lemma curve_below : forall curve p, p <= 0 -> curve_at curve p = nth 0 curve 0.
Proof.
  intros curve p H. pose proof (curve_point curve 0) as E. rewrite Z.min_l, Z.max_l in E by lia. change (Z.to_nat 0) with 0%nat in E. rewrite <- E. unfold curve_at.
  replace (Rmax 0 (Rmin p (INR (length curve - 1)))) with 0; [|rewrite Rmax_left; [reflexivity|]; apply Rle_trans with p; [apply Rmin_l|exact H]].
  replace (Rmax 0 (Rmin 0 (INR (length curve - 1)))) with 0; [reflexivity|]. rewrite Rmax_left; [reflexivity|]. apply Rmin_l.
Qed.
Lemma curve_above : forall curve p, INR (length curve - 1) <= p -> curve_at curve p = nth (length curve - 1) curve 0.
Proof.
  intros curve p H. pose proof (curve_point curve (Z.of_nat (length curve - 1))) as E. rewrite Z.min_id, Z.max_r, Nat2Z.id in E by lia. rewrite <- E. unfold curve_at. rewrite <- INR_IZR_INZ, Rmin_right, Rmin_left by lra. reflexivity.
Qed.

Lemma apply_exact : forall curve x, curve <> [] -> apply_curve exact curve x = Ok (shaped curve x).
Proof.
  intros curve x Hc. unfold apply_curve, shaped. destruct curve as [|c0 curve0] eqn:Q; [contradiction|]. rewrite <- Q in *. clear c0 curve0 Q.
  assert (Hl : (0 < length curve)%nat) by (destruct curve; [contradiction|cbn; lia]). cbv zeta. unfold v_zero, v_one. cbn [exact v_of_Z v_sub v_mul v_div v_add v_le v_to_Z v_floor].
  assert (EL : IZR (Z.of_nat (length curve)) - 1 = INR (length curve - 1)) by (rewrite <- INR_IZR_INZ, minus_INR by lia; cbn [INR]; reflexivity).
  rewrite EL. set (L := INR (length curve - 1)). assert (HL : 0 <= L) by apply pos_INR. replace (L / 2 * (x + 1)) with ((x + 1) / 2 * L) by (unfold L; lra). set (v := (x + 1) / 2 * L).
  destruct (Rle_or_lt v 0) as [C|C].
  { rewrite R_le_true by exact C. rewrite curve_below by exact C. apply index_nth. exact Hl. }
  rewrite R_le_false by exact C. destruct (Rle_or_lt L v) as [D|D].
  { rewrite R_le_true by exact D. rewrite curve_above by exact D. unfold L, R_to_Z. rewrite INR_IZR_INZ, Ztrunc_IZR, Z.max_r, Nat2Z.id by lia. apply index_nth. lia. }
  rewrite R_le_false by exact D. unfold curve_at. fold L. rewrite Rmin_left by lra. rewrite Rmax_right by lra. cbv zeta.
  pose proof (Zfloor_lb v) as F1. pose proof (Zfloor_ub v) as F2. assert (F0 : (0 <= Zfloor v)%Z) by (apply Zfloor_lub; lra).
  assert (F3 : (Zfloor v < Z.of_nat (length curve - 1))%Z) by (apply lt_IZR; rewrite <- INR_IZR_INZ; fold L; lra).
  unfold R_to_Z. rewrite <- plus_IZR, !Ztrunc_IZR, !Z.max_r by lia. rewrite !index_nth with (d := 0) by lia. reflexivity.
Qed.

(** ** Floating point *)
Definition small_curve {X} (curve : list X) : Prop := (0 < length curve)%nat /\ (Z.of_nat (length curve) <= 2 ^ 24)%Z.

Lemma f32_int : forall n, (Z.abs n <= 2 ^ 24)%Z -> B2R (f32_of_Z n) = IZR n /\ is_finite (f32_of_Z n) = true.
Proof. exact (of_Z_exact 24 128 f32_prec f32_emax). Qed.

Lemma last_val : forall X (curve : list X), small_curve curve -> let last := f32_sub (f32_of_Z (Z.of_nat (length curve))) (f32_of_Z 1) in
  B2R last = INR (length curve - 1) /\ is_finite last = true /\ f32_to_usize last = Z.of_nat (length curve - 1).
Proof.
  intros X curve [H0 H] last. destruct (f32_int (Z.of_nat (length curve))) as [E F]; [lia|]. destruct (f32_int 1) as [E1 F1]; [lia|].
  assert (V : B2R (f32_of_Z (Z.of_nat (length curve))) - B2R (f32_of_Z 1) = IZR (Z.of_nat (length curve - 1))) by (rewrite E, E1, <- minus_IZR; f_equal; lia).
  destruct (minus_between 24 128 f32_prec f32_emax (f32_of_Z (Z.of_nat (length curve))) (f32_of_Z 1) (Z.of_nat (length curve - 1)) (Z.of_nat (length curve - 1)) F F1) as (G & V2 & _); [lia|lia|rewrite V; lra|].
  rewrite V, rnd_int in V2 by (try exact f32_prec; try exact f32_emax; lia).
  change (B2R last = IZR (Z.of_nat (length curve - 1))) in V2. change (is_finite last = true) in G. split; [rewrite V2, INR_IZR_INZ; reflexivity|]. split; [exact G|].
  rewrite f32_to_usize_val by exact G. rewrite V2, Ztrunc_IZR. change (2 ^ 24)%Z with 16777216%Z in H. lia.
Qed.

(** the position is not a number, or strictly inside: 0 < v < last *)
Lemma inside : forall v last : f32, is_finite last = true -> f32_le v (f32_of_Z 0) = false -> f32_le last v = false -> v = B754_nan \/ (is_finite v = true /\ 0 < B2R v < B2R last).
Proof.
  intros v last F H0 H1. destruct (f32_int 0) as [E0 F0]; [lia|]. destruct (is_finite v) eqn:Fv.
  - right. split; [reflexivity|]. split.
    + apply Rnot_le_lt. intros C. rewrite <- E0 in C. apply f32_le_R in C; [congruence|assumption|assumption].
    + apply Rnot_le_lt. intros C. apply f32_le_R in C; [congruence|assumption|assumption].
  - left. destruct v as [|s| |]; try discriminate Fv; [|reflexivity]. exfalso. destruct s; [vm_compute in H0; discriminate|]. destruct last as [s|s| |s m e Hm]; try discriminate F; destruct s; vm_compute in H1; discriminate.
Qed.

Lemma floor32 : forall v : f32, is_finite v = true -> B2R (f32_floor v) = IZR (Zfloor (B2R v)) /\ is_finite (f32_floor v) = true.
Proof. intros v F. destruct (floor_val 24 128 f32_emax v) as [E G]. rewrite F in G. split; assumption. Qed.

Lemma steps : forall (v : f32) (n : Z), is_finite v = true -> (n < 2 ^ 24)%Z -> 0 < B2R v < IZR n -> let k := f32_floor v in
  f32_to_usize k = Zfloor (B2R v) /\ f32_to_usize (f32_add k (f32_of_Z 1)) = (Zfloor (B2R v) + 1)%Z /\ (0 <= Zfloor (B2R v) < n)%Z.
Proof.
  intros v n F Hn [L U] k. destruct (floor32 v F) as [E G]. fold k in E, G. change (2 ^ 24)%Z with 16777216%Z in Hn.
  assert (F0 : (0 <= Zfloor (B2R v))%Z) by (apply Zfloor_lub; lra). assert (F1 : (Zfloor (B2R v) < n)%Z) by (apply lt_IZR; pose proof (Zfloor_lb (B2R v)); lra).
  destruct (f32_int 1) as [E1 G1]; [lia|]. assert (V : B2R k + B2R (f32_of_Z 1) = IZR (Zfloor (B2R v) + 1)) by (rewrite E, E1, plus_IZR; ring).
  destruct (plus_between 24 128 f32_prec f32_emax k (f32_of_Z 1) (Zfloor (B2R v) + 1) (Zfloor (B2R v) + 1) G G1) as (G2 & V2 & _); [lia|lia|rewrite V; lra|].
  rewrite V, rnd_int in V2 by (try exact f32_prec; try exact f32_emax; lia). change (B2R (f32_add k (f32_of_Z 1)) = IZR (Zfloor (B2R v) + 1)) in V2. change (is_finite (f32_add k (f32_of_Z 1)) = true) in G2.
  split; [|split; [|lia]].
  - rewrite f32_to_usize_val by exact G. rewrite E, Ztrunc_IZR. lia.
  - rewrite f32_to_usize_val by exact G2. rewrite V2, Ztrunc_IZR. lia.
Qed.

(** every input, also infinite or not a number *)
Lemma apply_safe : forall M (curve : list f32) x, small_curve curve -> exists y, apply_curve (ieee M) curve x = Ok y.
Proof.
  intros M curve x Hs. destruct (last_val _ curve Hs) as (EL & FL & UL). cbv zeta in *. destruct Hs as [H0 H]. unfold apply_curve. destruct curve as [|c0 curve0] eqn:Q; [cbn in H0; lia|]. rewrite <- Q in *. clear c0 curve0 Q.
  cbv zeta. unfold v_zero, v_one. change (v_le (ieee M)) with f32_le. change (v_of_Z (ieee M)) with f32_of_Z. change (v_sub (ieee M)) with f32_sub. change (v_to_Z (ieee M)) with f32_to_usize. change (v_floor (ieee M)) with f32_floor. change (v_add (ieee M)) with f32_add. change (v_div (ieee M)) with f32_div. change (v_mul (ieee M)) with f32_mul.
  set (last := f32_sub _ _) in *. set (v := f32_mul _ _). destruct (f32_le v (f32_of_Z 0)) eqn:C0; [rewrite index_nth with (d := f32_of_Z 0) by exact H0; eexists; reflexivity|].
  destruct (f32_le last v) eqn:C1; [rewrite UL, Nat2Z.id; rewrite index_nth with (d := f32_of_Z 0) by lia; eexists; reflexivity|].
  destruct (inside v last FL C0 C1) as [N|[Fv Hv]].
  - rewrite N. change (f32_to_usize (f32_floor B754_nan)) with 0%Z. change (f32_to_usize (f32_add (f32_floor B754_nan) (f32_of_Z 1))) with 0%Z. change (Z.to_nat 0) with 0%nat. rewrite index_nth with (d := f32_of_Z 0) by exact H0. eexists; reflexivity.
  - rewrite EL, INR_IZR_INZ in Hv. destruct (steps v (Z.of_nat (length curve - 1)) Fv ltac:(lia) Hv) as (U1 & U2 & U3). cbv zeta in U1, U2. rewrite U1, U2. rewrite !index_nth with (d := f32_of_Z 0) by lia. eexists; reflexivity.
Qed.

Lemma e32 : forall e, (-100 <= e <= 110)%Z -> exp_ok 128 e.
Proof. intros. unfold exp_ok. lia. Qed.

Lemma fract_exact : forall v : f32, is_finite v = true -> 0 < B2R v < 16777216 -> let f := f32_sub v (f32_floor v) in is_finite f = true /\ B2R f = B2R v - IZR (Zfloor (B2R v)).
Proof.
  intros v F [L U] f. destruct (floor32 v F) as [E G]. pose proof (Zfloor_lb (B2R v)) as F1. pose proof (Zfloor_ub (B2R v)) as F2. assert (F0 : (0 <= Zfloor (B2R v))%Z) by (apply Zfloor_lub; lra).
  assert (B : Rabs (B2R v - B2R (f32_floor v)) <= bpow radix2 0) by (rewrite E; change (bpow radix2 0) with 1; apply Rabs_le; lra).
  destruct (minus_err 24 128 f32_prec f32_emax v (f32_floor v) 0 F G (e32 0 ltac:(lia)) B) as (C1 & C2 & _ & _). change (is_finite f = true) in C1. change (B2R f = round radix2 (SpecFloat.fexp 24 128) ZnearestE (B2R v - B2R (f32_floor v))) in C2.
  split; [exact C1|]. rewrite C2. rewrite <- E. apply round_generic; [apply valid_rnd_N|].
  destruct (Z.eq_dec (Zfloor (B2R v)) 0) as [Z0|Z0].
  - rewrite E, Z0, Rminus_0_r. apply generic_format_B2R.
  - assert (1 <= IZR (Zfloor (B2R v))) by (apply IZR_le; lia). apply (sterbenz radix2 (SpecFloat.fexp 24 128)); [apply generic_format_B2R|apply generic_format_B2R|rewrite E; lra].
Qed.

Definition bounded_by (e : Z) (c : f32) : Prop := is_finite c = true /\ Rabs (B2R c) <= bpow radix2 e.

Lemma mix_err : forall (f a b : f32) e, (-60 <= e <= 100)%Z -> is_finite f = true -> 0 <= B2R f <= 1 -> bounded_by e a -> bounded_by e b ->
  let y := f32_add (f32_mul (f32_sub (f32_of_Z 1) f) a) (f32_mul f b) in is_finite y = true /\ Rabs (B2R y - ((1 - B2R f) * B2R a + B2R f * B2R b)) <= bpow radix2 (e - 21).
Proof.
  intros f a b e He Ff Hf [Fa Ha] [Fb Hb] y. destruct (f32_int 1) as [E1 F1]; [lia|]. pose proof (bpow_gt_0 radix2 e) as P. set (m := bpow radix2 e) in *.
  assert (U : forall k, bpow radix2 (e + k) = m * bpow radix2 k) by (intros; unfold m; apply bpow_plus).
  destruct (minus_err 24 128 f32_prec f32_emax (f32_of_Z 1) f 0 F1 Ff (e32 0 ltac:(lia))) as (Fg & _ & Eg & Bg). { rewrite E1. change (bpow radix2 0) with 1. apply Rabs_le. lra. }
  change (Bminus mode_NE (f32_of_Z 1) f) with (f32_sub (f32_of_Z 1) f) in *. set (g := f32_sub (f32_of_Z 1) f) in *. rewrite E1 in Eg. change (bpow radix2 (0 - 24)) with (/ 16777216) in Eg. change (bpow radix2 0) with 1 in Bg.
  assert (M1 : Rabs (B2R g * B2R a) <= m). { rewrite Rabs_mult. replace m with (1 * m) by ring. apply Rmult_le_compat; try apply Rabs_pos; lra. }
  assert (M2 : Rabs (B2R f * B2R b) <= m). { rewrite Rabs_mult. replace m with (1 * m) by ring. apply Rmult_le_compat; try apply Rabs_pos; [rewrite Rabs_pos_eq; lra|lra]. }
  destruct (mult_err 24 128 f32_prec f32_emax g a e Fg Fa (e32 e ltac:(lia)) M1) as (Fp & _ & Ep & Bp). change (Bmult mode_NE g a) with (f32_mul g a) in *.
  destruct (mult_err 24 128 f32_prec f32_emax f b e Ff Fb (e32 e ltac:(lia)) M2) as (Fq & _ & Eq & Bq). change (Bmult mode_NE f b) with (f32_mul f b) in *.
  fold m in Bp, Bq. assert (S : Rabs (B2R (f32_mul g a) + B2R (f32_mul f b)) <= bpow radix2 (e + 1)). { rewrite U. change (bpow radix2 1) with 2. eapply Rle_trans; [apply Rabs_triang|]. lra. }
  destruct (plus_err 24 128 f32_prec f32_emax (f32_mul g a) (f32_mul f b) (e + 1) Fp Fq (e32 (e + 1) ltac:(lia)) S) as (Fy & _ & Ey & _). change (Bplus mode_NE (f32_mul g a) (f32_mul f b)) with y in *.
  split; [exact Fy|]. replace (e - 24)%Z with (e + -24)%Z in * by ring. replace (e + 1 - 24)%Z with (e + -23)%Z in * by ring. replace (e - 21)%Z with (e + -21)%Z by ring. rewrite U in Ep, Eq, Ey. rewrite U.
  change (bpow radix2 (-24)) with (/ 16777216) in *. change (bpow radix2 (-23)) with (/ 8388608) in *. change (bpow radix2 (-21)) with (/ 2097152).
  assert (D : Rabs ((B2R g - (1 - B2R f)) * B2R a) <= / 16777216 * m). { rewrite Rabs_mult. apply Rmult_le_compat; try apply Rabs_pos; assumption. }
  replace (B2R y - ((1 - B2R f) * B2R a + B2R f * B2R b)) with ((B2R y - (B2R (f32_mul g a) + B2R (f32_mul f b))) + ((B2R (f32_mul g a) - B2R g * B2R a) + ((B2R (f32_mul f b) - B2R f * B2R b) + (B2R g - (1 - B2R f)) * B2R a))) by ring.
  eapply Rle_trans; [apply Rabs_triang|]. eapply Rle_trans; [apply Rplus_le_compat_l, Rabs_triang|]. eapply Rle_trans; [apply Rplus_le_compat_l, Rplus_le_compat_l, Rabs_triang|]. lra.
Qed.

(** what the code returns at a position [v] that is a number *)
Lemma nth_map_B2R : forall (curve : list f32) i, nth i (map B2R curve) 0 = B2R (nth i curve (f32_of_Z 0)).
Proof. intros. change 0 with (B2R (f32_of_Z 0)). apply map_nth. Qed.

Definition at_pos (curve : list f32) (last v : f32) : res f32 :=
  if f32_le v (f32_of_Z 0) then index curve 0
  else if f32_le last v then index curve (Z.to_nat (f32_to_usize last))
  else
    let k := f32_floor v in
    let f := f32_sub v k in
    do a <- index curve (Z.to_nat (f32_to_usize k));
    do b <- index curve (Z.to_nat (f32_to_usize (f32_add k (f32_of_Z 1))));
    Ok (f32_add (f32_mul (f32_sub (f32_of_Z 1) f) a) (f32_mul f b)).
Definition half (curve : list f32) : f32 := f32_div (f32_sub (f32_of_Z (Z.of_nat (length curve))) (f32_of_Z 1)) (f32_of_Z 2).
Definition position (curve : list f32) (x : f32) : f32 := f32_mul (half curve) (f32_add x (f32_of_Z 1)).
Lemma apply_at_pos : forall M curve x, (0 < length curve)%nat -> apply_curve (ieee M) curve x = at_pos curve (f32_sub (f32_of_Z (Z.of_nat (length curve))) (f32_of_Z 1)) (position curve x).
Proof. intros M [|c curve] x H; [cbn in H; lia|]. reflexivity. Qed.

Lemma at_pos_ieee : forall (curve : list f32) e (v : f32), (-60 <= e <= 100)%Z -> small_curve curve -> Forall (bounded_by e) curve -> is_finite v = true ->
  exists y, at_pos curve (f32_sub (f32_of_Z (Z.of_nat (length curve))) (f32_of_Z 1)) v = Ok y /\ is_finite y = true /\ Rabs (B2R y - curve_at (map B2R curve) (B2R v)) <= bpow radix2 (e - 21).
Proof.
  intros curve e v He Hs Hb Fv. destruct (last_val _ curve Hs) as (EL & FL & UL). cbv zeta in *. destruct Hs as [H0 H]. unfold at_pos. set (last := f32_sub _ _) in *. destruct (f32_int 0) as [E0 F0]; [lia|].
  assert (Pt : forall i, (i < length curve)%nat -> bounded_by e (nth i curve (f32_of_Z 0))) by (intros i Hi; rewrite Forall_forall in Hb; apply Hb, nth_In, Hi).
  assert (Z0 : forall r, Rabs (r - r) <= bpow radix2 (e - 21)) by (intros r; rewrite Rminus_eq_0, Rabs_R0; apply bpow_ge_0).
  destruct (f32_le v (f32_of_Z 0)) eqn:C0.
  { apply f32_le_R in C0; [|assumption|assumption]. rewrite E0 in C0. rewrite curve_below by exact C0. rewrite index_nth with (d := f32_of_Z 0) by exact H0. eexists. split; [reflexivity|]. split; [apply Pt, H0|]. rewrite nth_map_B2R. apply Z0. }
  destruct (f32_le last v) eqn:C1.
  { apply f32_le_R in C1; [|assumption|assumption]. rewrite EL in C1. rewrite curve_above by (rewrite map_length; exact C1). rewrite UL, Nat2Z.id. rewrite index_nth with (d := f32_of_Z 0) by lia. eexists. split; [reflexivity|]. split; [apply Pt; lia|]. rewrite nth_map_B2R, map_length. apply Z0. }
  destruct (inside v last FL C0 C1) as [N|[_ Hv]]; [subst; discriminate|]. rewrite EL in Hv. pose proof Hv as Hv'. rewrite INR_IZR_INZ in Hv. destruct (steps v (Z.of_nat (length curve - 1)) Fv ltac:(lia) Hv) as (U1 & U2 & U3). cbv zeta in U1, U2 |- *. rewrite U1, U2. rewrite !index_nth with (d := f32_of_Z 0) by lia.
  cbn [bind]. eexists. split; [reflexivity|].
  assert (B24 : B2R v < 16777216). { apply Rlt_le_trans with (1 := proj2 Hv). apply IZR_le. change (2 ^ 24)%Z with 16777216%Z in H. lia. }
  destruct (fract_exact v Fv) as [Ff Ef]; [lra|]. cbv zeta in Ff, Ef. pose proof (Zfloor_lb (B2R v)) as G1. pose proof (Zfloor_ub (B2R v)) as G2.
  destruct (mix_err (f32_sub v (f32_floor v)) (nth (Z.to_nat (Zfloor (B2R v))) curve (f32_of_Z 0)) (nth (Z.to_nat (Zfloor (B2R v) + 1)) curve (f32_of_Z 0)) e He Ff) as [Fy Ey]; [rewrite Ef; lra|apply Pt; lia|apply Pt; lia|]. cbv zeta in Fy, Ey.
  split; [exact Fy|]. unfold curve_at. cbv zeta. rewrite map_length. rewrite (Rmin_left (B2R v)) by (apply Rlt_le, Hv'). rewrite (Rmax_right 0) by (apply Rlt_le, Hv'). rewrite !nth_map_B2R, <- Ef. exact Ey.
Qed.

Lemma half_val : forall curve, small_curve curve -> B2R (half curve) = INR (length curve - 1) / 2 /\ is_finite (half curve) = true.
Proof.
  intros curve Hs. destruct (last_val _ curve Hs) as (EL & FL & UL). cbv zeta in *. destruct Hs as [H0 H]. unfold half. set (last := f32_sub _ _) in *. destruct (f32_int 2) as [E2 F2]; [lia|].
  assert (B : Rabs (B2R last / B2R (f32_of_Z 2)) <= bpow radix2 24). { rewrite EL, E2, INR_IZR_INZ. change (bpow radix2 24) with 16777216. assert (0 <= IZR (Z.of_nat (length curve - 1)) <= 16777216) by (split; apply IZR_le; change (2 ^ 24)%Z with 16777216%Z in H; lia). rewrite Rabs_pos_eq; lra. }
  destruct (div_err 24 128 f32_prec f32_emax last (f32_of_Z 2) 24 FL ltac:(rewrite E2; apply IZR_neq; lia) (e32 24 ltac:(lia)) B) as (F & E & _ & _). change (Bdiv mode_NE last (f32_of_Z 2)) with (f32_div last (f32_of_Z 2)) in *.
  split; [|exact F]. rewrite E, <- EL, E2. apply round_generic; [apply valid_rnd_N|]. rewrite EL, INR_IZR_INZ.
  apply generic_format_FLT. exists (Float radix2 (Z.of_nat (length curve - 1)) (-1)); cbn [Fnum Fexp]; [unfold F2R; cbn [Fnum Fexp]; change (bpow radix2 (-1)) with (/ 2); reflexivity| |unfold SpecFloat.emin; lia].
  change (radix_val radix2) with 2%Z. lia.
Qed.

(** [|x| <= 1] *)
Lemma position_ieee : forall curve (x : f32), small_curve curve -> is_finite x = true -> Rabs (B2R x) <= 1 ->
  is_finite (position curve x) = true /\ Rabs (B2R (position curve x) - (B2R x + 1) / 2 * INR (length curve - 1)) <= INR (length curve - 1) * / 4194304.
Proof.
  intros curve x Hs Fx Hx. destruct (half_val curve Hs) as [Eh Fh]. destruct Hs as [H0 H]. set (L := INR (length curve - 1)) in *. destruct (f32_int 1) as [E1 F1]; [lia|]. apply Rabs_le_inv in Hx.
  assert (HL : 0 <= L <= 16777216). { unfold L. rewrite INR_IZR_INZ. split; apply IZR_le; change (2 ^ 24)%Z with 16777216%Z in H; lia. }
  assert (B1 : Rabs (B2R x + B2R (f32_of_Z 1)) <= bpow radix2 1) by (rewrite E1; change (bpow radix2 1) with 2; apply Rabs_le; lra).
  destruct (plus_err 24 128 f32_prec f32_emax x (f32_of_Z 1) 1 Fx F1 (e32 1 ltac:(lia)) B1) as (Fs & _ & Es & Bs). change (Bplus mode_NE x (f32_of_Z 1)) with (f32_add x (f32_of_Z 1)) in *.
  unfold position. set (s := f32_add x (f32_of_Z 1)) in *. rewrite E1 in Es. change (bpow radix2 (1 - 24)) with (/ 8388608) in Es. change (bpow radix2 1) with 2 in Bs.
  destruct (Req_dec L 0) as [Z0|Z0].
  - assert (Bm : Rabs (B2R (half curve) * B2R s) <= bpow radix2 0) by (rewrite Eh, Z0; unfold Rdiv; rewrite !Rmult_0_l, Rabs_R0; apply bpow_ge_0).
    destruct (mult_err 24 128 f32_prec f32_emax (half curve) s 0 Fh Fs (e32 0 ltac:(lia)) Bm) as (Fv & Ev & _ & _). change (Bmult mode_NE (half curve) s) with (f32_mul (half curve) s) in *. split; [exact Fv|]. rewrite Ev, Eh, Z0. replace (0 / 2 * B2R s) with 0 by field. rewrite round_0 by apply valid_rnd_N. rewrite !Rmult_0_r, Rmult_0_l, Rminus_eq_0, Rabs_R0. lra.
  - assert (M : bpow radix2 (mag radix2 L - 1) <= L) by (pose proof (bpow_mag_le radix2 L Z0) as Q; rewrite Rabs_pos_eq in Q by lra; exact Q).
    assert (M2 : L < bpow radix2 (mag radix2 L)) by (pose proof (bpow_mag_gt radix2 L) as Q; rewrite Rabs_pos_eq in Q by lra; exact Q).
    set (e := mag radix2 L : Z) in *. assert (He : (0 < e <= 25)%Z).
    { split; [|].
      - unfold e. apply (mag_gt_bpow radix2 L 0). rewrite Rabs_pos_eq by lra. change (bpow radix2 0) with 1. unfold L. change 1 with (INR 1). apply le_INR. assert (length curve - 1 <> 0)%nat by (intros C; apply Z0; unfold L; rewrite C; reflexivity). lia.
      - assert (e - 1 < 25)%Z; [|lia]. apply (lt_bpow radix2). apply Rle_lt_trans with (1 := M). apply Rle_lt_trans with 16777216; [lra|]. change 16777216 with (bpow radix2 24). apply bpow_lt. lia. }
    assert (Bm : Rabs (B2R (half curve) * B2R s) <= bpow radix2 e). { rewrite Eh, Rabs_mult. apply Rle_trans with (L / 2 * 2); [|lra]. apply Rmult_le_compat; try apply Rabs_pos; [rewrite Rabs_pos_eq; lra|exact Bs]. }
    destruct (mult_err 24 128 f32_prec f32_emax (half curve) s e Fh Fs (e32 e ltac:(lia)) Bm) as (Fv & _ & Ev & _). change (Bmult mode_NE (half curve) s) with (f32_mul (half curve) s) in *. split; [exact Fv|].
    rewrite Eh in Ev. replace (e - 24)%Z with (e - 1 + -23)%Z in Ev by ring. rewrite bpow_plus in Ev. change (bpow radix2 (-23)) with (/ 8388608) in Ev.
    assert (D : Rabs (L / 2 * (B2R s - (B2R x + 1))) <= L / 2 * / 8388608). { rewrite Rabs_mult. apply Rmult_le_compat; try apply Rabs_pos; [rewrite Rabs_pos_eq; lra|exact Es]. }
    replace (B2R (f32_mul (half curve) s) - (B2R x + 1) / 2 * L) with ((B2R (f32_mul (half curve) s) - L / 2 * B2R s) + L / 2 * (B2R s - (B2R x + 1))) by field. eapply Rle_trans; [apply Rabs_triang|]. nra.
Qed.

Lemma apply_ieee : forall M (curve : list f32) e (x : f32), (-60 <= e <= 100)%Z -> small_curve curve -> Forall (bounded_by e) curve -> is_finite x = true -> Rabs (B2R x) <= 1 ->
  exists y p, apply_curve (ieee M) curve x = Ok y /\ is_finite y = true /\ Rabs (p - (B2R x + 1) / 2 * INR (length curve - 1)) <= INR (length curve - 1) * / 4194304 /\ Rabs (B2R y - curve_at (map B2R curve) p) <= bpow radix2 (e - 21).
Proof.
  intros M curve e x He Hs Hb Fx Hx. destruct (position_ieee curve x Hs Fx Hx) as [Fp Ep]. destruct (at_pos_ieee curve e (position curve x) He Hs Hb Fp) as (y & E & Fy & Ey). exists y, (B2R (position curve x)). rewrite apply_at_pos by apply Hs. auto.
Qed.

(** outside [-1, 1] the ends of the curve, exactly *)
Lemma clamp_ieee : forall M (curve : list f32) (x : f32), small_curve curve -> is_finite x = true -> 1 <= Rabs (B2R x) <= bpow radix2 100 ->
  apply_curve (ieee M) curve x = Ok (nth (if Rlt_dec (B2R x) 0 then 0 else length curve - 1) curve (f32_of_Z 0)).
Proof.
  intros M curve x Hs Fx [Hx Hb]. rewrite apply_at_pos by apply Hs. destruct (half_val curve Hs) as [Eh Fh]. destruct (last_val _ curve Hs) as (EL & FL & UL). cbv zeta in *. destruct Hs as [H0 H]. unfold at_pos. set (last := f32_sub _ _) in *. set (L := INR (length curve - 1)) in *.
  destruct (f32_int 0) as [E0 F0]; [lia|]. destruct (f32_int 1) as [E1 F1]; [lia|]. assert (HL : 0 <= L <= 16777216). { unfold L. rewrite INR_IZR_INZ. split; apply IZR_le; change (2 ^ 24)%Z with 16777216%Z in H; lia. }
  assert (B1 : 1 <= bpow radix2 100) by (change 1 with (bpow radix2 0); apply bpow_le; lia).
  assert (D101 : bpow radix2 101 = 2 * bpow radix2 100) by (change 101%Z with (1 + 100)%Z; rewrite bpow_plus; reflexivity).
  assert (D125 : bpow radix2 125 = 16777216 * bpow radix2 101) by (change 125%Z with (24 + 101)%Z; rewrite bpow_plus; reflexivity).
  pose proof (fexp_valid 24 128 f32_prec) as Vf.
  destruct (plus_err 24 128 f32_prec f32_emax x (f32_of_Z 1) 101 Fx F1 (e32 101 ltac:(lia))) as (Fs & Vs & _ & Bs). { rewrite E1, D101. eapply Rle_trans; [apply Rabs_triang|]. rewrite (Rabs_pos_eq 1) by lra. lra. }
  change (Bplus mode_NE x (f32_of_Z 1)) with (f32_add x (f32_of_Z 1)) in *. unfold position. set (s := f32_add x (f32_of_Z 1)) in *. rewrite E1 in Vs.
  destruct (mult_err 24 128 f32_prec f32_emax (half curve) s 125 Fh Fs ltac:(unfold exp_ok; lia)) as (Fv & Vv & _ & _). { rewrite Eh, D125, Rabs_mult. apply Rmult_le_compat; try apply Rabs_pos; [rewrite Rabs_pos_eq; lra|exact Bs]. }
  change (Bmult mode_NE (half curve) s) with (f32_mul (half curve) s) in *. set (v := f32_mul (half curve) s) in *. rewrite Eh in Vv.
  destruct (Rlt_dec (B2R x) 0) as [N|N].
  - rewrite Rabs_left in Hx by exact N. assert (S0 : B2R s <= 0) by (rewrite Vs; apply round_le_generic; [exact Vf|apply valid_rnd_N|apply generic_format_0|lra]).
    assert (V0 : B2R v <= 0) by (rewrite Vv; apply round_le_generic; [exact Vf|apply valid_rnd_N|apply generic_format_0|nra]). rewrite <- E0 in V0. apply f32_le_R in V0; [|exact Fv|exact F0]. rewrite V0. apply index_nth. exact H0.
  - rewrite Rabs_pos_eq in Hx by lra. assert (S2 : 2 <= B2R s) by (rewrite Vs; apply round_ge_generic; [exact Vf|apply valid_rnd_N|apply (format_int 24 128 f32_prec f32_emax 2); lia|lra]).
    assert (VL : L <= B2R v) by (rewrite Vv; apply round_ge_generic; [exact Vf|apply valid_rnd_N|rewrite <- EL; apply generic_format_B2R|nra]).
    destruct (f32_le v (f32_of_Z 0)) eqn:C0.
    + apply f32_le_R in C0; [|exact Fv|exact F0]. rewrite E0 in C0. assert (length curve - 1 = 0)%nat as ->; [|apply index_nth; exact H0]. apply INR_eq. fold L. cbn [INR]. lra.
    + rewrite <- EL in VL. apply f32_le_R in VL; [|exact FL|exact Fv]. rewrite VL, UL, Nat2Z.id. apply index_nth. lia.
Qed.

(** ** Quanta *)
Section Quanta.
Context {T V : Type}.
Variable A : arith T V.
Notation zero := (v_zero A).

Lemma map_res_rel : forall X Y (f : X -> res Y) (P : X -> Y -> Prop) l, (forall x, In x l -> exists y, f x = Ok y /\ P x y) -> exists r, map_res f l = Ok r /\ Forall2 P l r.
Proof.
  intros X Y f P l. induction l as [|x l IH]; intros H; [exists []; split; [reflexivity|constructor]|]. destruct (H x (or_introl eq_refl)) as (y & E & Q). destruct IH as (r & Er & Qr); [intros z Hz; apply H; right; exact Hz|].
  exists (y :: r). cbn [map_res]. rewrite E. cbn [bind]. rewrite Er. split; [reflexivity|constructor; assumption].
Qed.
Lemma Forall2_nth : forall X Y (P : X -> Y -> Prop) l r d e i, Forall2 P l r -> (i < length l)%nat -> P (nth i l d) (nth i r e).
Proof. intros X Y P l r d e i H. revert i. induction H; intros [|i] Hi; cbn [length nth] in *; try lia; [assumption|apply IHForall2; lia]. Qed.

Lemma shape_channels_ok : forall (P : V -> V -> Prop) curve (q : list (chan V)) s, (forall c x, In c q -> In x (c_val c) -> exists y, apply_curve A curve x = Ok y /\ P x y) ->
  exists out, shape_channels A curve s q = Ok out /\ Forall2 (fun a b => Forall2 P (c_val a) (c_val b)) q out.
Proof.
  intros P curve q. induction q as [|c q IH]; intros s H; [exists []; split; [reflexivity|constructor]|]. cbn [shape_channels]. destruct (map_res_rel _ _ (apply_curve A curve) P (c_val c)) as (r & E & Q); [intros x Hx; apply (H c); [left; reflexivity|exact Hx]|]. rewrite E. cbn [bind].
  destruct (IH (S s)) as (out & Eo & Qo); [intros c' x Hc Hx; apply (H c'); [right; exact Hc|exact Hx]|]. rewrite Eo. cbn [bind]. eexists. split; [reflexivity|]. constructor; assumption.
Qed.
Lemma shape_ok : forall (P : V -> V -> Prop) size curve silence s (input output : list (chan V)), output <> [] -> Forall (fun c => length (c_val c) = size) input -> silent_zero (sops_of A) size input ->
  (silence = true -> P zero zero) -> (forall c x, In c input -> In x (c_val c) -> exists y, apply_curve A curve x = Ok y /\ P x y) ->
  exists out, shape_quantum A size (mk_shaper (Some curve) silence) s input output = Ok out /\
    forall c t, (c < length input)%nat -> (t < size)%nat -> P (sample zero input c t) (sample zero out c t).
Proof.
  intros P size curve silence s input output Ho Hl Hz H0 Hp. unfold shape_quantum. cbn [sh_silence sh_curve]. destruct (is_silent input && silence) eqn:S.
  - apply andb_prop in S. destruct S as [S ->]. destruct output as [|o os]; [contradiction|]. eexists. split; [reflexivity|]. intros c t Hc Ht.
    pose proof (silent_sample (sops_of A) size input c t Hz S) as E1. pose proof (sample_silence (sops_of A) size c t) as E2. change (s_zero (sops_of A)) with zero in *. rewrite E1. cbn [from_option] in *. setoid_rewrite E2. apply H0. reflexivity.
  - destruct (shape_channels_ok P curve input s Hp) as (out & E & Q). exists out. split; [exact E|]. intros c t Hc Ht. unfold sample.
    pose proof (Forall2_nth _ _ _ _ _ (mk_chan 0 []) (mk_chan 0 []) c Q Hc) as R. apply (Forall2_nth _ _ _ _ _ zero zero t R). rewrite Forall_forall in Hl. rewrite Hl by (apply nth_In; exact Hc). exact Ht.
Qed.
End Quanta.

Lemma middle : forall curve st, curve <> [] -> set_curve exact curve = Ok st -> sh_curve st = Some curve /\ (sh_silence st = true -> Rabs (shaped curve 0) < / 1000000000).
Proof.
  intros curve st Hc E. assert (Hl : (0 < length curve)%nat) by (destruct curve; [contradiction|cbn; lia]). unfold set_curve in E. pose proof (Nat.div_mod_eq (length curve) 2) as DM. set (h := (length curve / 2)%nat) in *.
  unfold shaped. replace ((0 + 1) / 2 * INR (length curve - 1)) with (INR (length curve - 1) / 2) by field.
  destruct (Nat.eqb_spec (length curve mod 2) 1) as [M|M].
  - rewrite index_nth with (d := 0) in E by lia. cbn [bind] in E. injection E as <-. cbn [sh_curve sh_silence]. split; [reflexivity|]. intros Q. cbn [exact v_lt v_abs v_frac] in Q. unfold R_lt in Q. destruct (Rlt_dec _ _) as [L|]; [|discriminate].
    replace (INR (length curve - 1) / 2) with (IZR (Z.of_nat h)); [rewrite curve_point|].
    + rewrite Z.min_l, Z.max_r, Nat2Z.id by lia. lra.
    + rewrite <- INR_IZR_INZ. replace (length curve - 1)%nat with (2 * h)%nat by lia. rewrite mult_INR. cbn [INR]. field.
  - assert (M0 : (length curve mod 2 = 0)%nat) by (pose proof (Nat.mod_upper_bound (length curve) 2); lia). assert (Hh : (1 <= h)%nat) by lia.
    rewrite (proj2 (Nat.leb_le 1 h) Hh) in E. cbn [check bind] in E. rewrite !index_nth with (d := 0) in E by lia. cbn [bind] in E. injection E as <-. cbn [sh_curve sh_silence]. split; [reflexivity|]. intros Q. cbn [exact v_lt v_abs v_frac v_div v_add v_of_Z] in Q. unfold R_lt in Q. destruct (Rlt_dec _ _) as [L|]; [|discriminate].
    assert (Ep : INR (length curve - 1) / 2 = IZR (Z.of_nat (h - 1)) + / 2). { rewrite <- INR_IZR_INZ. replace (length curve - 1)%nat with (2 * (h - 1) + 1)%nat by lia. rewrite plus_INR, mult_INR. cbn [INR]. field. }
    unfold curve_at. cbv zeta. assert (Hp : 0 <= INR (length curve - 1)) by apply pos_INR. rewrite Rmin_left by lra. rewrite Rmax_right by lra. rewrite Ep. assert (Ef : Zfloor (IZR (Z.of_nat (h - 1)) + / 2) = Z.of_nat (h - 1)) by (apply Zfloor_imp; rewrite plus_IZR; lra). rewrite Ef.
    replace (Z.to_nat (Z.of_nat (h - 1) + 1)) with h by lia. rewrite Nat2Z.id. replace (1 - (IZR (Z.of_nat (h - 1)) + / 2 - IZR (Z.of_nat (h - 1)))) with (/ 2) by field. replace (IZR (Z.of_nat (h - 1)) + / 2 - IZR (Z.of_nat (h - 1))) with (/ 2) by ring.
    replace (/ 2 * nth (h - 1) curve 0 + / 2 * nth h curve 0) with ((nth (h - 1) curve 0 + nth h curve 0) / 2) by field. lra.
Qed.

Lemma set_curve_ok : forall T V (A : arith T V) curve, curve <> [] -> exists silence, set_curve A curve = Ok (mk_shaper (Some curve) silence).
Proof.
  intros T V A curve Hc. assert (Hl : (0 < length curve)%nat) by (destruct curve; [contradiction|cbn; lia]). unfold set_curve. pose proof (Nat.div_mod_eq (length curve) 2) as DM. set (h := (length curve / 2)%nat) in *.
  destruct (Nat.eqb_spec (length curve mod 2) 1) as [M|M].
  - rewrite index_nth with (d := v_zero A) by lia. eexists. reflexivity.
  - assert (M0 : (length curve mod 2 = 0)%nat) by (pose proof (Nat.mod_upper_bound (length curve) 2); lia). rewrite (proj2 (Nat.leb_le 1 h)) by lia. cbn [check bind]. rewrite !index_nth with (d := v_zero A) by lia. eexists. reflexivity.
Qed.

Lemma shape_exact : forall size curve s (input output : list (chan R)), curve <> [] -> output <> [] -> Forall (fun c => length (c_val c) = size) input -> silent_zero (sops_of exact) size input ->
  exists st out, set_curve exact curve = Ok st /\ shape_quantum exact size st s input output = Ok out /\
    forall c t, (c < length input)%nat -> (t < size)%nat -> sample 0 out c t = shaped curve (sample 0 input c t) \/ (sample 0 input c t = 0 /\ sample 0 out c t = 0 /\ Rabs (shaped curve 0) < / 1000000000).
Proof.
  intros size curve s input output Hc Ho Hl Hz. destruct (set_curve_ok _ _ exact curve Hc) as (b & E). destruct (middle curve _ Hc E) as [_ Hm]. cbn [sh_silence] in Hm.
  destruct (shape_ok exact (fun x y => y = shaped curve x \/ (x = 0 /\ y = 0 /\ Rabs (shaped curve 0) < / 1000000000)) size curve b s input output Ho Hl Hz) as (out & Eo & P).
  - intros Eb. right. repeat split; auto.
  - intros c x _ _. exists (shaped curve x). split; [apply apply_exact; exact Hc|left; reflexivity].
  - exists (mk_shaper (Some curve) b), out. auto.
Qed.

Lemma shape_safe : forall M size curve s (input output : list (chan f32)), small_curve curve -> output <> [] -> Forall (fun c => length (c_val c) = size) input -> silent_zero (sops_of (ieee M)) size input ->
  exists st out, set_curve (ieee M) curve = Ok st /\ shape_quantum (ieee M) size st s input output = Ok out.
Proof.
  intros M size curve s input output Hc Ho Hl Hz. destruct (set_curve_ok _ _ (ieee M) curve) as (b & E); [intros ->; destruct Hc as [H _]; cbn in H; lia|].
  destruct (shape_ok (ieee M) (fun _ _ => True) size curve b s input output Ho Hl Hz) as (out & Eo & _); [auto| |exists (mk_shaper (Some curve) b), out; auto].
  intros c x _ _. destruct (apply_safe M curve x Hc) as (y & Ey). exists y. auto.
Qed.
