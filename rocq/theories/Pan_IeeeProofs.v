(** Panning in floating point arithmetic. *)
From Coq Require Import List Arith Bool ZArith Reals Lra Lia.
From Flocq Require Import Core BinarySingleNaN Plus_error.
From Verif Require Import Float_Model Float_Proofs Float_BoundProofs Float_ErrorProofs Common_Model Arith_Model Osc_IeeeProofs Delay_IeeeProofs Route_Proofs Pan_Model.
Import ListNotations.
Local Open Scope R_scope.

(** ** Operations whose exact result lies between two floating point numbers *)
Section Box.
Variables prec emax : Z.
Context (prec_gt_0_ : Prec_gt_0 prec) (prec_lt_emax_ : Prec_lt_emax prec emax).
Notation float := (binary_float prec emax).
Notation fexp := (SpecFloat.fexp prec emax).
Notation rnd := (round radix2 fexp ZnearestE).
Definition boxed (z : float) (lo hi r : R) : Prop := is_finite z = true /\ B2R z = rnd r /\ lo <= B2R z <= hi.
Lemma box_small (a b : float) r : B2R a <= r <= B2R b -> Rlt_bool (Rabs (rnd r)) (bpow radix2 emax) = true /\ B2R a <= rnd r <= B2R b.
Proof.
  intros H. pose proof (rnd_between prec emax prec_gt_0_ (B2R a) (B2R b) r (generic_format_B2R _ _ a) (generic_format_B2R _ _ b) H) as G. split; [|exact G].
  apply Rlt_bool_true. pose proof (abs_B2R_lt_emax prec emax a) as Ba. pose proof (abs_B2R_lt_emax prec emax b) as Bb. apply Rabs_lt_inv in Ba. apply Rabs_lt_inv in Bb. apply Rabs_lt. lra.
Qed.
Lemma minus_box (x y a b : float) : is_finite x = true -> is_finite y = true -> B2R a <= B2R x - B2R y <= B2R b -> boxed (Bminus mode_NE x y) (B2R a) (B2R b) (B2R x - B2R y).
Proof.
  intros Fx Fy H. destruct (box_small a b _ H) as [S G]. pose proof (Bminus_correct prec emax _ _ mode_NE x y Fx Fy) as C. cbn [round_mode] in C. rewrite S in C.
  destruct C as (C1 & C2 & _). split; [exact C2|]. rewrite C1. split; [reflexivity|exact G].
Qed.
Lemma plus_box (x y a b : float) : is_finite x = true -> is_finite y = true -> B2R a <= B2R x + B2R y <= B2R b -> boxed (Bplus mode_NE x y) (B2R a) (B2R b) (B2R x + B2R y).
Proof.
  intros Fx Fy H. destruct (box_small a b _ H) as [S G]. pose proof (Bplus_correct prec emax _ _ mode_NE x y Fx Fy) as C. cbn [round_mode] in C. rewrite S in C.
  destruct C as (C1 & C2 & _). split; [exact C2|]. rewrite C1. split; [reflexivity|exact G].
Qed.
Lemma mult_box (x y a b : float) : is_finite x = true -> is_finite y = true -> B2R a <= B2R x * B2R y <= B2R b -> boxed (Bmult mode_NE x y) (B2R a) (B2R b) (B2R x * B2R y).
Proof.
  intros Fx Fy H. destruct (box_small a b _ H) as [S G]. pose proof (Bmult_correct prec emax _ _ mode_NE x y) as C. cbn [round_mode] in C. rewrite S in C.
  destruct C as (C1 & C2 & _). rewrite Fx, Fy in C2. split; [exact C2|]. rewrite C1. split; [reflexivity|exact G].
Qed.
Lemma div_box (x y a b : float) : is_finite x = true -> B2R y <> 0 -> B2R a <= B2R x / B2R y <= B2R b -> boxed (Bdiv mode_NE x y) (B2R a) (B2R b) (B2R x / B2R y).
Proof.
  intros Fx Ny H. destruct (box_small a b _ H) as [S G]. pose proof (Bdiv_correct prec emax _ _ mode_NE x y Ny) as C. cbn [round_mode] in C. rewrite S in C.
  destruct C as (C1 & C2 & _). rewrite Fx in C2. split; [exact C2|]. rewrite C1. split; [reflexivity|exact G].
Qed.
(** a difference of two different numbers does not round to zero *)
Lemma diff_pos (x y : float) : B2R y < B2R x -> 0 < rnd (B2R x - B2R y).
Proof.
  intros H. pose proof (fexp_valid prec emax prec_gt_0_) as V.
  assert (N : rnd (B2R x + - B2R y) <> 0). { apply (round_plus_neq_0 radix2 (FLT_exp (3 - emax - prec) prec)); [apply valid_rnd_N|apply generic_format_B2R|apply generic_format_opp, generic_format_B2R|lra]. }
  assert (0 <= rnd (B2R x - B2R y)). { rewrite <- (rnd_0 prec emax) at 1. apply rnd_mono; [assumption|lra]. }
  unfold Rminus in *. lra.
Qed.
Lemma inf_of (z : float) s : B2SF z = SpecFloat.S754_infinity s -> z = B754_infinity s.
Proof. destruct z; cbn; try discriminate. intros E. injection E as ->. reflexivity. Qed.
(** products and sums of non-negative numbers: a number, or infinity *)
Lemma mult_up (x y : float) : is_finite x = true -> is_finite y = true -> 0 <= B2R x -> 0 <= B2R y ->
  (rnd (B2R x * B2R y) < bpow radix2 emax /\ is_finite (Bmult mode_NE x y) = true /\ B2R (Bmult mode_NE x y) = rnd (B2R x * B2R y)) \/
  (bpow radix2 emax <= rnd (B2R x * B2R y) /\ Bmult mode_NE x y = B754_infinity false).
Proof.
  intros Fx Fy Hx Hy. pose proof (Bmult_correct prec emax _ _ mode_NE x y) as C. cbn [round_mode] in C.
  assert (P : 0 <= rnd (B2R x * B2R y)). { rewrite <- (rnd_0 prec emax) at 1. apply rnd_mono; [assumption|]. apply Rmult_le_pos; assumption. }
  destruct (Rlt_bool_spec (Rabs (rnd (B2R x * B2R y))) (bpow radix2 emax)) as [L|L]; rewrite Rabs_pos_eq in L by exact P.
  - left. destruct C as (C1 & C2 & _). rewrite Fx, Fy in C2. split; [exact L|]. split; assumption.
  - right. split; [exact L|]. pose proof (bpow_gt_0 radix2 emax).
    assert (N : B2R x <> 0 /\ B2R y <> 0). { split; intros E; rewrite E, ?Rmult_0_l, ?Rmult_0_r, (rnd_0 prec emax) in L; lra. }
    rewrite (pos_sign prec emax x Fx) in C by lra. rewrite (pos_sign prec emax y Fy) in C by lra. cbn in C. apply inf_of. exact C.
Qed.
Lemma plus_up (x y : float) : is_finite x = true -> is_finite y = true -> 0 < B2R x -> 0 <= B2R y ->
  (rnd (B2R x + B2R y) < bpow radix2 emax /\ is_finite (Bplus mode_NE x y) = true /\ B2R (Bplus mode_NE x y) = rnd (B2R x + B2R y)) \/
  (bpow radix2 emax <= rnd (B2R x + B2R y) /\ Bplus mode_NE x y = B754_infinity false).
Proof.
  intros Fx Fy Hx Hy. pose proof (Bplus_correct prec emax _ _ mode_NE x y Fx Fy) as C. cbn [round_mode] in C.
  assert (P : 0 <= rnd (B2R x + B2R y)). { rewrite <- (rnd_0 prec emax) at 1. apply rnd_mono; [assumption|]. lra. }
  destruct (Rlt_bool_spec (Rabs (rnd (B2R x + B2R y))) (bpow radix2 emax)) as [L|L]; rewrite Rabs_pos_eq in L by exact P.
  - left. destruct C as (C1 & C2 & _). split; [exact L|]. split; assumption.
  - right. split; [exact L|]. rewrite (pos_sign prec emax x Fx Hx) in C. cbn in C. apply inf_of. apply C.
Qed.
End Box.
Arguments boxed {prec emax}.
Notation rnd64 := (round radix2 (SpecFloat.fexp 53 1024) ZnearestE).
Notation rnd32 := (round radix2 (SpecFloat.fexp 24 128) ZnearestE).
Notation big64 := (bpow radix2 1024).

Lemma mono64 a b : a <= b -> rnd64 a <= rnd64 b. Proof. apply (rnd_mono 53 1024 f64_prec). Qed.
Lemma mono32 a b : a <= b -> rnd32 a <= rnd32 b. Proof. apply (rnd_mono 24 128 f32_prec). Qed.
Lemma fixed64 (x : f64) : rnd64 (B2R x) = B2R x. Proof. apply round_generic; [apply valid_rnd_N|apply generic_format_B2R]. Qed.
Lemma fixed32 (x : f32) : rnd32 (B2R x) = B2R x. Proof. apply round_generic; [apply valid_rnd_N|apply generic_format_B2R]. Qed.
Lemma zero64 : rnd64 0 = 0. Proof. apply (rnd_0 53 1024). Qed.
Lemma min64 (x y : f64) : is_finite x = true -> is_finite y = true -> is_finite (f64_min x y) = true /\ B2R (f64_min x y) = Rmin (B2R x) (B2R y).
Proof.
  intros Fx Fy. unfold f64_min, f64_is_nan. rewrite (finite_not_nan _ _ x Fx), (finite_not_nan _ _ y Fy). destruct (f64_lt y x) eqn:C.
  - apply f64_lt_R in C; [|assumption|assumption]. split; [assumption|]. rewrite Rmin_right by lra. reflexivity.
  - split; [assumption|]. rewrite Rmin_left; [reflexivity|]. apply Rnot_lt_le. intros L. apply f64_lt_R in L; congruence.
Qed.
Lemma max64 (x y : f64) : is_finite x = true -> is_finite y = true -> is_finite (f64_max x y) = true /\ B2R (f64_max x y) = Rmax (B2R x) (B2R y).
Proof.
  intros Fx Fy. unfold f64_max, f64_is_nan. rewrite (finite_not_nan _ _ x Fx), (finite_not_nan _ _ y Fy). destruct (f64_lt x y) eqn:C.
  - apply f64_lt_R in C; [|assumption|assumption]. split; [assumption|]. rewrite Rmax_right by lra. reflexivity.
  - split; [assumption|]. rewrite Rmax_left; [reflexivity|]. apply Rnot_lt_le. intros L. apply f64_lt_R in L; congruence.
Qed.

Section Gains.
Variable M : libm.
Notation A := (ieee M).
Lemma clamp64 (x lo hi : f64) : is_finite x = true -> is_finite lo = true -> is_finite hi = true -> B2R lo <= B2R hi ->
  exists c, t_clamp A x lo hi = Ok c /\ is_finite c = true /\ B2R c = Rmax (B2R lo) (Rmin (B2R x) (B2R hi)).
Proof.
  intros Fx Fl Fh H. unfold t_clamp. cbn [ieee t_le t_lt]. rewrite (proj2 (f64_le_R lo hi Fl Fh) H). cbn [check bind]. eexists. split; [reflexivity|].
  destruct (f64_lt x lo) eqn:C; [apply f64_lt_R in C; [|assumption|assumption]; split; [assumption|]; rewrite Rmin_left, Rmax_left by lra; reflexivity|].
  assert (B2R lo <= B2R x). { apply Rnot_lt_le. intros L. apply f64_lt_R in L; congruence. }
  destruct (f64_lt hi x) eqn:D; [apply f64_lt_R in D; [|assumption|assumption]; split; [assumption|]; rewrite Rmin_right, Rmax_right by lra; reflexivity|].
  assert (B2R x <= B2R hi). { apply Rnot_lt_le. intros L. apply f64_lt_R in L; congruence. }
  split; [assumption|]. rewrite Rmin_left, Rmax_right by lra. reflexivity.
Qed.
Definition linear_value (lo hi r d : R) : R := rnd64 (1 - rnd64 (rnd64 (r * rnd64 (Rmax lo (Rmin d hi) - lo)) / rnd64 (hi - lo))).
Lemma unit_frac a b : 0 <= a <= b -> 0 < b -> 0 <= a / b <= 1.
Proof. intros H Hb. split; [apply Rmult_le_pos; [lra|left; apply Rinv_0_lt_compat; exact Hb]|]. apply Rmult_le_reg_r with b; [exact Hb|]. unfold Rdiv. rewrite Rmult_assoc, Rinv_l by lra. lra. Qed.
Lemma linear_ieee (p : settings (T := f64)) (d : f64) : p_model p = Linear -> is_finite (p_ref p) = true -> is_finite (p_max p) = true -> is_finite (p_rolloff p) = true -> is_finite d = true ->
  0 <= B2R (p_ref p) -> 0 < B2R (p_max p) -> 0 <= B2R (p_rolloff p) -> B2R (p_ref p) <> B2R (p_max p) ->
  exists g, gain_at A p d = Ok g /\ is_finite g = true /\ 0 <= B2R g <= 1 /\
    B2R g = linear_value (Rmin (B2R (p_ref p)) (B2R (p_max p))) (Rmax (B2R (p_ref p)) (B2R (p_max p))) (Rmax 0 (Rmin (B2R (p_rolloff p)) 1)) (B2R d).
Proof.
  intros Hm Fr Fm Ff Fd Hr Hx Hf Hne. unfold gain_at. rewrite Hm. unfold t_zero, t_one. cbn [ieee t_of_Z t_min t_max t_sub t_div t_mul].
  destruct one_val as [E1 F1]. destruct zero_val as [E0 F0].
  destruct (clamp64 (p_rolloff p) (f64_of_Z 0) (f64_of_Z 1) Ff F0 F1 ltac:(lra)) as (r & -> & Frr & Er). cbn [bind]. rewrite E0, E1 in Er.
  destruct (min64 _ _ Fr Fm) as [Fl El]. destruct (max64 _ _ Fr Fm) as [Fh Eh].
  assert (L : Rmin (B2R (p_ref p)) (B2R (p_max p)) < Rmax (B2R (p_ref p)) (B2R (p_max p))) by (unfold Rmin, Rmax; destruct (Rle_dec _ _); lra).
  assert (L0 : 0 <= Rmin (B2R (p_ref p)) (B2R (p_max p))) by (unfold Rmin; destruct (Rle_dec _ _); lra).
  set (lo := f64_min _ _) in *. set (hi := f64_max _ _) in *. 
  destruct (clamp64 d lo hi Fd Fl Fh ltac:(lra)) as (c & -> & Fc & Ec). cbn [bind]. eexists. split; [reflexivity|].
  rewrite <- El, <- Eh, <- Er in *. clearbody lo hi. clear El Eh.
  assert (Hc : B2R lo <= B2R c <= B2R hi) by (rewrite Ec; unfold Rmax, Rmin; destruct (Rle_dec (B2R d) (B2R hi)), (Rle_dec (B2R lo) _); lra).
  assert (Hrr : 0 <= B2R r <= 1) by (rewrite Er; unfold Rmax, Rmin; destruct (Rle_dec (B2R (p_rolloff p)) 1), (Rle_dec 0 _); lra).
  unfold linear_value. rewrite <- Ec. clear Ec Er.
  destruct (minus_box 53 1024 f64_prec f64_emax c lo (f64_of_Z 0) hi Fc Fl ltac:(rewrite E0; lra)) as (Fa & Ea & Ha). rewrite E0 in Ha. fold (f64_sub c lo) in *.
  destruct (minus_box 53 1024 f64_prec f64_emax hi lo (f64_of_Z 0) hi Fh Fl ltac:(rewrite E0; lra)) as (Fb & Eb & Hb). rewrite E0 in Hb. fold (f64_sub hi lo) in *.
  pose proof (diff_pos 53 1024 f64_prec hi lo L) as Pb. rewrite <- Eb in Pb.
  assert (Hab : B2R (f64_sub c lo) <= B2R (f64_sub hi lo)) by (rewrite Ea, Eb; apply mono64; lra).
  set (a := f64_sub c lo) in *. set (b := f64_sub hi lo) in *.
  destruct (mult_box 53 1024 f64_prec f64_emax r a (f64_of_Z 0) a Frr Fa) as (Fu & Eu & Hu).
  { rewrite E0. split; [apply Rmult_le_pos; lra|]. rewrite <- (Rmult_1_l (B2R a)) at 2. apply Rmult_le_compat_r; lra. }
  rewrite E0 in Hu. fold (f64_mul r a) in *. set (u := f64_mul r a) in *.
  pose proof (unit_frac (B2R u) (B2R b) ltac:(lra) Pb) as Q.
  destruct (div_box 53 1024 f64_prec f64_emax u b (f64_of_Z 0) (f64_of_Z 1) Fu ltac:(lra) ltac:(lra)) as (Fq & Eq & Hq). rewrite E0, E1 in Hq. fold (f64_div u b) in *. set (q := f64_div u b) in *.
  destruct (minus_box 53 1024 f64_prec f64_emax (f64_of_Z 1) q (f64_of_Z 0) (f64_of_Z 1) F1 Fq ltac:(lra)) as (Fg & Eg & Hg). rewrite E0, E1 in Hg. fold (f64_sub (f64_of_Z 1) q) in *.
  split; [exact Fg|]. split; [exact Hg|]. rewrite Eg, E1, Eq, Eu, Ea, Eb. reflexivity.
Qed.
Lemma linear_value_mono (lo hi : f64) r d e : B2R lo < B2R hi -> 0 <= r -> d <= e -> linear_value (B2R lo) (B2R hi) r e <= linear_value (B2R lo) (B2R hi) r d.
Proof.
  intros L Hr H. pose proof (diff_pos 53 1024 f64_prec hi lo L) as Pb. unfold linear_value. apply mono64. apply Rplus_le_compat_l. apply Ropp_le_contravar. apply mono64.
  apply Rmult_le_compat_r; [left; apply Rinv_0_lt_compat; exact Pb|]. apply mono64. apply Rmult_le_compat_l; [exact Hr|]. apply mono64. apply Rplus_le_compat_r.
  apply Rle_max_compat_l. apply Rle_min_compat_r. exact H.
Qed.

Definition inverse_value (ref f d : R) : R :=
  let w := rnd64 (ref + rnd64 (f * rnd64 (Rmax ref d - ref))) in if Rlt_bool w big64 then rnd64 (ref / w) else 0.
Lemma inverse_ieee (p : settings (T := f64)) (d : f64) : p_model p = Inverse -> is_finite (p_ref p) = true -> is_finite (p_rolloff p) = true -> is_finite d = true ->
  0 < B2R (p_ref p) -> 0 <= B2R (p_rolloff p) -> 0 <= B2R d ->
  exists g, gain_at A p d = Ok g /\ is_finite g = true /\ 0 <= B2R g <= 1 /\ B2R g = if Rlt_dec 0 (B2R d) then inverse_value (B2R (p_ref p)) (B2R (p_rolloff p)) (B2R d) else 1.
Proof.
  intros Hm Fr Ff Fd Hr Hf Hd. unfold gain_at. rewrite Hm. unfold t_zero, t_one. cbn [ieee t_of_Z t_max t_sub t_div t_mul t_add t_lt].
  destruct one_val as [E1 F1]. destruct zero_val as [E0 F0].
  destruct (Rlt_dec 0 (B2R d)) as [L|L].
  2: { destruct (f64_lt (f64_of_Z 0) d) eqn:C; [apply f64_lt_R in C; [|assumption|assumption]; rewrite E0 in C; lra|]. eexists. split; [reflexivity|]. split; [exact F1|]. rewrite E1. lra. }
  rewrite (proj2 (f64_lt_R (f64_of_Z 0) d F0 Fd)) by (rewrite E0; exact L). eexists. split; [reflexivity|].
  destruct (max64 (p_rolloff p) (f64_of_Z 0) Ff F0) as [Ff' Ef]. rewrite E0, Rmax_left in Ef by exact Hf. set (f := f64_max (p_rolloff p) (f64_of_Z 0)) in *. clearbody f. rewrite <- Ef in *. clear Ef.
  destruct (max64 (p_ref p) d Fr Fd) as [Fx Ex]. set (x := f64_max (p_ref p) d) in *. set (ref := p_ref p) in *.
  assert (Hx : B2R ref <= B2R x) by (rewrite Ex; apply Rmax_l). unfold inverse_value. rewrite <- Ex. clearbody x ref. clear Ex. cbv zeta.
  destruct (minus_box 53 1024 f64_prec f64_emax x ref (f64_of_Z 0) x Fx Fr ltac:(rewrite E0; lra)) as (Fa & Ea & Ha). rewrite E0 in Ha. fold (f64_sub x ref) in *. set (a := f64_sub x ref) in *. rewrite <- Ea. clearbody a. clear Ea.
  assert (Z : forall s, is_finite (f64_div ref (B754_infinity s)) = true /\ B2R (f64_div ref (B754_infinity s)) = 0) by (intros s; destruct ref; try discriminate; split; reflexivity).
  destruct (mult_up 53 1024 f64_prec f64_emax f a Ff' Fa Hf ltac:(lra)) as [(B & Fu & Eu)|[B Eu]].
  - fold (f64_mul f a) in *. rewrite <- Eu. set (u := f64_mul f a) in *.
    assert (Pu : 0 <= B2R u). { rewrite Eu, <- zero64. apply mono64. apply Rmult_le_pos; lra. }
    destruct (plus_up 53 1024 f64_prec f64_emax ref u Fr Fu Hr Pu) as [(C & Fw & Ew)|[C Ew]]; fold (f64_add ref u) in *.
    + rewrite Rlt_bool_true by exact C. rewrite <- Ew. set (w := f64_add ref u) in *.
      assert (Hw : B2R ref <= B2R w). { rewrite Ew. rewrite <- (fixed64 ref) at 1. apply mono64. lra. }
      destruct (div_box 53 1024 f64_prec f64_emax ref w (f64_of_Z 0) (f64_of_Z 1) Fr ltac:(lra)) as (Fg & Eg & Hg).
      { rewrite E0, E1. apply unit_frac; lra. }
      rewrite E0, E1 in Hg. split; [exact Fg|]. split; [exact Hg|exact Eg].
    + rewrite Rlt_bool_false by exact C. rewrite Ew. destruct (Z false) as [Z1 Z2]. split; [exact Z1|]. rewrite Z2. lra.
  - fold (f64_mul f a) in Eu. rewrite Eu. rewrite Rlt_bool_false.
    2: { eapply Rle_trans; [exact B|]. rewrite <- (round_generic radix2 (SpecFloat.fexp 53 1024) ZnearestE (rnd64 (B2R f * B2R a))) at 1; [|apply generic_format_round; [apply (fexp_valid 53 1024 f64_prec)|apply valid_rnd_N]]. apply mono64. lra. }
    replace (f64_add ref (B754_infinity false)) with (B754_infinity false : f64) by (destruct ref; try discriminate; reflexivity).
    destruct (Z false) as [Z1 Z2]. split; [exact Z1|]. rewrite Z2. lra.
Qed.
Lemma inverse_value_mono (ref : f64) f d e : 0 < B2R ref -> 0 <= f -> d <= e -> inverse_value (B2R ref) f e <= inverse_value (B2R ref) f d.
Proof.
  intros Hr Hf H. unfold inverse_value. cbv zeta.
  assert (W : forall d, B2R ref <= rnd64 (B2R ref + rnd64 (f * rnd64 (Rmax (B2R ref) d - B2R ref)))).
  { intros x. rewrite <- (fixed64 ref) at 1. apply mono64. assert (0 <= rnd64 (f * rnd64 (Rmax (B2R ref) x - B2R ref))); [|lra]. rewrite <- zero64 at 1. apply mono64. apply Rmult_le_pos; [exact Hf|]. rewrite <- zero64 at 1. apply mono64. pose proof (Rmax_l (B2R ref) x). lra. }
  assert (L : rnd64 (B2R ref + rnd64 (f * rnd64 (Rmax (B2R ref) d - B2R ref))) <= rnd64 (B2R ref + rnd64 (f * rnd64 (Rmax (B2R ref) e - B2R ref)))).
  { apply mono64. apply Rplus_le_compat_l. apply mono64. apply Rmult_le_compat_l; [exact Hf|]. apply mono64. apply Rplus_le_compat_r. apply Rle_max_compat_l. exact H. }
  pose proof (W d) as Wd. set (w := rnd64 (B2R ref + rnd64 (f * rnd64 (Rmax (B2R ref) d - B2R ref)))) in *. set (v := rnd64 (B2R ref + rnd64 (f * rnd64 (Rmax (B2R ref) e - B2R ref)))) in *. clearbody w v.
  destruct (Rlt_bool_spec v big64) as [Lv|Lv].
  - rewrite Rlt_bool_true by lra. apply mono64. apply Rmult_le_compat_l; [lra|]. apply Rinv_le_contravar; lra.
  - destruct (Rlt_bool w big64); [|lra]. rewrite <- zero64 at 1. apply mono64. apply Rmult_le_pos; [lra|]. left. apply Rinv_0_lt_compat. lra.
Qed.
(** at the distance zero the gain is 1, the largest *)
Lemma inverse_value_le1 (ref : f64) f d : 0 < B2R ref -> 0 <= f -> inverse_value (B2R ref) f d <= 1.
Proof.
  intros Hr Hf. unfold inverse_value. cbv zeta.
  assert (W : B2R ref <= rnd64 (B2R ref + rnd64 (f * rnd64 (Rmax (B2R ref) d - B2R ref)))).
  { rewrite <- (fixed64 ref) at 1. apply mono64. assert (0 <= rnd64 (f * rnd64 (Rmax (B2R ref) d - B2R ref))); [|lra]. rewrite <- zero64 at 1. apply mono64. apply Rmult_le_pos; [exact Hf|]. rewrite <- zero64 at 1. apply mono64. pose proof (Rmax_l (B2R ref) d). lra. }
  destruct (Rlt_bool _ _); [|lra]. destruct one_val as [E1 _]. rewrite <- E1, <- (fixed64 (f64_of_Z 1)). apply mono64. rewrite E1. apply unit_frac; lra.
Qed.
(** narrowing to f32 *)
Lemma narrow_unit (g : f64) : is_finite g = true -> 0 <= B2R g <= 1 -> is_finite (f32_of_f64 g) = true /\ B2R (f32_of_f64 g) = rnd32 (B2R g) /\ 0 <= B2R (f32_of_f64 g) <= 1.
Proof.
  intros F H. assert (B : Rabs (B2R g) <= bpow radix2 0) by (rewrite Rabs_pos_eq by lra; cbn; lra).
  destruct (f32_of_f64_err g 0 F ltac:(unfold exp_ok; lia) B) as (F' & E & _). split; [exact F'|]. split; [exact E|]. rewrite E.
  apply (rnd_between 24 128 f32_prec 0 1); [apply generic_format_0|apply (format_int 24 128 f32_prec f32_emax 1); lia|exact H].
Qed.
Lemma sqrt_nonneg (x : f32) : 0 <= B2R (f32_sqrt x).
Proof.
  unfold f32_sqrt. destruct (Bsqrt_correct 24 128 f32_prec f32_emax mode_NE x) as (E & _). cbn [round_mode] in E. rewrite E. rewrite <- (rnd_0 24 128) at 1. apply mono32. apply sqrt_pos.
Qed.
Definition finite_settings (p : settings (T := f64)) : Prop := is_finite (p_ref p) = true /\ is_finite (p_max p) = true /\ is_finite (p_rolloff p) = true.
Definition valid_values (p : settings (T := f64)) : Prop := 0 <= B2R (p_ref p) /\ 0 < B2R (p_max p) /\ 0 <= B2R (p_rolloff p).
Lemma valid_settings (p : settings (T := f64)) : finite_settings p -> settings_valid A p = true -> valid_values p.
Proof.
  intros (F1 & F2 & F3) V. unfold settings_valid in V. apply andb_prop in V. destruct V as [V _]. apply andb_prop in V. destruct V as [V V3]. apply andb_prop in V. destruct V as [V1 V2].
  unfold t_zero in *. cbn [ieee t_le t_lt t_of_Z] in *. destruct zero_val as [E0 F0]. apply f64_le_R in V1; [|assumption|assumption]. apply f64_lt_R in V2; [|assumption|assumption]. apply f64_le_R in V3; [|assumption|assumption]. rewrite E0 in *. repeat split; assumption.
Qed.
Definition defined (p : settings (T := f64)) : Prop :=
  match p_model p with Linear => B2R (p_ref p) <> B2R (p_max p) | Inverse => 0 < B2R (p_ref p) | Exponential => False end.
Lemma dist_gain_ieee (p : settings (T := f64)) source listener : finite_settings p -> settings_valid A p = true -> defined p -> is_finite (distance A source listener) = true ->
  exists g, dist_gain A p source listener = Ok g /\ is_finite g = true /\ 0 <= B2R g <= 1.
Proof.
  intros Fs V D Fd. pose proof (valid_settings p Fs V) as (V1 & V2 & V3). destruct Fs as (F1 & F2 & F3).
  destruct (f64_of_f32_val _ Fd) as [Ed Fd']. assert (Hd : 0 <= B2R (distance A source listener)) by apply sqrt_nonneg.
  unfold dist_gain. cbn [ieee t_of_v v_of_t]. unfold defined in D. destruct (p_model p) eqn:Hm; [| |contradiction].
  - destruct (linear_ieee p (f64_of_f32 (distance A source listener)) Hm F1 F2 F3 Fd' V1 V2 V3 D) as (g & -> & Fg & Hg & _). cbn [bind]. eexists. split; [reflexivity|]. destruct (narrow_unit g Fg Hg) as (N1 & _ & N3). split; assumption.
  - destruct (inverse_ieee p (f64_of_f32 (distance A source listener)) Hm F1 F3 Fd' D V3 ltac:(rewrite Ed; exact Hd)) as (g & -> & Fg & Hg & _). cbn [bind]. eexists. split; [reflexivity|]. destruct (narrow_unit g Fg Hg) as (N1 & _ & N3). split; assumption.
Qed.
Lemma dist_gain_mono_ieee (p : settings (T := f64)) s1 l1 s2 l2 g1 g2 : finite_settings p -> settings_valid A p = true -> defined p -> is_finite (distance A s1 l1) = true -> is_finite (distance A s2 l2) = true ->
  B2R (distance A s1 l1) <= B2R (distance A s2 l2) -> dist_gain A p s1 l1 = Ok g1 -> dist_gain A p s2 l2 = Ok g2 -> B2R g2 <= B2R g1.
Proof.
  intros Fs V D Fd1 Fd2 L G1 G2. pose proof (valid_settings p Fs V) as (V1 & V2 & V3). destruct Fs as (F1 & F2 & F3).
  destruct (f64_of_f32_val _ Fd1) as [Ed1 Fd1']. destruct (f64_of_f32_val _ Fd2) as [Ed2 Fd2']. assert (Hd1 : 0 <= B2R (distance A s1 l1)) by apply sqrt_nonneg.
  unfold dist_gain in G1, G2. cbn [ieee t_of_v v_of_t] in G1, G2. unfold defined in D. destruct (p_model p) eqn:Hm; [| |contradiction].
  - destruct (linear_ieee p (f64_of_f32 (distance A s1 l1)) Hm F1 F2 F3 Fd1' V1 V2 V3 D) as (g & E & Fg & Hg & Vg). rewrite E in G1. cbn [bind] in G1. injection G1 as <-.
    destruct (linear_ieee p (f64_of_f32 (distance A s2 l2)) Hm F1 F2 F3 Fd2' V1 V2 V3 D) as (h & E' & Fh & Hh & Vh). rewrite E' in G2. cbn [bind] in G2. injection G2 as <-.
    destruct (narrow_unit g Fg Hg) as (_ & -> & _). destruct (narrow_unit h Fh Hh) as (_ & -> & _). apply mono32. rewrite Vg, Vh, Ed1, Ed2.
    destruct (min64 _ _ F1 F2) as [_ <-]. destruct (max64 _ _ F1 F2) as [_ Eh]. rewrite <- Eh. apply linear_value_mono; [rewrite Eh; destruct (min64 _ _ F1 F2) as [_ ->]; unfold Rmin, Rmax; destruct (Rle_dec _ _); lra|apply Rmax_l|exact L].
  - destruct (inverse_ieee p (f64_of_f32 (distance A s1 l1)) Hm F1 F3 Fd1' D V3 ltac:(rewrite Ed1; exact Hd1)) as (g & E & Fg & Hg & Vg). rewrite E in G1. cbn [bind] in G1. injection G1 as <-.
    destruct (inverse_ieee p (f64_of_f32 (distance A s2 l2)) Hm F1 F3 Fd2' D V3 ltac:(rewrite Ed2; lra)) as (h & E' & Fh & Hh & Vh). rewrite E' in G2. cbn [bind] in G2. injection G2 as <-.
    destruct (narrow_unit g Fg Hg) as (_ & -> & _). destruct (narrow_unit h Fh Hh) as (_ & -> & _). apply mono32. rewrite Vg, Vh, Ed1, Ed2.
    destruct (Rlt_dec 0 (B2R (distance A s1 l1))), (Rlt_dec 0 (B2R (distance A s2 l2))); try lra; [apply inverse_value_mono; assumption|apply inverse_value_le1; assumption].
Qed.

(** ** Cones *)
Lemma one32v : B2R (f32_of_Z 1) = 1 /\ is_finite (f32_of_Z 1) = true.
Proof. apply (of_Z_exact 24 128 f32_prec f32_emax 1). lia. Qed.
Lemma zero32v : B2R (f32_of_Z 0) = 0 /\ is_finite (f32_of_Z 0) = true.
Proof. apply (of_Z_exact 24 128 f32_prec f32_emax 0). lia. Qed.
Lemma just_above_one y : y <= 1 + bpow radix2 (-25) -> rnd32 y <= 1.
Proof.
  intros H. pose proof (fexp_valid 24 128 f32_prec) as V. apply (round_N_le_midp radix2 (SpecFloat.fexp 24 128) (fun x => negb (Z.even x))).
  - apply (format_int 24 128 f32_prec f32_emax 1). lia.
  - assert (S : succ radix2 (SpecFloat.fexp 24 128) 1 = 1 + bpow radix2 (-23)).
    { rewrite succ_eq_pos by lra. f_equal. change 1 with (bpow radix2 0) at 1. rewrite ulp_bpow. reflexivity. }
    rewrite S. eapply Rle_lt_trans; [exact H|]. replace (bpow radix2 (-23)) with (4 * bpow radix2 (-25)). 2: { change 4 with (bpow radix2 2). rewrite <- bpow_plus. reflexivity. } pose proof (bpow_gt_0 radix2 (-25)). lra.
Qed.
Lemma half_err x : 0 <= x <= 1 -> rnd32 x <= x + bpow radix2 (-25).
Proof.
  intros H. pose proof (fexp_valid 24 128 f32_prec) as V. pose proof (bpow_gt_0 radix2 (-25)) as P.
  destruct (Req_dec x 1) as [->|N1]; [rewrite (rnd_int 24 128 f32_prec f32_emax 1) by lia; lra|].
  destruct (Req_dec x 0) as [->|N0]; [rewrite (rnd_0 24 128); lra|].
  pose proof (error_le_half_ulp radix2 (SpecFloat.fexp 24 128) (fun x => negb (Z.even x)) x) as E. apply Rabs_le_inv in E.
  assert (U : ulp radix2 (SpecFloat.fexp 24 128) x <= bpow radix2 (-24)).
  { rewrite ulp_neq_0 by exact N0. apply bpow_le. unfold cexp, SpecFloat.fexp, SpecFloat.emin. assert (mag radix2 x <= 0)%Z by (apply mag_le_bpow; [exact N0|rewrite Rabs_pos_eq by lra; cbn; lra]). lia. }
  replace (bpow radix2 (-24)) with (2 * bpow radix2 (-25)) in U. 2: { change 2 with (bpow radix2 1). rewrite <- bpow_plus. reflexivity. } lra.
Qed.
Lemma int32 n : (Z.abs n <= 2 ^ 24)%Z -> B2R (f32_of_Z n) = IZR n /\ is_finite (f32_of_Z n) = true.
Proof. intros H. apply (of_Z_exact 24 128 f32_prec f32_emax n H). Qed.
Lemma lt32_false (x y : f32) : is_nan x = false -> is_nan y = false -> f32_lt x y = false -> val 24 128 y <= val 24 128 x.
Proof. intros Hx Hy. apply (lt_val_false 24 128); assumption. Qed.
Lemma le32_false (x y : f32) : is_nan x = false -> is_nan y = false -> f32_le x y = false -> val 24 128 y < val 24 128 x.
Proof. intros Hx Hy. apply (le_val_false 24 128); assumption. Qed.
(** half of an angle of at most 2^100 degrees, in f32 *)
Lemma half_angle (x : f64) : is_finite x = true -> Rabs (B2R x) <= bpow radix2 100 -> is_finite (f32_div (f32_of_f64 (f64_abs x)) (f32_of_Z 2)) = true /\ 0 <= B2R (f32_div (f32_of_f64 (f64_abs x)) (f32_of_Z 2)).
Proof.
  intros F B. assert (Fa : is_finite (f64_abs x) = true) by (unfold f64_abs; rewrite is_finite_Babs; exact F).
  assert (Ea : B2R (f64_abs x) = Rabs (B2R x)) by (unfold f64_abs; apply B2R_Babs).
  destruct (f32_of_f64_err (f64_abs x) 100 Fa ltac:(unfold exp_ok; lia)) as (Fn & En & _). { rewrite Ea, Rabs_Rabsolu. exact B. }
  assert (P : 0 <= B2R (f32_of_f64 (f64_abs x))). { rewrite En, Ea, <- (rnd_0 24 128) at 1. apply mono32, Rabs_pos. }
  destruct (int32 2 ltac:(lia)) as [E2 F2]. destruct zero32v as [E0 _].
  destruct (div_box 24 128 f32_prec f32_emax (f32_of_f64 (f64_abs x)) (f32_of_Z 2) (f32_of_Z 0) (f32_of_f64 (f64_abs x)) Fn ltac:(rewrite E2; lra)) as (Fd & _ & Hd); [rewrite E0, E2; lra|].
  split; [exact Fd|]. rewrite E0 in Hd. apply Hd.
Qed.
Lemma cone_ieee (p : settings (T := f64)) source orientation listener :
  is_finite (p_inner p) = true -> Rabs (B2R (p_inner p)) <= bpow radix2 100 -> is_finite (p_outer p) = true -> Rabs (B2R (p_outer p)) <= bpow radix2 100 ->
  is_finite (p_outer_gain p) = true -> 0 <= B2R (p_outer_gain p) <= 1 -> is_nan (angle A source orientation listener) = false ->
  is_finite (cone_gain A p source orientation listener) = true /\ 0 <= B2R (cone_gain A p source orientation listener) <= 1.
Proof.
  intros Fi Bi Fo Bo Fg Hg Na. unfold cone_gain. cbv zeta. cbn [ieee v_div v_of_t t_abs v_le v_lt v_sub v_add v_mul v_of_Z]. destruct one32v as [E1 F1]. destruct zero32v as [E0 F0].
  destruct (half_angle _ Fi Bi) as [Hi Pi]. destruct (half_angle _ Fo Bo) as [Ho Po]. set (i := f32_div (f32_of_f64 (f64_abs (p_inner p))) (f32_of_Z 2)) in *. set (o := f32_div (f32_of_f64 (f64_abs (p_outer p))) (f32_of_Z 2)) in *.
  destruct (narrow_unit _ Fg Hg) as (Fg' & _ & Hg'). set (g := f32_of_f64 (p_outer_gain p)) in *. set (a := angle _ _ _ _) in *. clearbody i o g a. clear Fi Bi Fo Bo Fg Hg.
  destruct (f32_le (f32_of_Z 180) i && f32_le (f32_of_Z 180) o); [rewrite E1; split; [exact F1|lra]|].
  destruct (f32_lt a i) eqn:C; [rewrite E1; split; [exact F1|lra]|]. destruct (f32_le o a) eqn:D; [split; assumption|].
  apply lt32_false in C; [|assumption|apply finite_not_nan; assumption]. apply le32_false in D; [|apply finite_not_nan; assumption|assumption].
  assert (Fa : is_finite a = true). { pose proof (val_bound 24 128 i Hi). pose proof (val_bound 24 128 o Ho). destruct a as [|[|]| |]; try reflexivity; try discriminate; cbn [val] in C, D; lra. }
  rewrite !val_finite in C, D by assumption.
  destruct (minus_box 24 128 f32_prec f32_emax a i (f32_of_Z 0) a Fa Hi ltac:(rewrite E0; lra)) as (Fn & En & Hn). fold (f32_sub a i) in *. set (n := f32_sub a i) in *. rewrite E0 in Hn.
  destruct (minus_box 24 128 f32_prec f32_emax o i (f32_of_Z 0) o Ho Hi ltac:(rewrite E0; lra)) as (Fd & Ed & Hd). fold (f32_sub o i) in *. set (d := f32_sub o i) in *.
  assert (Pd : 0 < B2R d) by (rewrite Ed; apply (diff_pos 24 128 f32_prec); lra).
  assert (Hnd : B2R n <= B2R d) by (rewrite En, Ed; apply mono32; lra).
  pose proof (unit_frac (B2R n) (B2R d) ltac:(lra) Pd) as Q.
  destruct (div_box 24 128 f32_prec f32_emax n d (f32_of_Z 0) (f32_of_Z 1) Fn ltac:(lra) ltac:(lra)) as (Fx & _ & Hx). fold (f32_div n d) in *. set (x := f32_div n d) in *. rewrite E0, E1 in Hx.
  destruct (minus_box 24 128 f32_prec f32_emax (f32_of_Z 1) x (f32_of_Z 0) (f32_of_Z 1) F1 Fx ltac:(lra)) as (Fy & Ey & Hy). fold (f32_sub (f32_of_Z 1) x) in *. set (y := f32_sub (f32_of_Z 1) x) in *. rewrite E0, E1 in *.
  destruct (mult_box 24 128 f32_prec f32_emax g x (f32_of_Z 0) x Fg' Fx) as (Fz & Ez & Hz).
  { rewrite E0. split; [apply Rmult_le_pos; lra|]. rewrite <- (Rmult_1_l (B2R x)) at 2. apply Rmult_le_compat_r; lra. }
  fold (f32_mul g x) in *. set (z := f32_mul g x) in *. rewrite E0 in Hz.
  pose proof (half_err (1 - B2R x) ltac:(lra)) as He. rewrite <- Ey in He.
  destruct (int32 2 ltac:(lia)) as [E2 F2].
  destruct (plus_box 24 128 f32_prec f32_emax y z (f32_of_Z 0) (f32_of_Z 2) Fy Fz ltac:(rewrite E0, E2; lra)) as (Fs & Es & Hs). fold (f32_add y z) in *. rewrite E0 in Hs.
  split; [exact Fs|]. split; [apply Hs|]. rewrite Es. apply just_above_one. lra.
Qed.

(** ** Directions *)
Definition acos_sane : Prop := forall x, is_nan (m32_acos M x) = true \/ (is_finite (m32_acos M x) = true /\ 0 <= B2R (m32_acos M x) <= B2R f32_PI).
Definition within (n : Z) (x : f32) : Prop := is_nan x = true \/ (is_finite x = true /\ IZR (- n) <= B2R x <= IZR n).
Lemma nan_is (x : f32) : is_nan x = true -> x = B754_nan.
Proof. destruct x; discriminate || reflexivity. Qed.
Lemma PI_val : is_finite f32_PI = true /\ 3 <= B2R f32_PI <= 4.
Proof. split; [vm_compute; reflexivity|]. unfold f32_PI. cbv -[IZR Rle Rinv Rmult]. lra. Qed.
Lemma degrees_ieee x : acos_sane -> is_nan (degrees_acos A x) = true \/ (is_finite (degrees_acos A x) = true /\ 0 <= B2R (degrees_acos A x) <= 180).
Proof.
  intros S. unfold degrees_acos. cbn [ieee v_div v_mul v_acos v_PI v_of_Z]. destruct (S x) as [N|[F B]].
  - left. rewrite (nan_is _ N). destruct (int32 180 ltac:(lia)) as [_ F]. destruct (f32_of_Z 180); try discriminate; destruct PI_val as [FP _]; destruct f32_PI; try discriminate; reflexivity.
  - right. destruct PI_val as [FP BP]. destruct (int32 180 ltac:(lia)) as [E F180]. destruct zero32v as [E0 F0].
    assert (FT : is_finite (f32_mul (f32_of_Z 180) f32_PI) = true) by (vm_compute; reflexivity).
    assert (ET : B2R (f32_mul (f32_of_Z 180) f32_PI) = rnd32 (180 * B2R f32_PI)).
    { destruct (int32 1000 ltac:(lia)) as [E10 F10]. destruct (mult_box 24 128 f32_prec f32_emax (f32_of_Z 180) f32_PI (f32_of_Z 0) (f32_of_Z 1000) F180 FP) as (_ & E' & _); [rewrite E, E0, E10; lra|]. rewrite <- E. exact E'. }
    assert (EQ : B2R (f32_div (f32_mul (f32_of_Z 180) f32_PI) f32_PI) = 180).
    { rewrite <- E. f_equal. apply B2SF_inj. vm_compute. reflexivity. }
    set (T := f32_mul (f32_of_Z 180) f32_PI) in *. destruct (int32 1000 ltac:(lia)) as [E10 F10].
    destruct (mult_box 24 128 f32_prec f32_emax (f32_of_Z 180) (m32_acos M x) (f32_of_Z 0) (f32_of_Z 1000) F180 F) as (Fm & Em & Hm); [rewrite E, E0, E10; lra|].
    rewrite E in Em. fold (f32_mul (f32_of_Z 180) (m32_acos M x)) in *. set (m := f32_mul (f32_of_Z 180) (m32_acos M x)) in *. rewrite E0, E10 in Hm.
    assert (HmT : B2R m <= B2R T) by (rewrite Em, ET; apply mono32; lra).
    assert (G : forall u : f32, is_finite u = true -> 0 <= B2R u <= 1000 -> is_finite (f32_div u f32_PI) = true /\ B2R (f32_div u f32_PI) = rnd32 (B2R u / B2R f32_PI) /\ 0 <= B2R (f32_div u f32_PI)).
    { intros u Fu Hu. destruct (div_box 24 128 f32_prec f32_emax u f32_PI (f32_of_Z 0) (f32_of_Z 1000) Fu ltac:(lra)) as (H1 & H2 & H3).
      - rewrite E0, E10. split; [apply Rmult_le_pos; [lra|left; apply Rinv_0_lt_compat; lra]|]. apply Rmult_le_reg_r with (B2R f32_PI); [lra|]. unfold Rdiv. rewrite Rmult_assoc, Rinv_l by lra. lra.
      - rewrite E0 in H3. split; [exact H1|]. split; [exact H2|]. apply H3. }
    assert (HT : B2R T <= 1000). { rewrite ET. rewrite <- E10, <- (fixed32 (f32_of_Z 1000)). apply mono32. rewrite E10. lra. }
    destruct (G m Fm Hm) as (Fd & Ed & Hd). destruct (G T FT ltac:(lra)) as (_ & EdT & _).
    split; [exact Fd|]. split; [exact Hd|]. rewrite Ed, <- EQ, EdT. apply mono32. apply Rmult_le_compat_r; [left; apply Rinv_0_lt_compat; lra|exact HmT].
Qed.
Lemma sub_nan n : (Z.abs n <= 2 ^ 24)%Z -> f32_sub (f32_of_Z n) B754_nan = B754_nan.
Proof. intros H. destruct (int32 n H) as [_ F]. destruct (f32_of_Z n); try discriminate; reflexivity. Qed.
Lemma sub_int n (x : f32) a b : (Z.abs n <= 2 ^ 24)%Z -> (Z.abs a <= 2 ^ 24)%Z -> (Z.abs b <= 2 ^ 24)%Z -> is_finite x = true -> IZR a <= IZR n - B2R x <= IZR b ->
  is_finite (f32_sub (f32_of_Z n) x) = true /\ IZR a <= B2R (f32_sub (f32_of_Z n) x) <= IZR b.
Proof.
  intros Hn Ha Hb F H. destruct (int32 n Hn) as [En Fn]. destruct (int32 a Ha) as [Ea _]. destruct (int32 b Hb) as [Eb _].
  destruct (minus_box 24 128 f32_prec f32_emax (f32_of_Z n) x (f32_of_Z a) (f32_of_Z b) Fn F ltac:(rewrite Ea, Eb, En; exact H)) as (F' & _ & H'). rewrite Ea, Eb in H'. split; assumption.
Qed.
Lemma lt_int n (x : f32) : (Z.abs n <= 2 ^ 24)%Z -> is_finite x = true -> (f32_lt (f32_of_Z n) x = true <-> IZR n < B2R x) /\ (f32_lt x (f32_of_Z n) = true <-> B2R x < IZR n) /\ (f32_le (f32_of_Z n) x = true <-> IZR n <= B2R x) /\ (f32_le x (f32_of_Z n) = true <-> B2R x <= IZR n).
Proof.
  intros Hn F. destruct (int32 n Hn) as [En Fn]. pose proof (finite_not_nan _ _ _ F). pose proof (finite_not_nan _ _ _ Fn).
  rewrite <- En. rewrite <- !(val_finite 24 128) by assumption. unfold f32_lt, f32_le.
  split; [apply lt_val; assumption|]. split; [apply lt_val; assumption|]. split; apply le_val; assumption.
Qed.
Lemma nan_cmp (x : f32) : f32_lt B754_nan x = false /\ f32_lt x B754_nan = false /\ f32_le B754_nan x = false /\ f32_le x B754_nan = false.
Proof. destruct x; repeat split; reflexivity. Qed.
Lemma zero_within n : (0 <= n)%Z -> within n (f32_of_Z 0).
Proof. intros H. right. destruct zero32v as [-> F]. split; [exact F|]. split; apply IZR_le; lia. Qed.
Lemma direction_ieee source listener forward up : acos_sane -> let r := azimuth_and_elevation A source listener forward up in within 180 (fst r) /\ within 90 (snd r).
Proof.
  intros S. unfold azimuth_and_elevation. cbv zeta.
  destruct (v_le A (vec_square_len A (vec_sub A source listener)) (min_positive A)); [split; apply zero_within; lia|].
  destruct (v_eq A (vec_square_len A (vec_cross A forward up)) (v_of_Z A 0)); [split; apply zero_within; lia|].
  set (direction := vec_normalized A (vec_sub A source listener)). set (right_norm := vec_normalized A (vec_cross A forward up)). set (forward_norm := vec_normalized A forward). set (u := vec_cross A right_norm forward_norm).
  set (projected := vec_sub A direction _).
  match goal with |- context [v_sub A (v_of_Z A (-180)) ?e] => set (e0 := e) end.
  match goal with |- context [if v_lt A (v_of_Z A 90) e0 then ?x else ?y] => set (el := if v_lt A (v_of_Z A 90) e0 then x else y) end.
  assert (Hel : within 90 el).
  { unfold el, e0. cbn [ieee v_sub v_lt v_of_Z]. destruct (degrees_ieee (vec_dot A direction u) S) as [N|[F B]].
    - rewrite (nan_is _ N). rewrite sub_nan by lia. destruct (nan_cmp (f32_of_Z 90)) as (_ & -> & _). destruct (nan_cmp (f32_of_Z (-90))) as (-> & _). left. reflexivity.
    - destruct (sub_int 90 (degrees_acos A (vec_dot A direction u)) (-90) 90 ltac:(lia) ltac:(lia) ltac:(lia) F ltac:(lra)) as [F' B']. set (e := f32_sub _ _) in *.
      destruct (lt_int 90 e ltac:(lia) F') as (L1 & _). destruct (lt_int (-90) e ltac:(lia) F') as (_ & L2 & _).
      destruct (f32_lt (f32_of_Z 90) e); [apply proj1 in L1; specialize (L1 eq_refl); lra|]. destruct (f32_lt e (f32_of_Z (-90))); [apply proj1 in L2; specialize (L2 eq_refl); lra|]. right. split; [exact F'|]. cbn [Z.opp]. lra. }
  destruct (v_eq A (vec_square_len A projected) (v_of_Z A 0)); [split; [apply zero_within; lia|exact Hel]|]. cbn [fst snd]. split; [|exact Hel].
  cbn [ieee v_sub v_lt v_le v_of_Z]. set (az := degrees_acos A _). set (fb := f32_lt _ (f32_of_Z 0)).
  assert (H0 : is_nan az = true \/ (is_finite az = true /\ 0 <= B2R az <= 180)) by (apply degrees_ieee; exact S).
  assert (H1 : let z := if fb then f32_sub (f32_of_Z 360) az else az in z = B754_nan \/ (is_finite z = true /\ 0 <= B2R z <= 360)).
  { cbv zeta. destruct H0 as [N|[F B]]; [rewrite (nan_is _ N); left; destruct fb; [apply sub_nan; lia|reflexivity]|]. right. destruct fb; [|split; [exact F|lra]].
    destruct (sub_int 360 az 180 360 ltac:(lia) ltac:(lia) ltac:(lia) F ltac:(lra)) as [F' B']. split; [exact F'|lra]. }
  cbv zeta in H1. set (z := if fb then _ else az) in *. clearbody z. destruct H1 as [->|[F B]].
  - destruct (nan_cmp (f32_of_Z 0)) as (_ & _ & _ & ->). cbn [andb]. left. rewrite sub_nan by lia. reflexivity.
  - destruct (lt_int 0 z ltac:(lia) F) as (_ & _ & L1 & _). destruct (lt_int 270 z ltac:(lia) F) as (_ & _ & _ & L2).
    rewrite (proj2 L1) by lra. cbn [andb]. destruct (f32_le z (f32_of_Z 270)) eqn:C.
    + apply L2 in C || (pose proof (proj1 L2 eq_refl) as C'). right. apply (sub_int 90 z (-180) 180); try lia; [exact F|]. cbn [Z.opp]. lra.
    + right. apply (sub_int 450 z (-180) 180); try lia; [exact F|]. assert (270 < B2R z) by (apply Rnot_le_lt; intros L; apply L2 in L; congruence). cbn [Z.opp]. lra.
Qed.
(** ** The stereo panner in the middle and at the ends *)
Hypothesis sin_zero : B2R (m32_sin M (f32_div (f32_mul (f32_of_Z 0) f32_PI) (f32_of_Z 2))) = 0 /\ is_finite (m32_sin M (f32_div (f32_mul (f32_of_Z 0) f32_PI) (f32_of_Z 2))) = true.
Hypothesis sin_quarter : m32_sin M (f32_div (f32_mul (f32_of_Z 1) f32_PI) (f32_of_Z 2)) = f32_of_Z 1.
Definition same (x y : f32) : Prop := is_finite x = true /\ B2R x = B2R y.
Lemma times_one (x : f32) : is_finite x = true -> same (f32_mul x (f32_of_Z 1)) x.
Proof.
  intros F. destruct one32v as [E1 F1]. destruct (mult_box 24 128 f32_prec f32_emax x (f32_of_Z 1) x x F F1 ltac:(rewrite E1; lra)) as (F' & _ & H). split; [exact F'|]. unfold f32_mul in *. lra.
Qed.
Lemma times_zero (x g : f32) : is_finite x = true -> is_finite g = true -> B2R g = 0 -> is_finite (f32_mul x g) = true /\ B2R (f32_mul x g) = 0.
Proof.
  intros F Fg E. destruct (mult_box 24 128 f32_prec f32_emax x g (f32_of_Z 0) (f32_of_Z 0) F Fg ltac:(rewrite E; destruct zero32v as [-> _]; lra)) as (F' & _ & H). destruct zero32v as [E0 _]. rewrite E0 in H. split; [exact F'|]. unfold f32_mul in *. lra.
Qed.
Lemma fma_zero (x g y : f32) : is_finite x = true -> is_finite g = true -> is_finite y = true -> B2R g = 0 -> same (f32_fma x g y) y.
Proof.
  intros F Fg Fy E. unfold f32_fma. pose proof (Bfma_correct 24 128 f32_prec f32_emax mode_NE x g y F Fg Fy) as C. cbv zeta in C. cbn [round_mode] in C. rewrite E in C.
  replace (B2R x * 0 + B2R y) with (B2R y) in C by ring. rewrite fixed32 in C. rewrite Rlt_bool_true in C by apply (abs_B2R_lt_emax 24 128). destruct C as (C1 & C2 & _). split; assumption.
Qed.
Lemma pan_centre (pan l r : f32) : is_finite pan = true -> B2R pan = 0 -> is_finite l = true -> is_finite r = true ->
  let o := stereo_pan_stereo A pan l r in same (fst o) l /\ same (snd o) r.
Proof.
  intros Fp Ep Fl Fr. destruct (finite_zero 24 128 pan Fp Ep) as [s ->]. unfold stereo_pan_stereo, get_stereo_gains, quarter_turn. cbn [ieee v_le v_add v_sub v_mul v_div v_fma v_sin v_of_Z v_PI].
  replace (f32_le (B754_zero s) (f32_of_Z 0)) with true by (destruct s; vm_compute; reflexivity).
  replace (f32_add (B754_zero s) (f32_of_Z 1)) with (f32_of_Z 1) by (apply B2SF_inj; destruct s; vm_compute; reflexivity).
  replace (f32_sub (f32_of_Z 1) (f32_of_Z 1)) with (f32_of_Z 0) by (apply B2SF_inj; vm_compute; reflexivity).
  cbn [fst snd]. rewrite sin_quarter. destruct sin_zero as [E F]. split; [apply fma_zero; assumption|apply times_one; assumption].
Qed.
Lemma pan_left (x : f32) : is_finite x = true -> let o := stereo_pan_mono A (f32_of_Z (-1)) x x in same (fst o) x /\ same (snd o) (f32_of_Z 0).
Proof.
  intros F. unfold stereo_pan_mono, get_stereo_gains, quarter_turn. cbn [ieee v_le v_add v_sub v_mul v_div v_fma v_sin v_of_Z v_PI v_frac].
  replace (f32_mul (f32_add (f32_of_Z (-1)) (f32_of_Z 1)) (f32_frac 1 2)) with (f32_of_Z 0) by (apply B2SF_inj; vm_compute; reflexivity).
  replace (f32_sub (f32_of_Z 1) (f32_of_Z 0)) with (f32_of_Z 1) by (apply B2SF_inj; vm_compute; reflexivity). cbn [fst snd]. rewrite sin_quarter. destruct sin_zero as [E Fz].
  split; [apply times_one; assumption|]. destruct (times_zero x _ F Fz E) as [F' E']. split; [exact F'|]. rewrite E'. symmetry. apply zero32v.
Qed.
Lemma pan_right (x : f32) : is_finite x = true -> let o := stereo_pan_mono A (f32_of_Z 1) x x in same (fst o) (f32_of_Z 0) /\ same (snd o) x.
Proof.
  intros F. unfold stereo_pan_mono, get_stereo_gains, quarter_turn. cbn [ieee v_le v_add v_sub v_mul v_div v_fma v_sin v_of_Z v_PI v_frac].
  replace (f32_mul (f32_add (f32_of_Z 1) (f32_of_Z 1)) (f32_frac 1 2)) with (f32_of_Z 1) by (apply B2SF_inj; vm_compute; reflexivity).
  replace (f32_sub (f32_of_Z 1) (f32_of_Z 1)) with (f32_of_Z 0) by (apply B2SF_inj; vm_compute; reflexivity). cbn [fst snd]. rewrite sin_quarter. destruct sin_zero as [E Fz].
  split; [|apply times_one; assumption]. destruct (times_zero x _ F Fz E) as [F' E']. split; [exact F'|]. rewrite E'. symmetry. apply zero32v.
Qed.
End Gains.
