(** Wave shaper: theorems.

    C31 The wave shaper interpolates its curve linearly over [-1, 1], holds the ends outside and stays inside the curve. *)
From Coq Require Import List Arith Bool ZArith Lia Reals Lra.
From Flocq Require Import Core BinarySingleNaN.
From Verif Require Import Float_Model Arith_Model Arith_Real Source_Props Route_Spec Shape_Model Shape_Spec Shape_Proofs.
Import ListNotations.
Local Open Scope R_scope.

(** Exact arithmetic: every sample of every channel is shaped.  Silence is passed on only when the curve takes it to less
    than 1e-9. *)
Theorem C31_exact : forall size curve s (input output : list (chan R)), curve <> [] -> output <> [] -> Forall (fun c => length (c_val c) = size) input -> silent_zero (sops_of exact) size input ->
  exists st out, set_curve exact curve = Ok st /\ shape_quantum exact size st s input output = Ok out /\
    forall c t, (c < length input)%nat -> (t < size)%nat ->
      sample 0 out c t = shaped curve (sample 0 input c t) \/ (sample 0 input c t = 0 /\ sample 0 out c t = 0 /\ Rabs (shaped curve 0) < / 1000000000).
Proof. exact shape_exact. Qed.
Print Assumptions C31_exact.

(** Floating point: for every input, infinities and NaN included, and every curve of up to 2^24 points no index is out of
    bounds. *)
Theorem C31_safe : forall M size curve s (input output : list (chan f32)), (0 < length curve)%nat -> (Z.of_nat (length curve) <= 2 ^ 24)%Z -> output <> [] -> Forall (fun c => length (c_val c) = size) input -> silent_zero (sops_of (ieee M)) size input ->
  exists st out, set_curve (ieee M) curve = Ok st /\ shape_quantum (ieee M) size st s input output = Ok out.
Proof. intros M size curve s input output H0 H. exact (shape_safe M size curve s input output (conj H0 H)). Qed.
Print Assumptions C31_safe.

(** Floating point, inputs in [-1, 1]: the position on the curve is within 2^-22 of its length, the value within 2^-21 of
    the curve's bound 2^e. *)
Theorem C31_ieee : forall M (curve : list f32) e (x : f32), (-60 <= e <= 100)%Z -> (0 < length curve)%nat -> (Z.of_nat (length curve) <= 2 ^ 24)%Z ->
  Forall (fun c => is_finite c = true /\ Rabs (B2R c) <= bpow radix2 e) curve -> is_finite x = true -> Rabs (B2R x) <= 1 ->
  exists y p, apply_curve (ieee M) curve x = Ok y /\ is_finite y = true /\
    Rabs (p - (B2R x + 1) / 2 * INR (length curve - 1)) <= INR (length curve - 1) * / 4194304 /\ Rabs (B2R y - curve_at (map B2R curve) p) <= bpow radix2 (e - 21).
Proof. intros M curve e x He H0 H. exact (apply_ieee M curve e x He (conj H0 H)). Qed.
Print Assumptions C31_ieee.

(** Floating point, outside: exactly the first or the last point. *)
Theorem C31_clamp : forall M (curve : list f32) (x : f32), (0 < length curve)%nat -> (Z.of_nat (length curve) <= 2 ^ 24)%Z -> is_finite x = true -> 1 <= Rabs (B2R x) <= bpow radix2 100 ->
  apply_curve (ieee M) curve x = Ok (nth (if Rlt_dec (B2R x) 0 then 0 else length curve - 1) curve (f32_of_Z 0)).
Proof. intros M curve x H0 H. exact (clamp_ieee M curve x (conj H0 H)). Qed.
Print Assumptions C31_clamp.

(** Without a curve the input passes. *)
Theorem C31_no_curve : forall T V (A : arith T V) size s (input output : list (chan V)), output <> [] -> silent_zero (sops_of A) size input ->
  exists out, shape_quantum A size shaper_new s input output = Ok out /\ forall c t, (c < length input)%nat -> sample (v_zero A) out c t = sample (v_zero A) input c t.
Proof.
  intros T V A size s input output Ho Hz. unfold shape_quantum. cbn [shaper_new sh_silence sh_curve]. rewrite andb_true_r. destruct (is_silent input) eqn:S; [|exists input; auto].
  destruct output as [|o os]; [contradiction|]. eexists. split; [reflexivity|]. intros c t Hc. pose proof (Route_Proofs.silent_sample (sops_of A) size input c t Hz S) as E1. pose proof (Route_Proofs.sample_silence (sops_of A) size c t) as E2. change (s_zero (sops_of A)) with (v_zero A) in *. rewrite E1. setoid_rewrite E2. reflexivity.
Qed.
Print Assumptions C31_no_curve.

(** Setting an empty curve panics on the render thread, outside of the guard around node processing. *)
Theorem C31_empty_curve_refuted : forall M, set_curve (ieee M) [] = Panic.
Proof. intros. reflexivity. Qed.
Print Assumptions C31_empty_curve_refuted.

(** A curve of 2^24 + 3 points is read out of bounds at input 1. *)
Theorem C31_long_curve_refuted : forall M (curve : list f32), Z.of_nat (length curve) = 16777219%Z -> apply_curve (ieee M) curve (f32_of_Z 1) = Panic.
Proof.
  intros M curve H. rewrite apply_at_pos by lia. unfold at_pos, position, half. rewrite H. set (l := f32_sub (f32_of_Z 16777219) (f32_of_Z 1)). set (v := f32_mul (f32_div l (f32_of_Z 2)) (f32_add (f32_of_Z 1) (f32_of_Z 1))).
  assert (C0 : f32_le v (f32_of_Z 0) = false) by (vm_compute; reflexivity). assert (C1 : f32_le l v = true) by (vm_compute; reflexivity). assert (C2 : f32_to_usize l = 16777220%Z) by (vm_compute; reflexivity).
  rewrite C0, C1, C2. unfold index. rewrite (proj2 (nth_error_None curve (Z.to_nat 16777220))) by lia. reflexivity.
Qed.
Print Assumptions C31_long_curve_refuted.

Example C31_long_curve_exists : Z.of_nat (length (repeat (f32_of_Z 0) (Z.to_nat 16777219))) = 16777219%Z.
Proof. rewrite repeat_length. lia. Qed.

(** a curve of three points, at 1/2: half way between the last two *)
Example C31_case : shaped [-1; 0; 5] (/ 2) = / 2 * 0 + / 2 * 5 /\ apply_curve exact [-1; 0; 5] (/ 2) = Ok (shaped [-1; 0; 5] (/ 2)).
Proof.
  split; [|apply apply_exact; discriminate]. unfold shaped, curve_at. cbn [length Nat.sub INR]. replace ((/ 2 + 1) / 2 * (1 + 1)) with (3 / 2) by field. rewrite Rmin_left, Rmax_right by lra.
  assert (E : Zfloor (3 / 2) = 1%Z) by (apply Zfloor_imp; cbn; lra). rewrite E. change (Z.to_nat 1) with 1%nat. change (Z.to_nat (1 + 1)) with 2%nat. cbn [nth]. lra.
Qed.
Example C31_silence_case : exists st, set_curve exact [-1; 0; 1] = Ok st /\ shape_quantum exact 2 st 5 [mk_chan 3 [1; -1]] [mk_chan 0 [0; 0]] = Ok [mk_chan 5 [shaped [-1; 0; 1] 1; shaped [-1; 0; 1] (-1)]].
Proof. destruct (set_curve_ok _ _ exact [-1; 0; 1]) as (b & E); [discriminate|]. exists (mk_shaper (Some [-1; 0; 1]) b). split; [exact E|]. unfold shape_quantum. cbn [is_silent existsb chan_is_silent c_name Nat.eqb negb orb andb sh_curve sh_silence shape_channels c_val map_res]. rewrite !apply_exact by discriminate. reflexivity. Qed.
