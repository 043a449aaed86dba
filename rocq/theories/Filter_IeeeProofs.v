(** Biquad filters in floating point: the residual of the difference equation. *)
From Coq Require Import List Arith Bool ZArith Lia Reals Lra Psatz.
From Flocq Require Import Core BinarySingleNaN.
From Verif Require Import Float_Model Float_ErrorProofs Osc_IeeeProofs Arith_Model Arith_Real Route_Spec Filter_Model Filter_Spec Filter_FloatSpec Filter_Proofs Filter_ExactProofs Filter_SafeProofs.
Import ListNotations.
Local Open Scope R_scope.

(** ** Normal numbers *)
Lemma min_normal : B2R (f64_lit 1 (-1022)) = bpow radix2 (-1022) /\ is_finite (f64_lit 1 (-1022)) = true.
Proof.
  pose proof (binary_normalize_correct 53 1024 f64_prec f64_emax mode_NE 1 (-1022) false) as C. cbv zeta in C. cbn [round_mode] in C.
  assert (E : F2R {| Fnum := 1; Fexp := -1022 |} = bpow radix2 (-1022)) by (apply Rmult_1_l). rewrite E in C.
  rewrite round_generic in C; [|apply valid_rnd_N|apply generic_format_bpow; vm_compute; discriminate]. rewrite Rlt_bool_true in C; [|rewrite Rabs_pos_eq by apply bpow_ge_0; apply bpow_lt; lia]. destruct C as (C1 & C2 & _). auto.
Qed.
Lemma normal_iff : forall y : f64, is_finite y = true -> (f64_is_normal y = true <-> bpow radix2 (-1022) <= Rabs (B2R y)).
Proof.
  intros y F. destruct min_normal as [E G]. destruct y as [s|s| |s m e B]; try discriminate F.
  - cbn [f64_is_normal B2R]. rewrite Rabs_R0. split; [discriminate|]. intros H. pose proof (bpow_gt_0 radix2 (-1022)). lra.
  - unfold f64_is_normal. rewrite f64_le_R; [|exact G|reflexivity]. rewrite E. unfold f64_abs. rewrite B2R_Babs. reflexivity.
Qed.
Lemma flush_tidy : forall M (y : f64), tidy (flush (ieee M) y).
Proof.
  intros M y. unfold flush. cbn [ieee t_normal t_of_Z]. destruct (f64_is_normal y) eqn:Q.
  - destruct y as [s|s| |s m e B]; try discriminate Q. split; [reflexivity|]. right. apply normal_iff; [reflexivity|exact Q].
  - split; [reflexivity|]. left. reflexivity.
Qed.
Lemma flush_err : forall M (y : f64), is_finite y = true -> Rabs (B2R (flush (ieee M) y) - B2R y) <= bpow radix2 (-1022).
Proof.
  intros M y F. unfold flush. cbn [ieee t_normal t_of_Z]. destruct (f64_is_normal y) eqn:Q; [rewrite Rminus_eq_0, Rabs_R0; apply bpow_ge_0|]. change (B2R (f64_of_Z 0)) with 0. rewrite Rabs_minus_sym, Rminus_0_r.
  destruct (Rle_or_lt (bpow radix2 (-1022)) (Rabs (B2R y))) as [L|L]; [|lra]. apply normal_iff in L; [congruence|exact F].
Qed.
Lemma narrow_zero_or_big : forall x : f32, is_finite x = true -> B2R x = 0 \/ bpow radix2 (-1022) <= Rabs (B2R x).
Proof.
  intros x F. destruct (Req_dec (B2R x) 0) as [E|N]; [left; exact E|right]. apply Rle_trans with (bpow radix2 (-149)); [apply bpow_le; lia|].
  destruct x as [s|s| |s m e B]; try discriminate F; [cbn in N; contradiction|]. cbn [B2R]. rewrite <- F2R_Zabs, abs_cond_Zopp. cbn [Z.abs].
  clear F N. pose proof B as C. unfold SpecFloat.bounded in C. apply andb_prop in C. destruct C as [C _]. unfold SpecFloat.canonical_mantissa in C. apply Zeq_bool_eq in C. clear B. rename C into B. unfold SpecFloat.fexp, SpecFloat.emin in B.
  assert (He : (-149 <= e)%Z) by lia. unfold F2R. cbn [Fnum Fexp]. apply Rle_trans with (1 * bpow radix2 e); [rewrite Rmult_1_l; apply bpow_le; exact He|]. apply Rmult_le_compat_r; [apply bpow_ge_0|]. apply IZR_le. lia.
Qed.

(** ** One frame *)
Lemma biquad_frame : forall M (b0 b1 b2 a1 a2 x0 x1 x2 y1 y2 : f64) e, (-1000 <= e <= 1000)%Z ->
  Forall (fun v : f64 => is_finite v = true) [b0; b1; b2; a1; a2; x0; x1; x2; y1; y2] ->
  Forall (fun p : f64 * f64 => Rabs (B2R (fst p) * B2R (snd p)) <= bpow radix2 e) [(b0, x0); (b1, x1); (b2, x2); (a1, y1); (a2, y2)] ->
  let A := ieee M in
  let y := flush A (t_sub A (t_sub A (t_add A (t_add A (t_mul A b0 x0) (t_mul A b1 x1)) (t_mul A b2 x2)) (t_mul A a1 y1)) (t_mul A a2 y2)) in
  Rabs (B2R y - (B2R b0 * B2R x0 + B2R b1 * B2R x1 + B2R b2 * B2R x2 - B2R a1 * B2R y1 - B2R a2 * B2R y2)) <= bpow radix2 (e - 47) + bpow radix2 (-1022).
Proof.
  intros M b0 b1 b2 a1 a2 x0 x1 x2 y1 y2 e He HF HP. cbv zeta. cbn [ieee t_sub t_add t_mul].
  repeat match goal with H : Forall _ (_ :: _) |- _ => inversion H; subst; clear H end. cbn [fst snd] in *.
  assert (X : forall k, (0 <= k <= 4)%Z -> exp_ok 1024 (e + k)) by (intros k Hk; unfold exp_ok; lia). assert (X0 : exp_ok 1024 e) by (unfold exp_ok; lia).
  assert (B1 : bpow radix2 (e + 1) = 2 * bpow radix2 e) by (rewrite bpow_plus; change (bpow radix2 1) with 2; ring). assert (B2 : bpow radix2 (e + 2) = 4 * bpow radix2 e) by (rewrite bpow_plus; change (bpow radix2 2) with 4; ring).
  assert (B3 : bpow radix2 (e + 3) = 8 * bpow radix2 e) by (rewrite bpow_plus; change (bpow radix2 3) with 8; ring). assert (B4 : bpow radix2 (e + 4) = 16 * bpow radix2 e) by (rewrite bpow_plus; change (bpow radix2 4) with 16; ring).
  pose proof (bpow_gt_0 radix2 e) as P.
  destruct (f64_mul_err b0 x0 e) as (F1 & _ & E1 & R1); try assumption. destruct (f64_mul_err b1 x1 e) as (F2 & _ & E2 & R2); try assumption. destruct (f64_mul_err b2 x2 e) as (F3 & _ & E3 & R3); try assumption. destruct (f64_mul_err a1 y1 e) as (F4 & _ & E4 & R4); try assumption. destruct (f64_mul_err a2 y2 e) as (F5 & _ & E5 & R5); try assumption.
  set (p0 := f64_mul b0 x0) in *. set (p1 := f64_mul b1 x1) in *. set (p2 := f64_mul b2 x2) in *. set (p3 := f64_mul a1 y1) in *. set (p4 := f64_mul a2 y2) in *.
  apply Rabs_le_inv in R1, R2, R3, R4, R5, E1, E2, E3, E4, E5.
  destruct (f64_add_err p0 p1 (e + 1)) as (G1 & _ & D1 & S1); try assumption; [apply X; lia|apply Rabs_le; rewrite B1; lra|]. set (s1 := f64_add p0 p1) in *. apply Rabs_le_inv in S1, D1. rewrite B1 in S1.
  destruct (f64_add_err s1 p2 (e + 2)) as (G2 & _ & D2 & S2); try assumption; [apply X; lia|apply Rabs_le; rewrite B2; lra|]. set (s2 := f64_add s1 p2) in *. apply Rabs_le_inv in S2, D2. rewrite B2 in S2.
  destruct (f64_sub_err s2 p3 (e + 3)) as (G3 & _ & D3 & S3); try assumption; [apply X; lia|apply Rabs_le; rewrite B3; lra|]. set (s3 := f64_sub s2 p3) in *. apply Rabs_le_inv in S3, D3. rewrite B3 in S3.
  destruct (f64_sub_err s3 p4 (e + 4)) as (G4 & _ & D4 & S4); try assumption; [apply X; lia|apply Rabs_le; rewrite B4; lra|]. set (s4 := f64_sub s3 p4) in *. apply Rabs_le_inv in D4.
  pose proof (flush_err M s4 G4) as D5. apply Rabs_le_inv in D5.
  assert (U : forall k, (0 <= k <= 6)%Z -> bpow radix2 (e + k - 53) = bpow radix2 (e - 53) * bpow radix2 k) by (intros k Hk; rewrite <- bpow_plus; f_equal; lia).
  rewrite U in D1, D2, D3, D4 by lia. replace (e - 47)%Z with (e + 6 - 53)%Z by lia. rewrite U by lia. change (bpow radix2 1) with 2 in *. change (bpow radix2 2) with 4 in *. change (bpow radix2 3) with 8 in *. change (bpow radix2 4) with 16 in *. change (bpow radix2 6) with 64 in *.
  pose proof (bpow_gt_0 radix2 (e - 53)). apply Rabs_le. lra.
Qed.

(** ** All frames *)
Section Run.
Variable M : libm.
Variable size : nat.
Variable sr : f32.
Notation A := (ieee M).
Notation hist := (history (setting f32) f32).
Definition frame_ok (X Y : list R) (env : list (setting f32)) (t : nat) : Prop := forall g e, nth_error env t = Some g -> (-1000 <= e <= 1000)%Z -> coefs_finite (coefs_of A sr g) ->
  Forall (fun p => Rabs p <= bpow radix2 e) (products (coefs_of A sr g) X Y (Z.of_nat t)) -> Rabs (residual (coefs_of A sr g) X Y (Z.of_nat t)) <= bpow radix2 (e - 47) + bpow radix2 (-1022).
Notation vals := (map (fun v : f32 => B2R v)).
Notation vals64 := (map (fun v : f64 => B2R v)).
Definition is_val (v : f64) (r : R) : Prop := is_finite v = true /\ B2R v = r.
Definition ieee_rel (s : xy (T := f64)) (h : hist) : Prop := exists ys : list f64, h_out h = map f32_of_f64 ys /\
  length (h_in h) = length (h_env h) /\ length ys = length (h_env h) /\ Forall (fun x : f32 => is_finite x = true) (h_in h) /\ Forall tidy ys /\
  (let '(x1, x2, y1, y2) := s in let n := Z.of_nat (length (h_env h)) in is_val x1 (at_time (vals (h_in h)) (n - 1)) /\ is_val x2 (at_time (vals (h_in h)) (n - 2)) /\ is_val y1 (at_time (vals64 ys) (n - 1)) /\ is_val y2 (at_time (vals64 ys) (n - 2))) /\
  forall t, frame_ok (vals (h_in h)) (vals64 ys) (h_env h) t.

Lemma at_last : forall l x n, length l = n -> at_time (l ++ [x]) (Z.of_nat n) = x.
Proof using Type. intros l x n <-. apply at_app_r. Qed.
(** a frame more *)
Lemma extend_rel : forall x1 x2 y1 y2 h g x y, ieee_rel (x1, x2, y1, y2) h -> is_finite x = true -> tidy y ->
  (forall e x0 : _, is_val x0 (B2R x) -> (-1000 <= e <= 1000)%Z -> coefs_finite (coefs_of A sr g) -> let k := coefs_of A sr g in
    Forall (fun p : f64 * f64 => Rabs (B2R (fst p) * B2R (snd p)) <= bpow radix2 e) [(k_b0 k, x0); (k_b1 k, x1); (k_b2 k, x2); (k_a1 k, y1); (k_a2 k, y2)] ->
    Rabs (B2R y - (B2R (k_b0 k) * B2R x0 + B2R (k_b1 k) * B2R x1 + B2R (k_b2 k) * B2R x2 - B2R (k_a1 k) * B2R y1 - B2R (k_a2 k) * B2R y2)) <= bpow radix2 (e - 47) + bpow radix2 (-1022)) ->
  forall x0 y0 x1' y1', is_val x0 (B2R x) -> is_val y0 (B2R y) -> is_val x1' (B2R x1) -> is_val y1' (B2R y1) -> ieee_rel (x0, x1', y0, y1') (mk_history (h_env h ++ [g]) (h_in h ++ [x]) (h_out h ++ [f32_of_f64 y])).
Proof using Type.
  intros x1 x2 y1 y2 [env xs os] g x y (ys & Eo & L1 & L2 & Fx & Ty & (V1 & V2 & V3 & V4) & He) Hx Hy Hr x0 y0 x1' y1' V0 W0 V1' W1'. cbn [h_env h_in h_out] in *. exists (ys ++ [y]). cbn [h_env h_in h_out].
  rewrite !map_app, Eo. cbn [map]. split; [reflexivity|]. rewrite !app_length. cbn [length]. split; [lia|]. split; [lia|]. split; [apply Forall_app; auto|]. split; [apply Forall_app; auto|].
  set (n := length env) in *. set (X := vals xs) in *. set (Y := vals64 ys) in *. assert (LX : length X = n) by (unfold X; rewrite map_length; lia). assert (LY : length Y = n) by (unfold Y; rewrite map_length; lia).
  split.
  - replace (Z.of_nat (n + 1) - 1)%Z with (Z.of_nat n) by lia. replace (Z.of_nat (n + 1) - 2)%Z with (Z.of_nat n - 1)%Z by lia. rewrite (at_last X _ n LX), (at_last Y _ n LY). rewrite (at_app_l X), (at_app_l Y) by lia. destruct V1 as [_ <-], V3 as [_ <-]. auto.
  - intros t g' e Hg He' Hc HP. destruct (Nat.lt_ge_cases t n) as [Lt|Lt].
    + rewrite nth_error_app1 in Hg by exact Lt. unfold products, residual in *. cbn [weighted] in *. rewrite (at_app_l X), (at_app_l X _ (Z.of_nat t - 1)), (at_app_l X _ (Z.of_nat t - 2)), (at_app_l Y _ (Z.of_nat t - 1)), (at_app_l Y _ (Z.of_nat t - 2)) in HP by lia.
      pose proof (He t g' e Hg He' Hc HP) as G. unfold residual in G. cbn [weighted] in G. rewrite !(at_app_l X), !(at_app_l Y) by lia. exact G.
    + assert (t = n) as ->. { assert (t < length (env ++ [g]))%nat by (apply nth_error_Some; congruence). rewrite app_length in H. cbn [length] in H. fold n in H. lia. }
      rewrite nth_error_app2 in Hg by (fold n; lia). replace (n - length env)%nat with 0%nat in Hg by (fold n; lia). injection Hg as <-.
      unfold products, residual in *. cbn [weighted] in *. rewrite (at_last X _ n LX), (at_app_l X _ (Z.of_nat n - 1)), (at_app_l X _ (Z.of_nat n - 2)), (at_app_l Y _ (Z.of_nat n - 1)), (at_app_l Y _ (Z.of_nat n - 2)) in HP by lia.
      rewrite (at_last X _ n LX), (at_last Y _ n LY), (at_app_l X _ (Z.of_nat n - 1)), (at_app_l X _ (Z.of_nat n - 1 - 1)), (at_app_l Y _ (Z.of_nat n - 1)), (at_app_l Y _ (Z.of_nat n - 1 - 1)) by lia. replace (Z.of_nat n - 1 - 1)%Z with (Z.of_nat n - 2)%Z by lia.
      pose proof (Hr e x0 V0 He' Hc) as Hr'. cbv zeta in Hr'. destruct V0 as [_ V0]. destruct V1 as [Q1 V1], V2 as [Q2 V2], V3 as [Q3 V3], V4 as [Q4 V4]. rewrite <- V1, <- V2, <- V3, <- V4 in *. rewrite <- V0 in *.
      match goal with |- Rabs ?a <= _ => replace a with (B2R y - (B2R (k_b0 (coefs_of A sr g)) * B2R x0 + B2R (k_b1 (coefs_of A sr g)) * B2R x1 + B2R (k_b2 (coefs_of A sr g)) * B2R x2 - B2R (k_a1 (coefs_of A sr g)) * B2R y1 - B2R (k_a2 (coefs_of A sr g)) * B2R y2)) by ring end.
      apply Hr'. inversion HP as [|? ? P0 HP1]; subst. inversion HP1 as [|? ? P1 HP2]; subst. inversion HP2 as [|? ? P2 HP3]; subst. inversion HP3 as [|? ? P3 HP4]; subst. inversion HP4 as [|? ? P4 HP5]; subst. repeat (apply Forall_cons; [assumption|]). apply Forall_nil.
Qed.
Lemma ieee_step_rel : forall s h g x, ieee_rel s h -> is_finite x = true -> let '(s', y) := biquad_step A (coefs_of A sr g) s x in ieee_rel s' (mk_history (h_env h ++ [g]) (h_in h ++ [x]) (h_out h ++ [y])).
Proof using Type.
  intros [[[x1 x2] y1] y2] h g x Hr Hx. pose proof Hr as (ys & _ & _ & _ & _ & _ & (V1 & V2 & V3 & V4) & _). cbn [biquad_step]. cbv zeta. destruct (f64_of_f32_val x Hx) as [Ex Fx]. set (y := flush A _). change (v_of_t A y) with (f32_of_f64 y). change (t_of_v A x) with (f64_of_f32 x) in *.
  assert (Ty : tidy y) by apply flush_tidy. apply (extend_rel x1 x2 y1 y2 h g x y Hr Hx Ty); [|split; [exact Fx|exact Ex]|split; [apply Ty|reflexivity]|split; [apply V1|reflexivity]|split; [apply V3|reflexivity]].
  intros e x0 [F0 V0] He Hc k HP. assert (Ev : B2R (f64_of_f32 x) = B2R x0) by congruence.
  inversion HP as [|? ? P0 HP1]; subst. cbn [fst snd] in P0. rewrite <- Ev in P0 |- *. apply biquad_frame; [exact He| |constructor; [exact P0|exact HP1]].
  unfold coefs_finite in Hc. fold k in Hc. change ([k_b0 k; k_b1 k; k_b2 k; k_a1 k; k_a2 k; f64_of_f32 x; x1; x2; y1; y2]) with ([k_b0 k; k_b1 k; k_b2 k; k_a1 k; k_a2 k] ++ [f64_of_f32 x; x1; x2; y1; y2]). apply Forall_app. split; [exact Hc|].
  destruct V1, V2, V3, V4. repeat constructor; assumption.
Qed.
Lemma ieee_channel_rel : forall gs xs s h, ieee_rel s h -> length xs = length gs -> Forall (fun x : f32 => is_finite x = true) xs ->
  let '(s', ys) := biquad_channel A (map (coefs_of A sr) gs) s xs in length ys = length xs /\ ieee_rel s' (mk_history (h_env h ++ gs) (h_in h ++ xs) (h_out h ++ ys)).
Proof using Type.
  induction gs as [|g gs IH]; intros [|x xs] s h Hr L Hf; try discriminate L.
  - cbn [map biquad_channel]. rewrite !app_nil_r. destruct h. auto.
  - inversion Hf as [|? ? F1 F2]; subst. cbn [map biquad_channel]. pose proof (ieee_step_rel s h g x Hr F1) as R1. destruct (biquad_step A (coefs_of A sr g) s x) as [s1 y]. pose proof (IH xs s1 _ R1 ltac:(cbn in L; lia) F2) as R2. destruct (biquad_channel A (map (coefs_of A sr) gs) s1 xs) as [s2 ys]. cbn [h_env h_in h_out] in R2.
    destruct R2 as [R2 R3]. split; [cbn [length]; lia|]. rewrite (app_cons _ (h_env h)), (app_cons _ (h_in h)), (app_cons _ (h_out h)). exact R3.
Qed.

(** at rest *)
Lemma at_forall : forall (Q : R -> Prop) l t, Q 0 -> Forall Q l -> Q (at_time l t).
Proof using Type. intros Q l t H0 H. unfold at_time. destruct (t <? 0)%Z; [exact H0|]. destruct (nth_in_or_default (Z.to_nat t) l 0) as [Hin| ->]; [|exact H0]. rewrite Forall_forall in H. apply H. exact Hin. Qed.
Lemma rest_zero : forall (v : f64) l t, f64_is_normal v = false -> is_val v (at_time l t) -> Forall (fun r => r = 0 \/ bpow radix2 (-1022) <= Rabs r) l -> B2R v = 0.
Proof using Type.
  intros v l t Hn [F E] Hl. pose proof (at_forall (fun r => r = 0 \/ bpow radix2 (-1022) <= Rabs r) l t (or_introl eq_refl) Hl) as [Z|B]; [congruence|]. rewrite <- E in B. apply normal_iff in B; [congruence|exact F].
Qed.
Lemma rest_values : forall x1 x2 y1 y2 h, ieee_rel (x1, x2, y1, y2) h -> xy_live A (x1, x2, y1, y2) = false -> B2R x1 = 0 /\ B2R x2 = 0 /\ B2R y1 = 0 /\ B2R y2 = 0.
Proof using Type.
  intros x1 x2 y1 y2 h (ys & _ & _ & _ & Fx & Ty & (V1 & V2 & V3 & V4) & _) Hl. unfold xy_live in Hl. cbn [ieee t_normal] in Hl. apply orb_false_iff in Hl. destruct Hl as [Hl N4]. apply orb_false_iff in Hl. destruct Hl as [Hl N3]. apply orb_false_iff in Hl. destruct Hl as [N1 N2].
  assert (GX : Forall (fun r => r = 0 \/ bpow radix2 (-1022) <= Rabs r) (vals (h_in h))) by (apply Forall_map; eapply Forall_impl; [|exact Fx]; intros a Fa; apply narrow_zero_or_big; exact Fa).
  assert (GY : Forall (fun r => r = 0 \/ bpow radix2 (-1022) <= Rabs r) (vals64 ys)) by (apply Forall_map; eapply Forall_impl; [|exact Ty]; intros a [_ Ga]; exact Ga).
  repeat split; eapply rest_zero; eassumption.
Qed.
Lemma ieee_rest_step : forall s h g, xy_live A s = false -> ieee_rel s h -> ieee_rel s (mk_history (h_env h ++ [g]) (h_in h ++ [f32_zero]) (h_out h ++ [f32_zero])).
Proof using Type.
  intros [[[x1 x2] y1] y2] h g Hl Hr. destruct (rest_values x1 x2 y1 y2 h Hr Hl) as (Z1 & Z2 & Z3 & Z4). pose proof Hr as (ys & _ & _ & _ & _ & _ & ((F1 & _) & (F2 & _) & (F3 & _) & (F4 & _)) & _).
  apply (extend_rel x1 x2 y1 y2 h g f32_zero f64_zero Hr); [reflexivity|split; [reflexivity|left; reflexivity]| |split; [exact F1|exact Z1]|split; [exact F3|exact Z3]|split; [exact F2|congruence]|split; [exact F4|congruence]].
  intros e x0 [_ V0] He Hc k HP. rewrite V0, Z1, Z2, Z3, Z4. change (B2R f32_zero) with 0. change (B2R f64_zero) with 0. match goal with |- Rabs ?a <= _ => replace a with 0 by ring end. rewrite Rabs_R0. pose proof (bpow_ge_0 radix2 (e - 47)). pose proof (bpow_ge_0 radix2 (-1022)). lra.
Qed.
Lemma ieee_rest_rel : forall n s h env, xy_live A s = false -> ieee_rel s h -> length env = n -> ieee_rel s (mk_history (h_env h ++ env) (h_in h ++ repeat f32_zero n) (h_out h ++ repeat f32_zero n)).
Proof using Type.
  induction n as [|n IH]; intros s h env Hl Hr L; destruct env as [|e env]; try discriminate L; [cbn [repeat]; rewrite !app_nil_r; destruct h; exact Hr|].
  cbn [repeat]. rewrite (app_cons _ (h_env h)), (app_cons _ (h_in h)), (app_cons _ (h_out h)). pose proof (IH s _ env Hl (ieee_rest_step s h e Hl Hr) ltac:(cbn in L; lia)) as R. exact R.
Qed.

Lemma biquad_ieee : forall ls, (0 < size)%nat -> Forall (call_ok (sops_of A) size) ls -> Forall (fun l => params_ok (snd (l_settings _ l))) ls -> Forall (fun l => Forall (fun c => Forall (fun x : f32 => is_finite x = true) (c_val c)) (l_input _ l)) ls ->
  exists states outs, run_calls (biquad_call A size sr) [] ls = Ok (states, outs) /\ length outs = length ls /\
    forall c, let h := channel_history f32_zero size c (settings f32_zero size) empty_history ls outs in exists ys : list f64, h_out h = map f32_of_f64 ys /\ length ys = length (h_in h) /\ length (h_env h) = length (h_in h) /\
      Forall tidy ys /\ forall t, frame_ok (vals (h_in h)) (vals64 ys) (h_env h) t.
Proof using Type.
  intros ls Hsize Hok Hpa Hfi. change f32_zero with (v_zero A).
  assert (R0 : ieee_rel (xy_zero A) empty_history). { exists []. cbn [empty_history h_in h_out h_env map length]. split; [reflexivity|]. split; [reflexivity|]. split; [reflexivity|]. split; [constructor|]. split; [constructor|]. split; [repeat split|]. intros t g e Hg. destruct t; discriminate Hg. }
  assert (Lz : xy_live A (xy_zero A) = false) by reflexivity.
  destruct (calls_rel A size (xy_zero A) ieee_rel (settings (v_zero A) size) (fun l => params_ok (snd (l_settings _ l)) /\ Forall (fun c => Forall (fun x : f32 => is_finite x = true) (c_val c)) (l_input _ l)) (biquad_call A size sr)) with (ls := ls) (states := @nil (xy (T := f64))) (h := fun _ : nat => @empty_history (setting f32) f32) as (sts & outs & E & L & Q); try assumption.
  - intros states h l Hn Hr [Hq Ho] [Hp Hf]. destruct l as [[type_ p] s input output]. cbn [l_settings l_input l_output l_name fst snd] in *. unfold biquad_call. cbn [l_settings l_input l_output l_name fst snd].
    destruct (quantum_rel A size (xy_zero A) (xy_live A) ieee_rel Lz R0 (ieee_rest_rel size) (fun x : f32 => is_finite x = true) (fun st i => Ok (biquad_channel A (map (coefs_of A sr) (settings (v_zero A) size (type_, p))) st i)) (settings (v_zero A) size (type_, p)) (settings_length A size (type_, p))) with (states := states) (h := h) (input := input) (output := output) (s := s) as (sts & out & b & E & L & R); try assumption.
    + intros st h0 xs R1 L1 F1. pose proof (ieee_channel_rel (settings (v_zero A) size (type_, p)) xs st h0 R1 ltac:(rewrite settings_length; exact L1) F1) as R2. destruct (biquad_channel A (map (coefs_of A sr) (settings (v_zero A) size (type_, p))) st xs) as [s' ys]. exists s', ys. split; [reflexivity|]. split; [lia|]. apply R2.
    + exists sts, out, b. split; [|auto]. unfold biquad_quantum. destruct (is_silent input && negb (existsb (xy_live A) states)) eqn:Qs.
      * unfold filter_quantum in E. rewrite Qs in E. exact E.
      * rewrite coefs_list_ok by assumption. cbn [bind]. exact E.
  - cbn [length]. lia.
  - intros [|c]; exact R0.
  - rewrite Forall_forall in *. intros l Hl. split; [apply Hpa; exact Hl|apply Hfi; exact Hl].
  - exists sts, outs. split; [exact E|]. split; [exact L|]. intros c. specialize (Q c). destruct (nth c sts (xy_zero A)) as [[[x1 x2] y1] y2]. destruct Q as (ys & P1 & P2 & P3 & _ & P5 & _ & P7). exists ys. split; [exact P1|]. split; [congruence|]. split; [congruence|]. split; [exact P5|exact P7].
Qed.
End Run.
