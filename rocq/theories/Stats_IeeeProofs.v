(** Statistics in floating point arithmetic. *)
From Coq Require Import List Bool ZArith Reals Lra Lia.
From Flocq Require Import Core BinarySingleNaN.
From Verif Require Import Float_Model Float_Proofs Float_BoundProofs Float_ErrorProofs Arith_Model Pan_IeeeProofs Stats_Model.
Import ListNotations.
Local Open Scope R_scope.
Notation rnd64 := (round radix2 (SpecFloat.fexp 53 1024) ZnearestE).

Lemma pow_format e : (0 <= e <= 1000)%Z -> generic_format radix2 (SpecFloat.fexp 53 1024) (bpow radix2 e).
Proof. intros H. apply generic_format_bpow. unfold SpecFloat.fexp, SpecFloat.emin. lia. Qed.
Lemma neg_pow_format e : (-1000 <= e <= 0)%Z -> generic_format radix2 (SpecFloat.fexp 53 1024) (bpow radix2 e).
Proof. intros H. apply generic_format_bpow. unfold SpecFloat.fexp, SpecFloat.emin. lia. Qed.
Lemma rnd_pow e : (-1000 <= e <= 1000)%Z -> rnd64 (bpow radix2 e) = bpow radix2 e.
Proof. intros H. apply round_generic; [apply valid_rnd_N|]. destruct (Z_le_gt_dec e 0); [apply neg_pow_format|apply pow_format]; lia. Qed.
Lemma of_Z_big n e : (0 <= e <= 1000)%Z -> (0 <= n <= 2 ^ e)%Z -> is_finite (f64_of_Z n) = true /\ B2R (f64_of_Z n) = rnd64 (IZR n) /\ 0 <= B2R (f64_of_Z n) <= bpow radix2 e.
Proof.
  intros He Hn. pose proof (binary_normalize_correct 53 1024 f64_prec f64_emax mode_NE n 0 false) as C. cbv zeta in C.
  assert (E : F2R (Float radix2 n 0) = IZR n) by (unfold F2R; cbn; ring). rewrite E in C. cbn [round_mode] in C.
  assert (B : 0 <= IZR n <= bpow radix2 e). { rewrite <- (IZR_Zpower radix2 e) by lia. split; apply IZR_le; apply Hn. }
  assert (G : 0 <= rnd64 (IZR n) <= bpow radix2 e) by (apply (rnd_between 53 1024 f64_prec); [apply generic_format_0|apply pow_format; exact He|exact B]).
  rewrite Rlt_bool_true in C. 2: { rewrite Rabs_pos_eq by apply G. apply Rle_lt_trans with (bpow radix2 e); [apply G|]. apply bpow_lt. lia. }
  destruct C as (C1 & C2 & _). unfold f64_of_Z. split; [exact C2|]. rewrite C1. split; [reflexivity|exact G].
Qed.
Lemma pow_val e : (0 <= e <= 1000)%Z -> is_finite (f64_of_Z (2 ^ e)) = true /\ B2R (f64_of_Z (2 ^ e)) = bpow radix2 e.
Proof.
  intros H. destruct (of_Z_big (2 ^ e) e H ltac:(split; [apply Z.pow_nonneg; lia|lia])) as (F & E & _). split; [exact F|]. rewrite E. rewrite <- (rnd_pow e) at 1 by lia. rewrite <- (IZR_Zpower radix2 e) by lia. reflexivity.
Qed.
Lemma small_val n : (0 <= n <= 2 ^ 53)%Z -> B2R (f64_of_Z n) = IZR n /\ is_finite (f64_of_Z n) = true.
Proof. intros H. apply (of_Z_exact 53 1024 f64_prec f64_emax). rewrite Z.abs_eq; lia. Qed.
Lemma of_Z_mono a b : (0 <= a <= b)%Z -> (b <= 2 ^ 64)%Z -> B2R (f64_of_Z a) <= B2R (f64_of_Z b).
Proof.
  intros H1 H2. destruct (of_Z_big a 64 ltac:(lia) ltac:(lia)) as (_ & -> & _). destruct (of_Z_big b 64 ltac:(lia) ltac:(lia)) as (_ & -> & _). apply mono64. apply IZR_le. lia.
Qed.
Lemma of_Z_one n : (1 <= n <= 2 ^ 64)%Z -> 1 <= B2R (f64_of_Z n).
Proof. intros H. rewrite <- (proj1 (small_val 1 ltac:(lia))). apply of_Z_mono; lia. Qed.
Lemma Bdiv_shrink (x y : f64) : is_finite x = true -> 0 <= B2R x -> 1 <= B2R y -> is_finite (f64_div x y) = true /\ B2R (f64_div x y) = rnd64 (B2R x / B2R y) /\ 0 <= B2R (f64_div x y) <= B2R x.
Proof.
  intros F P H. assert (Z0 := proj1 (small_val 0 ltac:(lia))). destruct (div_box 53 1024 f64_prec f64_emax x y (f64_of_Z 0) x F ltac:(lra)) as (A & B & C).
  - rewrite Z0. split; [apply Rmult_le_pos; [exact P|apply Rlt_le, Rinv_0_lt_compat; lra]|]. apply Rmult_le_reg_r with (B2R y); [lra|]. unfold Rdiv. rewrite Rmult_assoc, Rinv_l, Rmult_1_r by lra. nra.
  - rewrite Z0 in C. split; [exact A|]. split; [exact B|exact C].
Qed.

(** ** Seconds *)
Lemma seconds_val M n : (0 <= n < 2 ^ 64)%Z -> is_finite (ns_to_seconds (ieee M) n) = true /\ B2R (ns_to_seconds (ieee M) n) = rnd64 (B2R (f64_of_Z n) / 1000000000) /\ 0 <= B2R (ns_to_seconds (ieee M) n).
Proof.
  intros H. change (ns_to_seconds (ieee M) n) with (f64_div (f64_of_Z n) (f64_of_Z 1000000000)). destruct (of_Z_big n 64 ltac:(lia) ltac:(lia)) as (F & _ & B). pose proof (proj1 (small_val 1000000000 ltac:(lia))) as G.
  destruct (Bdiv_shrink (f64_of_Z n) (f64_of_Z 1000000000) F ltac:(lra)) as (F' & V & P); [rewrite G; lra|]. rewrite G in V. split; [exact F'|]. split; [exact V|apply P].
Qed.
Lemma seconds_mono M a b : (0 <= a <= b)%Z -> (b < 2 ^ 64)%Z -> B2R (ns_to_seconds (ieee M) a) <= B2R (ns_to_seconds (ieee M) b).
Proof.
  intros H1 H2. destruct (seconds_val M a ltac:(lia)) as (_ & -> & _). destruct (seconds_val M b ltac:(lia)) as (_ & -> & _). apply mono64. apply Rmult_le_compat_r; [lra|]. apply of_Z_mono; lia.
Qed.
Lemma usize_range z : (0 <= f64_to_usize z < 2 ^ 64)%Z.
Proof. unfold f64_to_usize. destruct z as [s|s| |s m e]; try destruct s; lia. Qed.
Lemma latency_ns_range M x n : latency_ns (ieee M) x = Some n -> (0 <= n < 2 ^ 64)%Z /\ is_finite x = true /\ 0 <= B2R x.
Proof.
  unfold latency_ns. destruct (t_finite (ieee M) x) eqn:F; [|discriminate]. destruct (t_lt (ieee M) x (t_zero (ieee M))) eqn:L; [discriminate|]. cbn [negb orb]. intros E. injection E as <-. split; [|split; [exact F|]].
  - apply usize_range.
  - apply Rnot_lt_le. intros N. assert (G : t_lt (ieee M) x (t_zero (ieee M)) = true); [|congruence]. change (t_lt (ieee M) x (t_zero (ieee M))) with (f64_lt x (f64_of_Z 0)).
    destruct (small_val 0 ltac:(lia)) as [Z1 Z2]. apply f64_lt_R; [exact F|exact Z2|]. rewrite Z1. exact N.
Qed.

(** ** The capacity event *)
Lemma hundredths (x : f64) : is_finite x = true -> 0 <= B2R x <= bpow radix2 64 ->
  is_finite (f64_mul x (f64_of_Z 100)) = true /\ B2R (f64_mul x (f64_of_Z 100)) = rnd64 (B2R x * 100) /\ 0 <= B2R (f64_mul x (f64_of_Z 100)) <= bpow radix2 71.
Proof.
  intros F B. destruct (small_val 0 ltac:(lia)) as [Z1 Z2]. destruct (small_val 100 ltac:(lia)) as [C1 C2]. destruct (pow_val 71 ltac:(lia)) as [P1 P2].
  destruct (mult_box 53 1024 f64_prec f64_emax x (f64_of_Z 100) (f64_of_Z 0) (f64_of_Z (2 ^ 71)) F C2) as (A1 & A2 & A3).
  - rewrite Z1, C1, P2. split; [nra|]. replace (bpow radix2 71) with (bpow radix2 64 * 128) by (change 128 with (bpow radix2 7); rewrite <- bpow_plus; reflexivity). pose proof (bpow_gt_0 radix2 64). nra.
  - rewrite C1 in A2. rewrite Z1, P2 in A3. split; [exact A1|]. split; [exact A2|exact A3].
Qed.
Lemma rounded_val (x : f64) : B2R (f64_round x) = IZR (ZnearestA (B2R x)) /\ is_finite (f64_round x) = is_finite x.
Proof. destruct (Bnearbyint_correct 53 1024 f64_emax mode_NA x) as (E1 & E2 & _). split; [|exact E2]. unfold f64_round. rewrite E1. cbn [round_mode]. apply round_FIX_IZR. Qed.
Lemma to_hundredth (x : f64) : is_finite x = true -> 0 <= B2R x <= bpow radix2 64 ->
  let r := f64_div (f64_round (f64_mul x (f64_of_Z 100))) (f64_of_Z 100) in is_finite r = true /\ 0 <= B2R r.
Proof.
  intros F B r. destruct (hundredths x F B) as (A1 & _ & A3). destruct (rounded_val (f64_mul x (f64_of_Z 100))) as [R1 R2]. rewrite A1 in R2.
  destruct (Bdiv_shrink (f64_round (f64_mul x (f64_of_Z 100))) (f64_of_Z 100) R2) as (G1 & _ & G3).
  - rewrite R1. apply IZR_le. assert (E : ZnearestA 0 = 0%Z) by (apply (@Zrnd_IZR ZnearestA (valid_rnd_N _) 0)). apply Z.le_trans with (ZnearestA 0); [rewrite E; lia|]. apply (@Zrnd_le ZnearestA (valid_rnd_N _)). apply A3.
  - rewrite (proj1 (small_val 100 ltac:(lia))). lra.
  - split; [exact G1|apply G3].
Qed.
Lemma ratio_ieee (u c : Z) : (0 <= u <= c)%Z -> (1 <= c < 2 ^ 64)%Z ->
  let r := f64_div (f64_ceil (f64_mul (f64_div (f64_of_Z u) (f64_of_Z c)) (f64_of_Z 100))) (f64_of_Z 100) in
  is_finite r = true /\ 0 <= B2R r <= 1 /\ (u = 0%Z -> B2R r = 0) /\ ((0 < u)%Z -> 1 / 128 <= B2R r) /\ (u = c -> B2R r = 1) /\
  ((c <= 2 ^ 53)%Z -> IZR u / IZR c - / 1125899906842624 <= B2R r <= IZR u / IZR c + / 100 + / 1125899906842624).
Proof.
  intros Hu Hc r. destruct (of_Z_big u 64 ltac:(lia) ltac:(lia)) as (Fu & Vu & Bu). destruct (of_Z_big c 64 ltac:(lia) ltac:(lia)) as (Fc & Vc & Bc).
  assert (Oc := of_Z_one c ltac:(lia)). assert (Muc := of_Z_mono u c ltac:(lia) ltac:(lia)). destruct (small_val 0 ltac:(lia)) as [Z1 Z2]. destruct (small_val 1 ltac:(lia)) as [O1 O2]. destruct (small_val 100 ltac:(lia)) as [C1 C2].
  set (X := f64_of_Z u) in *. set (Y := f64_of_Z c) in *. assert (Q : 0 <= B2R X / B2R Y <= 1) by (apply unit_frac; lra).
  destruct (div_box 53 1024 f64_prec f64_emax X Y (f64_of_Z 0) (f64_of_Z 1) Fu ltac:(lra)) as (F1 & V1 & B1); [rewrite Z1, O1; exact Q|]. rewrite Z1, O1 in B1. fold (f64_div X Y) in *. change (Bdiv mode_NE X Y) with (f64_div X Y) in *.
  destruct (mult_box 53 1024 f64_prec f64_emax (f64_div X Y) (f64_of_Z 100) (f64_of_Z 0) (f64_of_Z 100) F1 C2) as (F2 & V2 & B2); [rewrite Z1, C1; lra|]. rewrite Z1, C1 in B2. rewrite C1 in V2. change (Bmult mode_NE (f64_div X Y) (f64_of_Z 100)) with (f64_mul (f64_div X Y) (f64_of_Z 100)) in *.
  set (x := f64_mul (f64_div X Y) (f64_of_Z 100)) in *. destruct (ceil_val 53 1024 f64_emax x) as [V3 F3]. fold (f64_ceil x) in V3, F3. change (Bnearbyint mode_UP x) with (f64_ceil x) in *. rewrite F2 in F3.
  assert (K : (0 <= Zceil (B2R x) <= 100)%Z). { split; [|apply Zceil_glb; apply B2]. rewrite <- (Zceil_IZR 0). apply Zceil_le. apply B2. }
  assert (K1 : 0 <= IZR (Zceil (B2R x)) <= 100) by (split; apply IZR_le; lia).
  destruct (div_box 53 1024 f64_prec f64_emax (f64_ceil x) (f64_of_Z 100) (f64_of_Z 0) (f64_of_Z 1) F3 ltac:(lra)) as (F4 & V4 & B4); [rewrite V3, Z1, O1, C1; lra|]. rewrite Z1, O1 in B4. rewrite V3, C1 in V4.
  change (Bdiv mode_NE (f64_ceil x) (f64_of_Z 100)) with r in *. split; [exact F4|]. split; [exact B4|]. split; [|split; [|split]].
  - intros ->. assert (E : B2R X = 0) by exact Z1. rewrite E in V1. unfold Rdiv in V1. rewrite Rmult_0_l, zero64 in V1. rewrite V1, Rmult_0_l, zero64 in V2. rewrite V2, Zceil_IZR in V4. rewrite V4. unfold Rdiv. rewrite Rmult_0_l. apply zero64.
  - intros P. assert (Ou := of_Z_one u ltac:(lia)). fold X in Ou.
    assert (L1 : bpow radix2 (-64) <= B2R (f64_div X Y)). { rewrite V1, <- (rnd_pow (-64)) by lia. apply mono64. change (bpow radix2 (-64)) with (/ bpow radix2 64). rewrite <- (Rmult_1_l (/ bpow radix2 64)). apply Rmult_le_compat; [lra|apply Rlt_le, Rinv_0_lt_compat, bpow_gt_0|lra|]. apply Rinv_le_contravar; [lra|apply Bc]. }
    assert (L2 : bpow radix2 (-64) <= B2R x). { rewrite V2, <- (rnd_pow (-64)) by lia. apply mono64. pose proof (bpow_gt_0 radix2 (-64)). lra. }
    assert (L3 : (1 <= Zceil (B2R x))%Z). { apply (Zlt_le_succ 0). apply lt_IZR. apply Rlt_le_trans with (B2R x); [pose proof (bpow_gt_0 radix2 (-64)); lra|apply Zceil_ub]. }
    rewrite V4. replace (1 / 128) with (bpow radix2 (-7)) by (cbn; lra). rewrite <- (rnd_pow (-7)) by lia. apply mono64. apply IZR_le in L3. cbn. lra.
  - intros ->. assert (E : B2R X / B2R Y = IZR 1) by (unfold X, Y in *; field; lra). rewrite E in V1. rewrite (rnd_int 53 1024 f64_prec f64_emax 1) in V1 by lia. rewrite V1, Rmult_1_l in V2. rewrite (rnd_int 53 1024 f64_prec f64_emax 100) in V2 by lia. rewrite V2, Zceil_IZR in V4. rewrite V4. replace (100 / 100) with (IZR 1) by field. apply (rnd_int 53 1024 f64_prec f64_emax). lia.
  - intros Hs. assert (Eu : B2R X = IZR u) by (apply small_val; lia). assert (Ec : B2R Y = IZR c) by (apply small_val; lia). rewrite Eu, Ec in V1, Q. set (q := IZR u / IZR c) in *.
    destruct (rnd_err 53 1024 f64_prec f64_emax q 0) as [E1 _]; [split; lia|cbn; rewrite Rabs_pos_eq; lra|]. rewrite <- V1 in E1.
    destruct (rnd_err 53 1024 f64_prec f64_emax (B2R (f64_div X Y) * 100) 7) as [E2 _]; [split; lia|cbn; rewrite Rabs_pos_eq; lra|]. rewrite <- V2 in E2.
    destruct (rnd_err 53 1024 f64_prec f64_emax (IZR (Zceil (B2R x)) / 100) 0) as [E3 _]; [split; lia|cbn; rewrite Rabs_pos_eq; lra|]. rewrite <- V4 in E3.
    pose proof (Zceil_ub (B2R x)) as U. assert (W : IZR (Zceil (B2R x)) < B2R x + 1). { pose proof (Zceil_lb (B2R x)). lra. }
    cbn -[bpow] in E1, E2, E3. apply Rabs_le_inv in E1. apply Rabs_le_inv in E2. apply Rabs_le_inv in E3.
    replace (bpow radix2 (0 - 53)) with (/ 9007199254740992) in * by (cbn; lra). replace (bpow radix2 (7 - 53)) with (/ 70368744177664) in * by (cbn; lra). replace (bpow radix2 (-53)) with (/ 9007199254740992) in * by (cbn; lra). replace (bpow radix2 (-46)) with (/ 70368744177664) in * by (cbn; lra). lra.
Qed.
Lemma event_ieee M prev next ppm :
  (0 <= s_underruns next - s_underruns prev <= s_callbacks next - s_callbacks prev)%Z -> (1 <= s_callbacks next - s_callbacks prev < 2 ^ 64)%Z ->
  (s_render next - s_render prev < 2 ^ 64)%Z -> (s_budget next - s_budget prev < 2 ^ 64)%Z -> (0 <= ppm < 2 ^ 64)%Z ->
  let e := render_capacity_event (ieee M) prev next ppm in
  let u := (s_underruns next - s_underruns prev)%Z in let c := (s_callbacks next - s_callbacks prev)%Z in
  (is_finite (average_load e) = true /\ 0 <= B2R (average_load e)) /\ (is_finite (peak e) = true /\ 0 <= B2R (peak e)) /\
  is_finite (underrun_ratio e) = true /\ 0 <= B2R (underrun_ratio e) <= 1 /\ (u = 0%Z -> B2R (underrun_ratio e) = 0) /\ ((0 < u)%Z -> 1 / 128 <= B2R (underrun_ratio e)) /\ (u = c -> B2R (underrun_ratio e) = 1) /\
  ((c <= 2 ^ 53)%Z -> IZR u / IZR c - / 1125899906842624 <= B2R (underrun_ratio e) <= IZR u / IZR c + / 100 + / 1125899906842624).
Proof.
  intros Hu Hc Hr Hb Hp e u c. unfold e, render_capacity_event, new_event. cbn [average_load peak underrun_ratio].
  assert (S : forall a b, (0 <= a < 2 ^ 64)%Z -> (1 <= b < 2 ^ 64)%Z -> is_finite (f64_div (f64_of_Z a) (f64_of_Z b)) = true /\ 0 <= B2R (f64_div (f64_of_Z a) (f64_of_Z b)) <= bpow radix2 64).
  { intros a b Ha Hb'. destruct (of_Z_big a 64 ltac:(lia) ltac:(lia)) as (Fa & _ & Ba). destruct (Bdiv_shrink (f64_of_Z a) (f64_of_Z b) Fa ltac:(lra) (of_Z_one b ltac:(lia))) as (F & _ & B). split; [exact F|lra]. }
  split; [|split].
  - destruct (Z.eqb_spec (Z.max 0 (s_budget next - s_budget prev)) 0) as [E|E].
    + apply (to_hundredth (f64_of_Z 0)); [apply small_val; lia|]. rewrite (proj1 (small_val 0 ltac:(lia))). pose proof (bpow_gt_0 radix2 64). lra.
    + destruct (S (Z.max 0 (s_render next - s_render prev)) (Z.max 0 (s_budget next - s_budget prev)) ltac:(lia) ltac:(lia)) as [F B]. apply (to_hundredth _ F B).
  - destruct (S ppm 1000000%Z Hp ltac:(lia)) as [F B]. apply (to_hundredth _ F B).
  - rewrite (Z.max_r 0 (s_callbacks next - s_callbacks prev)), (Z.max_l (s_callbacks next - s_callbacks prev) 1), (Z.max_r 0 (s_underruns next - s_underruns prev)) by lia. fold u c. apply (ratio_ieee u c Hu Hc).
Qed.
