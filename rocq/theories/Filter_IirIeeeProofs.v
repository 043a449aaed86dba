(** IIR filters in floating point: the residual of the difference equation. *)
From Coq Require Import List Arith Bool ZArith Lia Reals Lra Psatz.
From Flocq Require Import Core BinarySingleNaN.
From Verif Require Import Common_Model Float_Model Float_ErrorProofs Osc_IeeeProofs Arith_Model Arith_Real Route_Spec Filter_Model Filter_Spec Filter_FloatSpec Filter_Proofs Filter_ExactProofs Filter_SafeProofs Filter_IeeeProofs.
Import ListNotations.
Local Open Scope R_scope.

Section Run.
Variable M : libm.
Variable size : nat.
Variable cs : list (f64 * f64).
Hypothesis Hcs : (0 < length cs <= MAX_IIR_COEFFS_LEN)%nat.
Hypothesis Hfin : Forall (fun p : f64 * f64 => is_finite (fst p) = true /\ is_finite (snd p) = true) cs.
Notation A := (ieee M).
Notation hist := (history unit f32).
Notation vals := (map (fun v : f32 => B2R v)).
Notation bs := (values (map fst cs)).
Notation as_ := (values (map snd (tl cs))).
Notation zero64 := (f64_of_Z 0).

(** what the past contributes to the output [i] frames ahead *)
Definition due (X Y : list R) (n : Z) (i : nat) : R := weighted (skipn (S i) bs) X (n - 1) - weighted (skipn i as_) Y (n - 1).
(** coefficients still to come *)
Definition left (i : nat) : R := INR (length cs - 1 - i).
Definition slack (e : Z) (i : nat) : R := left i * (68 * bpow radix2 (e - 53) + bpow radix2 (-1021)).
Definition good_state (X Y : list R) (n : nat) (s : list f64) : Prop := forall e, (-1000 <= e <= 1000)%Z -> products_small cs X Y e ->
  forall i, (i < MAX_IIR_COEFFS_LEN)%nat -> is_finite (nth i s zero64) = true /\ Rabs (B2R (nth i s zero64) - due X Y (Z.of_nat n) i) <= slack e i.
Definition good_frame (X Y : list R) (t : nat) : Prop := forall e, (-1000 <= e <= 1000)%Z -> products_small cs (firstn (S t) X) (firstn t Y) e -> Rabs (iir_residual cs X Y (Z.of_nat t)) <= bpow radix2 (e - 42) + bpow radix2 (-1016).
Definition float_rel (s : list f64) (h : hist) : Prop := exists ys : list f64, h_out h = map f32_of_f64 ys /\
  length (h_in h) = length (h_env h) /\ length ys = length (h_env h) /\ Forall (fun x : f32 => is_finite x = true) (h_in h) /\ Forall tidy ys /\ length s = MAX_IIR_COEFFS_LEN /\
  good_state (vals (h_in h)) (values ys) (length (h_env h)) s /\ forall t, (t < length (h_env h))%nat -> good_frame (vals (h_in h)) (values ys) t.

Lemma small_app : forall X Y x y e, products_small cs (X ++ [x]) (Y ++ [y]) e -> products_small cs X Y e /\ Forall (fun b => Rabs (b * x) <= bpow radix2 e) bs /\ Forall (fun a => Rabs (a * y) <= bpow radix2 e) as_.
Proof using Type.
  clear Hcs Hfin. intros X Y x y e [H1 H2]. unfold products_small. repeat split; rewrite Forall_forall in *; intros c Hc.
  - specialize (H1 c Hc). apply Forall_app in H1. apply H1.
  - specialize (H2 c Hc). apply Forall_app in H2. apply H2.
  - specialize (H1 c Hc). apply Forall_app in H1. destruct H1 as [_ H1]. apply Forall_inv in H1. exact H1.
  - specialize (H2 c Hc). apply Forall_app in H2. destruct H2 as [_ H2]. apply Forall_inv in H2. exact H2.
Qed.
Lemma weighted_small : forall l X t B, 0 <= B -> Forall (fun c => Forall (fun x => Rabs (c * x) <= B) X) l -> Rabs (weighted l X t) <= INR (length l) * B.
Proof using Type.
  clear Hcs Hfin. induction l as [|c l IH]; intros X t B HB H; cbn [weighted length]; [rewrite Rabs_R0; cbn; lra|]. inversion H as [|? ? H1 H2]; subst. eapply Rle_trans; [apply Rabs_triang|]. rewrite S_INR. specialize (IH X (t - 1)%Z B HB H2).
  assert (Rabs (c * at_time X t) <= B). { unfold at_time. destruct (t <? 0)%Z; [rewrite Rmult_0_r, Rabs_R0; exact HB|]. destruct (nth_in_or_default (Z.to_nat t) X 0) as [Hin|Hd]; [rewrite Forall_forall in H1; apply H1; exact Hin|]. rewrite Hd, Rmult_0_r, Rabs_R0. exact HB. } lra.
Qed.
Lemma Forall_skipn : forall T (Q : T -> Prop) n l, Forall Q l -> Forall Q (skipn n l).
Proof using Type. clear Hcs Hfin. intros T Q. induction n as [|n IH]; intros [|x l] H; try exact H. cbn [skipn]. apply IH. inversion H; assumption. Qed.
Lemma bs_length : length bs = length cs. Proof using Type. unfold values. rewrite !map_length. reflexivity. Qed.
Lemma as_length : length as_ = (length cs - 1)%nat. Proof using Type. clear Hcs Hfin. unfold values. rewrite !map_length. destruct cs; cbn [tl length]; lia. Qed.
Lemma due_small : forall X Y n i e, products_small cs X Y e -> Rabs (due X Y n i) <= 2 * left i * bpow radix2 e.
Proof using Type.
  clear Hcs Hfin. intros X Y n i e [H1 H2]. pose proof (bpow_ge_0 radix2 e) as P. unfold due, Rminus. eapply Rle_trans; [apply Rabs_triang|]. rewrite Rabs_Ropp.
  pose proof (weighted_small _ X (n + - (1))%Z _ P (Forall_skipn _ _ (S i) _ H1)) as E1. pose proof (weighted_small _ Y (n + - (1))%Z _ P (Forall_skipn _ _ i _ H2)) as E2. rewrite skipn_length in E1, E2. rewrite bs_length in E1. rewrite as_length in E2. unfold left. replace (length cs - S i)%nat with (length cs - 1 - i)%nat in E1 by lia. unfold Z.sub. lra.
Qed.
Lemma left_bound : forall i, 0 <= left i <= 19.
Proof using Hcs. clear Hfin. intros i. unfold left. split; [apply pos_INR|]. replace 19 with (INR 19) by (cbn; lra). apply le_INR. unfold MAX_IIR_COEFFS_LEN in Hcs. lia. Qed.

Lemma due_next : forall X Y x y n i p, length X = n -> length Y = n -> nth_error (tl cs) i = Some p ->
  due (X ++ [x]) (Y ++ [y]) (Z.of_nat (n + 1)) i = B2R (fst p) * x - B2R (snd p) * y + due X Y (Z.of_nat n) (S i).
Proof using Hcs.
  clear Hfin. intros X Y x y n i p LX LY H. unfold due. replace (Z.of_nat (n + 1) - 1)%Z with (Z.of_nat n) by lia.
  assert (E1 : skipn (S i) bs = B2R (fst p) :: skipn (S (S i)) bs). { apply skipn_cons. unfold values. rewrite !nth_error_map. destruct cs as [|c ds]; [destruct i; discriminate H|]. cbn [tl nth_error] in *. rewrite H. reflexivity. }
  assert (E2 : skipn i as_ = B2R (snd p) :: skipn (S i) as_). { apply skipn_cons. unfold values. rewrite !nth_error_map, H. reflexivity. }
  rewrite E1, E2. cbn [weighted]. rewrite (at_last X x n LX), (at_last Y y n LY). rewrite (weighted_app _ X [x]) by lia. rewrite (weighted_app _ Y [y]) by lia. ring.
Qed.
Lemma due_end : forall X Y n i, nth_error (tl cs) i = None -> due X Y n i = 0.
Proof using Type.
  clear Hcs Hfin. intros X Y n i H. apply nth_error_None in H. unfold due. rewrite !skipn_all2; [cbn [weighted]; ring| |]; unfold values; rewrite !map_length; [exact H|]. destruct cs; cbn [tl length] in *; lia.
Qed.
Lemma left_next : forall i p, nth_error (tl cs) i = Some p -> left i = left (S i) + 1.
Proof using Type.
  clear Hcs Hfin. intros i p H. assert (i < length (tl cs))%nat by (apply nth_error_Some; congruence). unfold left. rewrite <- S_INR. f_equal. destruct cs; cbn [tl length] in *; lia.
Qed.
Lemma left_end : forall i, nth_error (tl cs) i = None -> left i = 0.
Proof using Type. clear Hcs Hfin. intros i H. apply nth_error_None in H. unfold left. replace (length cs - 1 - i)%nat with 0%nat; [reflexivity|]. destruct cs; cbn [tl length] in *; lia. Qed.

(** bounds for the exponents *)
Lemma tiny : forall e, (-1000 <= e <= 1000)%Z -> bpow radix2 (-1021) <= bpow radix2 (e - 21) /\ bpow radix2 e = 2097152 * bpow radix2 (e - 21) /\ bpow radix2 (e - 21) = 4294967296 * bpow radix2 (e - 53).
Proof using Type.
  clear Hcs Hfin. intros e He. split; [apply bpow_le; lia|]. split.
  - replace e with (21 + (e - 21))%Z at 1 by lia. rewrite bpow_plus. f_equal.
  - replace (e - 21)%Z with (32 + (e - 53))%Z by lia. rewrite bpow_plus. f_equal.
Qed.
Lemma state_small : forall X Y n s e i, (-1000 <= e <= 1000)%Z -> products_small cs X Y e -> good_state X Y n s -> (i < MAX_IIR_COEFFS_LEN)%nat -> Rabs (B2R (nth i s zero64)) <= 39 * bpow radix2 e.
Proof using Hcs.
  clear Hfin. intros X Y n s e i He Hp Hs Hi. destruct (Hs e He Hp i Hi) as [_ E]. pose proof (due_small X Y (Z.of_nat n) i e Hp) as D. pose proof (left_bound i) as L. destruct (tiny e He) as (T1 & T2 & T3). pose proof (bpow_gt_0 radix2 (e - 53)) as P.
  unfold slack in E. replace (B2R (nth i s zero64)) with ((B2R (nth i s zero64) - due X Y (Z.of_nat n) i) + due X Y (Z.of_nat n) i) by ring. eapply Rle_trans; [apply Rabs_triang|].
  assert (left i * (68 * bpow radix2 (e - 53) + bpow radix2 (-1021)) <= 19 * (68 * bpow radix2 (e - 53) + bpow radix2 (-1021))) by (apply Rmult_le_compat_r; [pose proof (bpow_ge_0 radix2 (-1021)); lra|lra]).
  assert (2 * left i * bpow radix2 e <= 38 * bpow radix2 e) by (apply Rmult_le_compat_r; [apply bpow_ge_0|lra]). lra.
Qed.

(** one state *)
Lemma state_step : forall (b a x y s1 : f64) e d k, (-1000 <= e <= 1000)%Z -> is_finite b = true -> is_finite a = true -> is_finite x = true -> is_finite y = true -> is_finite s1 = true ->
  Rabs (B2R b * B2R x) <= bpow radix2 e -> Rabs (B2R a * B2R y) <= bpow radix2 e -> Rabs (B2R s1) <= 39 * bpow radix2 e -> Rabs (B2R s1 - d) <= k * (68 * bpow radix2 (e - 53) + bpow radix2 (-1021)) ->
  let v := f64_add (f64_sub (f64_mul b x) (f64_mul a y)) s1 in is_finite v = true /\ Rabs (B2R v - (B2R b * B2R x - B2R a * B2R y + d)) <= (k + 1) * (68 * bpow radix2 (e - 53) + bpow radix2 (-1021)).
Proof using Type.
  clear Hcs Hfin. intros b a x y s1 e d k He Fb Fa Fx Fy Fs P1 P2 P3 Hd. cbv zeta.
  assert (X : forall j, (0 <= j <= 6)%Z -> exp_ok 1024 (e + j)) by (intros j Hj; unfold exp_ok; lia). assert (X0 : exp_ok 1024 e) by (unfold exp_ok; lia).
  assert (B1 : bpow radix2 (e + 1) = 2 * bpow radix2 e) by (rewrite bpow_plus; change (bpow radix2 1) with 2; ring). assert (B6 : bpow radix2 (e + 6) = 64 * bpow radix2 e) by (rewrite bpow_plus; change (bpow radix2 6) with 64; ring).
  assert (U : forall j, bpow radix2 (e + j - 53) = bpow radix2 (e - 53) * bpow radix2 j) by (intros j; rewrite <- bpow_plus; f_equal; lia). pose proof (bpow_gt_0 radix2 e) as P. pose proof (bpow_gt_0 radix2 (e - 53)). pose proof (bpow_gt_0 radix2 (-1021)).
  destruct (f64_mul_err b x e) as (F1 & _ & E1 & R1); try assumption. destruct (f64_mul_err a y e) as (F2 & _ & E2 & R2); try assumption. set (p := f64_mul b x) in *. set (q := f64_mul a y) in *. apply Rabs_le_inv in R1, R2, E1, E2, P3, Hd.
  destruct (f64_sub_err p q (e + 1)) as (F3 & _ & E3 & R3); try assumption; [apply X; lia|apply Rabs_le; rewrite B1; lra|]. set (dd := f64_sub p q) in *. apply Rabs_le_inv in R3, E3. rewrite B1 in R3.
  destruct (f64_add_err dd s1 (e + 6)) as (F4 & _ & E4 & R4); try assumption; [apply X; lia|apply Rabs_le; rewrite B6; lra|]. split; [exact F4|]. apply Rabs_le_inv in E4. rewrite U in E3, E4. change (bpow radix2 1) with 2 in *. change (bpow radix2 6) with 64 in *. apply Rabs_le. lra.
Qed.
(** the output *)
Lemma output_step : forall (b x s0 : f64) e d k, (-1000 <= e <= 1000)%Z -> is_finite b = true -> is_finite x = true -> is_finite s0 = true ->
  Rabs (B2R b * B2R x) <= bpow radix2 e -> Rabs (B2R s0) <= 39 * bpow radix2 e -> 0 <= k <= 19 -> Rabs (B2R s0 - d) <= k * (68 * bpow radix2 (e - 53) + bpow radix2 (-1021)) ->
  Rabs (B2R (flush A (f64_fma b x s0)) - (B2R b * B2R x + d)) <= bpow radix2 (e - 42) + bpow radix2 (-1016).
Proof using Type.
  clear Hcs Hfin. intros b x s0 e d k He Fb Fx Fs P1 P2 Hk Hd. assert (B6 : bpow radix2 (e + 6) = 64 * bpow radix2 e) by (rewrite bpow_plus; change (bpow radix2 6) with 64; ring). pose proof (bpow_gt_0 radix2 e) as P. pose proof (bpow_gt_0 radix2 (e - 53)).
  apply Rabs_le_inv in P1, P2. destruct (f64_fma_err b x s0 (e + 6)) as (F1 & _ & E1 & _); try assumption; [unfold exp_ok; lia|apply Rabs_le; rewrite B6; lra|]. pose proof (flush_err M _ F1) as E2. apply Rabs_le_inv in E1, E2, Hd.
  replace (e + 6 - 53)%Z with (6 + (e - 53))%Z in E1 by lia. rewrite bpow_plus in E1. change (bpow radix2 6) with 64 in E1. replace (e - 42)%Z with (11 + (e - 53))%Z by lia. rewrite bpow_plus. change (bpow radix2 11) with 2048.
  replace (-1021)%Z with (1 + -1022)%Z in Hd by lia. rewrite bpow_plus in Hd. change (bpow radix2 1) with 2 in Hd. replace (-1016)%Z with (6 + -1022)%Z by lia. rewrite (bpow_plus radix2 6 (-1022)). change (bpow radix2 6) with 64. pose proof (bpow_gt_0 radix2 (-1022)) as N.
  set (u := bpow radix2 (e - 53)) in *. set (v := bpow radix2 (-1022)) in *. assert (k * (68 * u + 2 * v) <= 19 * (68 * u + 2 * v)) by (apply Rmult_le_compat_r; lra). apply Rabs_le. lra.
Qed.

Lemma flat_nth : forall (s : list f64) i, nth i s zero64 = nth i s (f64_of_Z 0). Proof using Type. reflexivity. Qed.
Lemma update_ok : forall ds x y (st : list f64), (length ds < length st)%nat -> exists st', iir_update A ds x y st = Ok st' /\ length st' = length st /\
  forall i, nth i st' zero64 = match nth_error ds i with Some (b, a) => f64_add (f64_sub (f64_mul b x) (f64_mul a y)) (nth (S i) st zero64) | None => nth i st zero64 end.
Proof using Type.
  clear Hcs Hfin. induction ds as [|[b a] ds IH]; intros x y st L; cbn [length] in L; [exists st; repeat split; intros [|i]; reflexivity|]. destruct st as [|s st]; [cbn in L; lia|]. cbn [iir_update length] in *.
  destruct st as [|s1 st]; [cbn in L; lia|]. destruct (IH x y (s1 :: st) ltac:(lia)) as (st' & E & L' & P). change (index (s1 :: st) 0) with (Ok s1). cbn [bind]. rewrite E. cbn [bind]. eexists. split; [reflexivity|]. split; [cbn [length] in *; lia|].
  intros [|i]; [reflexivity|]. cbn [nth nth_error]. rewrite P. destruct (nth_error ds i) as [[b' a']|]; reflexivity.
Qed.

(** a frame more, in general *)
Lemma extend_float : forall s h s' x y, float_rel s h -> is_finite x = true -> tidy y -> length s' = MAX_IIR_COEFFS_LEN ->
  (forall X Y, length X = length (h_env h) -> length Y = length (h_env h) -> good_state X Y (length (h_env h)) s -> good_state (X ++ [B2R x]) (Y ++ [B2R y]) (length (h_env h) + 1) s' /\
     forall e, (-1000 <= e <= 1000)%Z -> products_small cs (X ++ [B2R x]) Y e -> Rabs (B2R y - (B2R (fst (nth 0 cs (zero64, zero64))) * B2R x + due X Y (Z.of_nat (length (h_env h))) 0)) <= bpow radix2 (e - 42) + bpow radix2 (-1016)) ->
  float_rel s' (mk_history (h_env h ++ [tt]) (h_in h ++ [x]) (h_out h ++ [f32_of_f64 y])).
Proof using Hcs.
  clear Hfin. intros s [env xs os] s' x y (ys & Eo & L1 & L2 & Fx & Ty & L3 & Gs & Gf) Hx Hy L' Hn. cbn [h_env h_in h_out] in *. exists (ys ++ [y]). cbn [h_env h_in h_out].
  rewrite map_app, Eo. unfold values in *. rewrite !map_app. cbn [map]. fold (values ys) in *. split; [reflexivity|]. rewrite !app_length. cbn [length]. split; [lia|]. split; [lia|]. split; [apply Forall_app; auto|]. split; [apply Forall_app; auto|]. split; [exact L'|].
  set (n := length env) in *. set (X := vals xs) in *. set (Y := values ys) in *. assert (LX : length X = n) by (unfold X; rewrite map_length; lia). assert (LY : length Y = n) by (unfold Y, values; rewrite map_length; lia).
  destruct (Hn X Y LX LY Gs) as [G1 G2]. split; [exact G1|]. intros t Ht. destruct (Nat.lt_ge_cases t n) as [Lt|Ge].
  - intros e He Hp. specialize (Gf t Lt e He). rewrite !firstn_app in Hp. replace (S t - length X)%nat with 0%nat in Hp by lia. replace (t - length Y)%nat with 0%nat in Hp by lia. cbn [firstn] in Hp. rewrite !app_nil_r in Hp. specialize (Gf Hp).
    unfold iir_residual in *. rewrite (at_app_l Y), (weighted_app _ X), (weighted_app _ Y) by lia. exact Gf.
  - assert (t = n) as -> by lia. intros e He Hp. rewrite !firstn_app in Hp. rewrite (firstn_all2 (n := S n) X) in Hp by lia. rewrite (firstn_all2 (n := n) Y) in Hp by lia. replace (S n - length X)%nat with 1%nat in Hp by lia. replace (n - length Y)%nat with 0%nat in Hp by lia. cbn [firstn] in Hp. rewrite app_nil_r in Hp. specialize (G2 e He Hp).
    unfold iir_residual. rewrite (at_last Y _ n LY). rewrite (weighted_app as_ Y) by lia.
    assert (Eb : weighted bs (X ++ [B2R x]) (Z.of_nat n) = B2R (fst (nth 0 cs (zero64, zero64))) * B2R x + weighted (skipn 1 bs) X (Z.of_nat n - 1)).
    { destruct cs as [|c ds]; [cbn in Hcs; lia|]. cbn [map values weighted skipn nth]. rewrite (at_last X _ n LX). fold (values (map fst ds)). change (map (fun v : f64 => B2R v) (map fst ds)) with (values (map fst ds)). rewrite (weighted_app (values (map fst ds)) X) by lia. reflexivity. }
    rewrite Eb. unfold due in G2. cbn [skipn] in G2 |- *. match goal with |- Rabs ?a <= _ => match type of G2 with Rabs ?b <= _ => replace a with b by ring end end. exact G2.
Qed.

Lemma coefs_at : forall i p, nth_error (tl cs) i = Some p -> is_finite (fst p) = true /\ is_finite (snd p) = true /\ In (B2R (fst p)) bs /\ In (B2R (snd p)) as_.
Proof using Hfin.
  intros i p H. clear Hcs. assert (I1 : In p (tl cs)) by (eapply nth_error_In; exact H). assert (I2 : In p cs) by (destruct cs; [exact I1|right; exact I1]). rewrite Forall_forall in Hfin. destruct (Hfin p I2) as [F1 F2]. repeat split; try assumption; unfold values.
  - apply (in_map (fun v : f64 => B2R v)). apply (in_map fst). exact I2.
  - apply (in_map (fun v : f64 => B2R v)). apply (in_map snd). exact I1.
Qed.
Lemma first_coef : In (B2R (fst (nth 0 cs (zero64, zero64)))) bs /\ is_finite (fst (nth 0 cs (zero64, zero64))) = true.
Proof using Hcs Hfin.
  assert (I : In (nth 0 cs (zero64, zero64)) cs) by (apply nth_In; lia). split; [|rewrite Forall_forall in Hfin; apply Hfin; exact I]. apply (in_map (fun v : f64 => B2R v)). apply (in_map fst). exact I.
Qed.
Lemma float_step : forall s h x, float_rel s h -> is_finite x = true -> exists s' y, iir_step A cs s x = Ok (s', y) /\ float_rel s' (mk_history (h_env h ++ [tt]) (h_in h ++ [x]) (h_out h ++ [y])).
Proof using Hcs Hfin.
  intros s h x Hr Hx. pose proof Hr as (_ & _ & _ & _ & _ & _ & L3 & _). destruct (f64_of_f32_val x Hx) as [Ex Fx]. unfold iir_step. change (t_of_v A x) with (f64_of_f32 x). set (x' := f64_of_f32 x) in *.
  assert (E0 : index cs 0 = Ok (nth 0 cs (zero64, zero64))) by (destruct cs; [cbn in Hcs; lia|reflexivity]). assert (E1 : index s 0 = Ok (nth 0 s zero64)) by (destruct s; [discriminate L3|reflexivity]). rewrite E0, E1. cbn [bind].
  change (t_fma A (fst (nth 0 cs (zero64, zero64))) x' (nth 0 s zero64)) with (f64_fma (fst (nth 0 cs (zero64, zero64))) x' (nth 0 s zero64)). set (c0 := fst (nth 0 cs (zero64, zero64))). set (y := flush A (f64_fma c0 x' (nth 0 s zero64))).
  destruct (update_ok (tl cs) x' y s) as (s' & E & L' & P); [rewrite L3; destruct cs; cbn [tl length] in *; lia|]. rewrite E. cbn [bind]. do 2 eexists. split; [reflexivity|]. change (v_of_t A y) with (f32_of_f64 y).
  assert (Ty : tidy y) by apply flush_tidy. apply (extend_float s h s' x y Hr Hx Ty); [lia|]. intros X Y LX LY Gs. set (n := length (h_env h)) in *. clear Hr. destruct first_coef as [C1 C2]. fold c0 in C1, C2. split.
  - clearbody y. intros e He Hp i Hi. destruct (small_app X Y (B2R x) (B2R y) e Hp) as (Hp' & Bx & By). rewrite P. destruct (nth_error (tl cs) i) as [[b a]|] eqn:Qi.
    + destruct (coefs_at i _ Qi) as (Fb & Fa & Ib & Ia). rewrite (due_next X Y (B2R x) (B2R y) n i (b, a) LX LY Qi). cbn [fst snd] in *. assert (Hi' : (S i < MAX_IIR_COEFFS_LEN)%nat) by (assert (i < length (tl cs))%nat by (apply nth_error_Some; congruence); destruct cs; cbn [tl length] in *; lia).
      destruct (Gs e He Hp' (S i) Hi') as [Fs Es]. unfold slack in *. rewrite (left_next i _ Qi). rewrite <- Ex. rewrite Forall_forall in Bx, By. apply state_step; try assumption; [apply Ty|rewrite Ex; apply Bx; exact Ib|apply By; exact Ia|exact (state_small X Y n s e (S i) He Hp' Gs Hi')].
    + rewrite (due_end _ _ _ i Qi). destruct (Gs e He Hp' i Hi) as [Fs Es]. rewrite (due_end _ _ _ i Qi) in Es. split; [exact Fs|exact Es].
  - intros e He Hp. assert (Hp' : products_small cs X Y e). { destruct Hp as [H1 H2]. split; [|exact H2]. eapply Forall_impl; [|exact H1]. intros c Hc. apply Forall_app in Hc. apply Hc. }
    destruct (Gs e He Hp' 0%nat ltac:(unfold MAX_IIR_COEFFS_LEN; lia)) as [Fs Es]. rewrite <- Ex. unfold y.
    destruct Hp as [H1 _]. rewrite Forall_forall in H1. specialize (H1 _ C1). apply Forall_app in H1. destruct H1 as [_ H1]. apply Forall_inv in H1.
    apply (output_step c0 x' (nth 0 s zero64) e _ (left 0)); try assumption; [rewrite Ex; exact H1|exact (state_small X Y n s e 0 He Hp' Gs ltac:(unfold MAX_IIR_COEFFS_LEN; lia))|apply left_bound].
Qed.
Lemma float_channel : forall env xs s h, float_rel s h -> length xs = length env -> Forall (fun x : f32 => is_finite x = true) xs ->
  exists s' ys, iir_channel A cs s xs = Ok (s', ys) /\ length ys = length xs /\ float_rel s' (mk_history (h_env h ++ env) (h_in h ++ xs) (h_out h ++ ys)).
Proof using Hcs Hfin.
  induction env as [|e env IH]; intros [|x xs] s h Hr L Hf; try discriminate L.
  - exists s, []. cbn [iir_channel]. rewrite !app_nil_r. destruct h. auto.
  - inversion Hf as [|? ? F1 F2]; subst. destruct e. cbn [iir_channel]. destruct (float_step s h x Hr F1) as (s1 & y & E1 & R1). rewrite E1. cbn [bind]. destruct (IH xs s1 _ R1 ltac:(cbn in L; lia) F2) as (s2 & ys & E2 & L2 & R2). rewrite E2. cbn [bind h_env h_in h_out] in *. do 2 eexists. split; [reflexivity|]. split; [cbn [length]; lia|].
    rewrite (app_cons _ (h_env h)), (app_cons _ (h_in h)), (app_cons _ (h_out h)). exact R2.
Qed.

(** at rest *)
Lemma not_normal : forall v : f64, is_finite v = true -> f64_is_normal v = false -> Rabs (B2R v) <= bpow radix2 (-1022).
Proof using Type. intros v F H. destruct (Rle_or_lt (bpow radix2 (-1022)) (Rabs (B2R v))) as [L|L]; [apply normal_iff in L; [congruence|exact F]|lra]. Qed.
Lemma dead_state : forall s i, iir_live A cs s = false -> length s = MAX_IIR_COEFFS_LEN -> (i < length cs)%nat -> f64_is_normal (nth i s zero64) = false.
Proof using Hcs.
  clear Hfin. intros s i Hl L Hi. destruct (f64_is_normal (nth i s zero64)) eqn:Q; [exfalso|reflexivity]. assert (iir_live A cs s = true); [|congruence]. unfold iir_live. apply existsb_exists. exists (nth i s zero64). split; [|exact Q].
  rewrite <- (firstn_skipn (length cs) s) at 1. rewrite app_nth1 by (rewrite firstn_length; lia). apply nth_In. rewrite firstn_length. lia.
Qed.
Lemma float_rest_step : forall s h, iir_live A cs s = false -> float_rel s h -> float_rel s (mk_history (h_env h ++ [tt]) (h_in h ++ [f32_zero]) (h_out h ++ [f32_zero])).
Proof using Hcs Hfin.
  intros s h Hl Hr. pose proof Hr as (_ & _ & _ & _ & _ & _ & L3 & _). apply (extend_float s h s f32_zero f64_zero Hr); [reflexivity|split; [reflexivity|left; reflexivity]|exact L3|]. intros X Y LX LY Gs. set (n := length (h_env h)) in *. change (B2R f32_zero) with 0. change (B2R f64_zero) with 0.
  assert (Sm : forall e i, (-1000 <= e <= 1000)%Z -> products_small cs X Y e -> (i < length cs)%nat -> Rabs (B2R (nth i s zero64)) <= bpow radix2 (-1022)).
  { intros e i He Hp Hi. destruct (Gs e He Hp i ltac:(lia)) as [F _]. apply not_normal; [exact F|]. apply dead_state; assumption. }
  assert (D : bpow radix2 (-1021) = 2 * bpow radix2 (-1022)) by (change (-1021)%Z with (1 + -1022)%Z; rewrite bpow_plus; reflexivity).
  split.
  - intros e He Hp i Hi. destruct (small_app X Y 0 0 e Hp) as (Hp' & _ & _). destruct (Gs e He Hp' i Hi) as [Fi Ei]. split; [exact Fi|]. destruct (nth_error (tl cs) i) as [p|] eqn:Qi.
    + assert (Hi' : (S i < length cs)%nat) by (assert (i < length (tl cs))%nat by (apply nth_error_Some; congruence); destruct cs; cbn [tl length] in *; lia). rewrite (due_next X Y 0 0 n i p LX LY Qi), !Rmult_0_r, Rminus_0_r, Rplus_0_l.
      destruct (Gs e He Hp' (S i) ltac:(lia)) as [_ Ej]. pose proof (Sm e i He Hp' ltac:(lia)) as S1. pose proof (Sm e (S i) He Hp' Hi') as S2. unfold slack in *. rewrite (left_next i p Qi). pose proof (bpow_gt_0 radix2 (e - 53)). apply Rabs_le_inv in Ej, S1, S2. apply Rabs_le. lra.
    + rewrite (due_end _ _ _ i Qi) in Ei. rewrite (due_end _ _ _ i Qi). exact Ei.
  - intros e He Hp. assert (Hp' : products_small cs X Y e). { destruct Hp as [H1 H2]. split; [|exact H2]. eapply Forall_impl; [|exact H1]. intros c Hc. apply Forall_app in Hc. apply Hc. }
    destruct (Gs e He Hp' 0%nat ltac:(unfold MAX_IIR_COEFFS_LEN; lia)) as [_ E0]. pose proof (Sm e 0%nat He Hp' ltac:(lia)) as S0. pose proof (left_bound 0) as Lb. unfold slack in E0. rewrite Rmult_0_r, Rplus_0_l.
    replace (e - 42)%Z with (11 + (e - 53))%Z by lia. rewrite bpow_plus. change (bpow radix2 11) with 2048. rewrite D in E0. replace (-1016)%Z with (6 + -1022)%Z by lia. rewrite (bpow_plus radix2 6 (-1022)). change (bpow radix2 6) with 64. pose proof (bpow_gt_0 radix2 (-1022)) as N. pose proof (bpow_gt_0 radix2 (e - 53)).
    set (u := bpow radix2 (e - 53)) in *. set (v := bpow radix2 (-1022)) in *. assert (left 0 * (68 * u + 2 * v) <= 19 * (68 * u + 2 * v)) by (apply Rmult_le_compat_r; lra). apply Rabs_le_inv in E0, S0. apply Rabs_le. lra.
Qed.
Lemma float_rest : forall n s h env, iir_live A cs s = false -> float_rel s h -> length env = n -> float_rel s (mk_history (h_env h ++ env) (h_in h ++ repeat f32_zero n) (h_out h ++ repeat f32_zero n)).
Proof using Hcs Hfin.
  induction n as [|n IH]; intros s h env Hl Hr L; destruct env as [|[] env]; try discriminate L; [cbn [repeat]; rewrite !app_nil_r; destruct h; exact Hr|].
  cbn [repeat]. rewrite (app_cons _ (h_env h)), (app_cons _ (h_in h)), (app_cons _ (h_out h)). pose proof (IH s _ env Hl (float_rest_step s h Hl Hr) ltac:(cbn in L; lia)) as R. exact R.
Qed.

Lemma iir_run_ieee : forall ls, Forall (call_ok (sops_of A) size) ls -> Forall (fun l => Forall (fun c => Forall (fun x : f32 => is_finite x = true) (c_val c)) (l_input _ l)) ls ->
  exists states outs, run_calls (iir_call A size cs) [iir_start A; iir_start A] ls = Ok (states, outs) /\ length outs = length ls /\
    forall c, let h := channel_history f32_zero size c (fun _ => repeat tt size) empty_history ls outs in exists ys : list f64, h_out h = map f32_of_f64 ys /\ length ys = length (h_in h) /\ Forall tidy ys /\
      forall t, (t < length (h_in h))%nat -> good_frame (vals (h_in h)) (values ys) t.
Proof using Hcs Hfin.
  intros ls Hok Hfi. change f32_zero with (v_zero A).
  assert (Z : forall i, nth i (iir_start A) zero64 = zero64) by (intros i; apply (nth_repeat zero64 MAX_IIR_COEFFS_LEN)).
  assert (W : forall l n, weighted l [] n = 0). { induction l as [|c l IH]; intros n; [reflexivity|]. cbn [weighted]. rewrite IH. unfold at_time. destruct (n <? 0)%Z; [ring|]. destruct (Z.to_nat n); cbn [nth]; ring. }
  assert (R0 : float_rel (iir_start A) empty_history).
  { exists []. cbn [empty_history h_in h_out h_env map length values]. split; [reflexivity|]. split; [reflexivity|]. split; [reflexivity|]. split; [constructor|]. split; [constructor|]. split; [reflexivity|]. split; [|intros t Ht; lia].
    intros e He _ i Hi. rewrite Z. split; [reflexivity|]. unfold due. rewrite !W. change (B2R zero64) with 0. rewrite !Rminus_0_r, Rabs_R0. unfold slack. pose proof (left_bound i). pose proof (bpow_ge_0 radix2 (e - 53)). pose proof (bpow_ge_0 radix2 (-1021)). apply Rmult_le_pos; lra. }
  assert (Lz : iir_live A cs (iir_start A) = false).
  { destruct (iir_live A cs (iir_start A)) eqn:Q; [exfalso|reflexivity]. unfold iir_live in Q. apply existsb_exists in Q. destruct Q as (v & Hv & Q).
    assert (v = zero64). { apply (repeat_spec MAX_IIR_COEFFS_LEN). rewrite <- (firstn_skipn (length cs)). apply in_or_app. left. exact Hv. } subst v. discriminate Q. }
  destruct (calls_rel A size (iir_start A) float_rel (fun _ : unit => repeat tt size) (fun l => Forall (fun c => Forall (fun x : f32 => is_finite x = true) (c_val c)) (l_input _ l)) (iir_call A size cs)) with (ls := ls) (states := [iir_start A; iir_start A]) (h := fun _ : nat => @empty_history unit f32) as (sts & outs & E & L & Q); try assumption.
  - intros states h l Hn Hr [Hq Ho] Hf. destruct l as [[] s input output]. unfold iir_call, iir_quantum. cbn [l_settings l_input l_output l_name] in *.
    apply (quantum_rel A size (iir_start A) (iir_live A cs) float_rel Lz R0 (float_rest size) (fun x : f32 => is_finite x = true) (iir_channel A cs) (repeat tt size) (repeat_length tt size)); try assumption.
    intros st h0 xs R1 L1 F1. destruct (float_channel (repeat tt size) xs st h0 R1 ltac:(rewrite repeat_length; exact L1) F1) as (s' & ys & E1 & L2 & R2). exists s', ys. split; [exact E1|]. split; [lia|exact R2].
  - cbn [length]. lia.
  - intros [|[|[|c]]]; exact R0.
  - exists sts, outs. split; [exact E|]. split; [exact L|]. intros c. destruct (Q c) as (ys & Q1 & Q2 & Q3 & _ & Q5 & _ & _ & Q8). exists ys. split; [exact Q1|]. split; [congruence|]. split; [exact Q5|]. cbv zeta. intros t Ht. apply Q8. rewrite <- Q2. exact Ht.
Qed.
End Run.

(** the coefficients *)
Lemma iir_new_ieee : forall M ff fb cs start, iir_new (ieee M) ff fb = Ok (cs, start) -> start = [iir_start (ieee M); iir_start (ieee M)] /\ (0 < length cs <= MAX_IIR_COEFFS_LEN)%nat /\ length cs = Nat.max (length ff) (length fb) /\
  forall i, (i < length cs)%nat -> nth_error cs i = Some (f64_div (nth i ff (f64_of_Z 0)) (nth 0 fb (f64_of_Z 0)), f64_div (nth i fb (f64_of_Z 0)) (nth 0 fb (f64_of_Z 0))).
Proof.
  intros M ff fb cs start E. unfold iir_new, check_feedforward, check_feedback, check in E. destruct (negb (length ff =? 0)%nat && (length ff <=? MAX_IIR_COEFFS_LEN)%nat) eqn:C1; [|discriminate E]. cbn [bind] in E. destruct (negb (forallb _ ff)); [|discriminate E]. cbn [bind] in E.
  destruct (negb (length fb =? 0)%nat && (length fb <=? MAX_IIR_COEFFS_LEN)%nat) eqn:C2; [|discriminate E]. cbn [bind] in E. apply andb_prop in C1, C2. rewrite negb_true_iff, Nat.eqb_neq, Nat.leb_le in C1, C2.
  destruct fb as [|a0 fb]; [cbn in C2; lia|]. change (index (a0 :: fb) 0) with (Ok a0) in E. cbn [bind] in E. destruct (negb (t_eq (ieee M) a0 (t_of_Z (ieee M) 0))); [|discriminate E]. cbn [bind] in E. injection E as <- <-. split; [reflexivity|].
  set (n := Nat.max (length ff) (length (a0 :: fb))). assert (Lp : forall l, (length l <= n)%nat -> length (pad (ieee M) n l) = n) by (intros l Hl; unfold pad; rewrite app_length, repeat_length; lia).
  rewrite map_length, combine_length, !Lp by lia. split; [lia|]. split; [lia|]. intros i Hi.
  assert (Np : forall l, (length l <= n)%nat -> nth_error (pad (ieee M) n l) i = Some (nth i l (f64_of_Z 0))).
  { intros l Hl. unfold pad. change (t_of_Z (ieee M) 0) with (f64_of_Z 0). destruct (Nat.lt_ge_cases i (length l)) as [Lt|Ge]; [rewrite nth_error_app1 by exact Lt; apply nth_error_nth'; exact Lt|]. rewrite nth_error_app2 by exact Ge. rewrite nth_error_repeat by lia. rewrite nth_overflow by exact Ge. reflexivity. }
  assert (Nc : forall X (l l' : list X) k x y, nth_error l k = Some x -> nth_error l' k = Some y -> nth_error (combine l l') k = Some (x, y)).
  { intros X. induction l as [|u l IH]; intros [|v l'] [|k] x y H1 H2; try discriminate; [cbn in *; congruence|]. cbn [nth_error combine] in *. apply IH; assumption. }
  exact (map_nth_error (fun p : f64 * f64 => (f64_div (fst p) a0, f64_div (snd p) a0)) i _ (Nc _ _ _ i _ _ (Np ff ltac:(lia)) (Np (a0 :: fb) ltac:(lia)))).
Qed.
