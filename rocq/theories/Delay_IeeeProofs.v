(** Delay in floating point: positions, and no access outside of the ring. *)
From Coq Require Import List Arith Bool ZArith Reals Lra Lia.
From Flocq Require Import Core BinarySingleNaN.
From Verif Require Import Float_Model Float_Proofs Float_BoundProofs Float_ErrorProofs Buffer_Model Buffer_ResampleProofs Common_Model Arith_Model Source_Model Source_ClockProofs Osc_IeeeProofs
  Delay_Model Delay_Spec Delay_Proofs.
Import ListNotations.
Local Open Scope R_scope.
Notation format64 := (generic_format radix2 (SpecFloat.fexp 53 1024)).
Notation rnd64 := (round radix2 (SpecFloat.fexp 53 1024) ZnearestE).
Notation close32 := (close 24 128).

Lemma format_scale : forall x e, format64 x -> (0 <= e)%Z \/ ((-900 <= e)%Z /\ 1 <= x) -> format64 (x * bpow radix2 e).
Proof.
  intros x e G H. apply (FLT_format_generic radix2 (3 - 1024 - 53) 53) in G. destruct G as [f H1 H2 H3].
  apply (generic_format_FLT radix2 (3 - 1024 - 53) 53). exists (Float radix2 (Fnum f) (Fexp f + e)); cbn [Fnum Fexp]; [unfold F2R in *; cbn [Fnum Fexp]; rewrite bpow_plus, H1; ring|exact H2|].
  destruct H as [H|[H Hx]]; [lia|]. assert (-53 < Fexp f)%Z; [|lia]. apply Z.nle_gt. intros L. assert (x < 1); [|lra]. rewrite H1. unfold F2R. apply Rlt_le_trans with (bpow radix2 53 * bpow radix2 (Fexp f)).
  - apply Rmult_lt_compat_r; [apply bpow_gt_0|]. apply Rle_lt_trans with (IZR (Z.abs (Fnum f))); [apply IZR_le; lia|]. change (bpow radix2 53) with (IZR (radix2 ^ 53)). apply IZR_lt. exact H2.
  - rewrite <- bpow_plus. change 1 with (bpow radix2 0). apply bpow_le. lia.
Qed.

Lemma f64_to_i32_val : forall (x : f64) n, is_finite x = true -> B2R x = IZR n -> (- 2 ^ 31 <= n < 2 ^ 31)%Z -> f64_to_i32 x = n.
Proof.
  intros x n F E Hn. assert (Et : Btrunc x = n) by (rewrite (trunc_val 53 1024 f64_emax), E; apply Ztrunc_IZR).
  destruct x; try discriminate; unfold f64_to_i32; rewrite Et; lia.
Qed.

Lemma f32_of_f64_err : forall (x : f64) e, is_finite x = true -> exp_ok 128 e -> Rabs (B2R x) <= bpow radix2 e -> close32 (f32_of_f64 x) (B2R x) e.
Proof.
  intros x e F He Hx. destruct (rnd_err 24 128 f32_prec f32_emax (B2R x) e He Hx) as [R1 R2].
  destruct x as [s| | |s m ex Hb]; try discriminate.
  - split; [reflexivity|]. split; [cbn [f32_of_f64 B2R]; symmetry; apply round_0, valid_rnd_N|]. cbn [f32_of_f64 B2R]. rewrite Rminus_0_r, Rabs_R0. split; apply bpow_ge_0.
  - pose proof (binary_normalize_correct 24 128 f32_prec f32_emax mode_NE (cond_Zopp s (Zpos m)) ex s) as C. cbv zeta in C. cbn [round_mode] in C.
    change (F2R (Float radix2 (cond_Zopp s (Zpos m)) ex)) with (B2R (B754_finite s m ex Hb : binary_float 53 1024)) in C. rewrite (small 24 128 f32_prec f32_emax _ e He Hx) in C. destruct C as (C1 & C2 & _).
    split; [exact C2|]. cbn [f32_of_f64]. rewrite C1. auto.
Qed.

Section Ieee.
Variable M : libm.
Notation A := (ieee M).
Variable sr : f32.
Hypothesis Hsr : rate_ok sr.
Notation S := (B2R (f64_of_f32 sr)).

Lemma bp : bpow radix2 28 = 268435456 /\ bpow radix2 (28 - 53) = / 33554432.
Proof. split; [reflexivity|]. reflexivity. Qed.

(** the position of frame [i] for the clamped delay [c] *)
Definition pos64 (c : f64) (i : nat) : f64 := f64_sub (f64_of_Z (Z.of_nat i)) (f64_mul c (f64_of_f32 sr)).
Lemma num_val : forall c : f64, is_finite c = true -> 0 <= B2R c <= 256 ->
  let num := f64_mul c (f64_of_f32 sr) in is_finite num = true /\ B2R num = rnd64 (B2R c * S) /\ Rabs (B2R num - B2R c * S) <= / 33554432 /\ 0 <= B2R num <= 196608000.
Proof using Hsr.
  intros c Fc Hc num. destruct bp as [B1 B2]. pose proof (S_range sr Hsr) as RS. pose proof (S_finite sr Hsr) as FS. assert (P : 0 <= B2R c * S <= 196608000) by nra.
  destruct (f64_mul_err c (f64_of_f32 sr) 28 Fc FS) as (F & E & Ab & Bd); [apply eok; lia|rewrite Rabs_pos_eq by lra; lra|]. fold num in F, E, Ab, Bd. rewrite B2 in Ab. split; [exact F|]. split; [exact E|]. split; [exact Ab|].
  rewrite E. apply (rnd_between 53 1024 f64_prec 0 196608000); [apply generic_format_0|apply (format_int 53 1024 f64_prec f64_emax 196608000); lia|exact P].
Qed.
Lemma pos64_val : forall (c : f64) i, is_finite c = true -> 0 <= B2R c <= 256 -> (i < 128)%nat ->
  is_finite (pos64 c i) = true /\ Rabs (B2R (pos64 c i) - (IZR (Z.of_nat i) - B2R c * S)) <= / 16777216 /\ B2R (pos64 c i) <= IZR (Z.of_nat i) /\ - 268435456 <= B2R (pos64 c i) /\
  (forall m, (0 <= m <= 2 ^ 28)%Z -> B2R (f64_mul c (f64_of_f32 sr)) <= IZR m -> - IZR m <= B2R (pos64 c i)).
Proof using Hsr.
  intros c i Fc Hc Hi. destruct (num_val c Fc Hc) as (Fn & En & An & Rn). destruct bp as [B1 B2]. destruct (f64_of_Z_exact (Z.of_nat i)) as [Ei Fi]; [lia|]. assert (Ri : 0 <= IZR (Z.of_nat i) <= 127) by (split; [apply (IZR_le 0)|apply IZR_le]; lia).
  unfold pos64. set (num := f64_mul c (f64_of_f32 sr)) in *. destruct (f64_sub_err (f64_of_Z (Z.of_nat i)) num 28 Fi Fn) as (F & E & Ab & Bd); [apply eok; lia|rewrite Ei; apply Rabs_le; lra|].
  rewrite Ei in *. rewrite B2 in Ab. split; [exact F|]. split; [|split; [|split]].
  - apply Rabs_le_inv in Ab. apply Rabs_le_inv in An. apply Rabs_le. lra.
  - rewrite E. apply (rnd_between 53 1024 f64_prec (- IZR (2 ^ 28)) (IZR (Z.of_nat i))); [rewrite <- opp_IZR; apply (format_int 53 1024 f64_prec f64_emax); lia|apply (format_int 53 1024 f64_prec f64_emax); lia|]. change (IZR (2 ^ 28)) with 268435456. lra.
  - rewrite E. apply (rnd_between 53 1024 f64_prec (- IZR (2 ^ 28)) (IZR (Z.of_nat i))); [rewrite <- opp_IZR; apply (format_int 53 1024 f64_prec f64_emax); lia|apply (format_int 53 1024 f64_prec f64_emax); lia|]. change (IZR (2 ^ 28)) with 268435456. lra.
  - intros m Hm Hl. rewrite E. rewrite <- opp_IZR. apply (rnd_between 53 1024 f64_prec (IZR (- m)) (IZR (Z.of_nat i))); [apply (format_int 53 1024 f64_prec f64_emax); lia|apply (format_int 53 1024 f64_prec f64_emax); lia|]. rewrite opp_IZR. lra.
Qed.

Lemma f64_max_val : forall x y : f64, is_finite x = true -> is_finite y = true -> is_finite (f64_max x y) = true /\ B2R (f64_max x y) = Rmax (B2R x) (B2R y).
Proof using.
  clear. intros x y Fx Fy. unfold f64_max. rewrite !(finite_not_nan 53 1024) by assumption. destruct (f64_lt x y) eqn:E.
  - apply f64_lt_R in E; try assumption. rewrite Rmax_right by lra. auto.
  - split; [exact Fx|]. rewrite Rmax_left; [reflexivity|]. apply Rnot_lt_le. intros L. apply f64_lt_R in L; try assumption. congruence.
Qed.

Variable N : nat.
Hypothesis HN : (2 <= N)%nat.

(** the clamped delay *)
Definition clamp (d qd : f64) (cyc : bool) : f64 := if cyc then f64_max d qd else d.
Lemma infos_val : forall (d qd : f64) (cyc : bool) i Q, is_finite (clamp d qd cyc) = true -> 0 <= B2R (clamp d qd cyc) <= 256 -> (i < 128)%nat ->
  let p := pos64 (clamp d qd cyc) i in (- 128 * Z.of_nat N <= Zfloor (B2R p))%Z ->
  infos A d cyc (f64_of_Z (Z.of_nat i)) qd (f64_of_f32 sr) (Z.of_nat N) (Z.of_nat (Q mod N)) = (address N (128 * Z.of_nat Q + Zfloor (B2R p)), f32_of_f64 (f64_sub p (f64_floor p))).
Proof using Hsr HN.
  intros d qd cyc i Q Fc Hc Hi p Hp. destruct (pos64_val _ i Fc Hc Hi) as (F & _ & U & L & _). fold p in F, U, L.
  unfold infos. change (t_max A) with f64_max. change (if cyc then f64_max d qd else d) with (clamp d qd cyc). change (t_sub A (f64_of_Z (Z.of_nat i)) (t_mul A (clamp d qd cyc) (f64_of_f32 sr))) with p. cbv zeta.
  change (t_floor A) with f64_floor. change (t_to_i32 A) with f64_to_i32. change (t_div A) with f64_div. change (t_of_Z A 128) with (f64_of_Z 128). change (v_of_t A) with f32_of_f64. change (t_sub A) with f64_sub.
  set (P := Zfloor (B2R p)) in *. destruct (floor_val 53 1024 f64_emax p) as [Ef Ff]. change (Bnearbyint mode_DN p) with (f64_floor p) in Ef, Ff. fold P in Ef. rewrite F in Ff.
  assert (RP : (- 268435456 <= P < 128)%Z). { split; [apply Zfloor_lub; exact L|]. apply lt_IZR. unfold P. pose proof (Zfloor_lb (B2R p)). assert (IZR (Z.of_nat i) < 128) by (apply (IZR_lt _ 128); lia). lra. }
  rewrite (f64_to_i32_val (f64_floor p) P Ff Ef) by lia.
  destruct (f64_of_Z_exact 128) as [E128 F128]; [lia|].
  assert (Ed : is_finite (f64_div (f64_floor p) (f64_of_Z 128)) = true /\ B2R (f64_div (f64_floor p) (f64_of_Z 128)) = IZR P / 128).
  { destruct (f64_div_err (f64_floor p) (f64_of_Z 128) 28 Ff) as (Fd & Er & _); [rewrite E128; lra|apply eok; lia| |].
    - rewrite Ef, E128. apply Rabs_le. assert (-268435456 <= IZR P <= 128) by (split; apply IZR_le; lia). change (bpow radix2 28) with 268435456. lra.
    - split; [exact Fd|]. rewrite Er, Ef, E128. apply round_generic; [apply valid_rnd_N|]. apply (generic_format_FLT radix2 (3 - 1024 - 53) 53). exists (Float radix2 P (-7)); [unfold F2R; cbn; lra|cbn [Fnum]; change (radix2 ^ 53)%Z with (2 ^ 53)%Z; lia|cbn [Fexp]; lia]. }
  destruct Ed as [Fd Ed]. destruct (floor_val 53 1024 f64_emax (f64_div (f64_floor p) (f64_of_Z 128))) as [Eb Fb]. rewrite Fd in Fb. rewrite Ed, Zfloor_div in Eb by lia.
  assert (RQ1 : (- 268435456 <= P / 128 <= 0)%Z) by (split; [apply Z.div_le_lower_bound; lia|apply Z.lt_succ_r, Z.div_lt_upper_bound; lia]).
  rewrite (f64_to_i32_val (f64_floor (f64_div (f64_floor p) (f64_of_Z 128))) (P / 128) Fb Eb) by lia.
  assert (R3 : (- Z.of_nat N <= P / 128)%Z) by (apply Z.div_le_lower_bound; lia). pose proof (address_of N ltac:(lia) Q P ltac:(lia) ltac:(lia)) as E. cbv zeta in E. rewrite E. reflexivity.
Qed.

Definition quantum_span : f64 := t_mul A (t_of_Z A (Z.of_nat RQ)) (dt A sr).
Lemma quantum_span_val : is_finite quantum_span = true /\ 0 <= B2R quantum_span <= 1 /\ B2R quantum_span * S <= 129.
Proof using Hsr.
  clear HN. destruct (dt_ieee M sr Hsr) as (F & Ab & B). destruct (f64_of_Z_exact 128) as [E1 F1]; [lia|]. pose proof (S_range sr Hsr) as RS.
  assert (Hx : 0 <= 128 * B2R (dt A sr) <= / 16) by lra.
  destruct (f64_mul_err (f64_of_Z 128) (dt A sr) 0 F1 F) as (F2 & E2 & Ab2 & _); [apply eok; lia|rewrite E1, Rabs_pos_eq by lra; change (bpow radix2 0) with 1; lra|].
  change (f64_mul (f64_of_Z 128) (dt A sr)) with quantum_span in *. rewrite E1 in *. split; [exact F2|].
  assert (R0 : 0 <= B2R quantum_span <= 1) by (rewrite E2; apply (rnd_between 53 1024 f64_prec 0 1); [apply generic_format_0|apply (format_int 53 1024 f64_prec f64_emax 1); lia|lra]). split; [exact R0|].
  apply Rabs_le_inv in Ab. apply Rabs_le_inv in Ab2. assert (K1 : bpow radix2 (-64) <= / 1000000000) by (change (bpow radix2 (-64)) with (/ 18446744073709551616); lra).
  assert (K2 : bpow radix2 (0 - 53) <= / 1000000000) by (change (bpow radix2 (0 - 53)) with (/ 9007199254740992); lra).
  assert (Q : B2R quantum_span <= 128 * / S + 129 * / 1000000000) by lra. apply Rle_trans with ((128 * / S + 129 * / 1000000000) * S); [apply Rmult_le_compat_r; lra|]. rewrite Rmult_plus_distr_r, Rmult_assoc, Rinv_l by lra. lra.
Qed.

(** *** The ring for a maximal delay *)
Section Max.
Variable max : f64.
Hypothesis Hmax : is_finite max = true /\ 0 < B2R max < 180.
Hypothesis EN : N = ring_size A sr max.

Lemma max_frames : 128 * (IZR (Z.of_nat N) - 1) >= rnd64 (B2R max * S).
Proof.
  clear HN. destruct Hmax as [Fm Rm]. pose proof (S_range sr Hsr) as RS. destruct (num_val max Fm ltac:(lra)) as (F1 & E1 & A1 & R1). rewrite <- E1. set (m1 := f64_mul max (f64_of_f32 sr)) in *.
  destruct (f64_of_Z_exact 128) as [E128 F128]; [lia|].
  destruct (f64_div_err m1 (f64_of_Z 128) 28 F1) as (F2 & E2 & A2 & _); [rewrite E128; lra|apply eok; lia|rewrite E128, Rabs_pos_eq by lra; change (bpow radix2 28) with 268435456; lra|]. set (q := f64_div m1 (f64_of_Z 128)) in *. rewrite E128 in *.
  destruct (ceil_val 53 1024 f64_emax q) as [Ec Fc]. rewrite F2 in Fc. change (Bnearbyint mode_UP q) with (f64_ceil q) in Ec, Fc.
  assert (Hq : 0 <= B2R q <= 1536000). { rewrite E2. apply (rnd_between 53 1024 f64_prec 0 1536000); [apply generic_format_0|apply (format_int 53 1024 f64_prec f64_emax 1536000); lia|lra]. }
  assert (Hc : (0 <= Zceil (B2R q) <= 1536000)%Z). { split; [apply le_IZR; pose proof (Zceil_ub (B2R q)); lra|]. apply Z.lt_succ_r, lt_IZR. rewrite succ_IZR. pose proof (Zceil_lb (B2R q)). lra. }
  assert (ENz : (Z.of_nat N = Zceil (B2R q) + 1)%Z).
  { rewrite EN. unfold ring_size. change (t_to_Z A (t_ceil A (t_div A (t_mul A max (t_of_v A sr)) (t_of_Z A (Z.of_nat RQ))))) with (f64_to_usize (f64_ceil q)). rewrite (f64_to_usize_val _ Fc), Ec, Ztrunc_IZR. lia. }
  assert (Ecase : B2R m1 <= 128 * IZR (Zceil (B2R q))).
  { assert (Gq : B2R m1 < 1 \/ 1 <= B2R m1) by lra. destruct Gq as [Sm|Big].
    - assert (Lq : 0 < B2R q).
      { assert (Hm1 : B2R m1 >= 128 * B2R max).
        { rewrite E1. apply Rle_ge. assert (G : format64 (128 * B2R max)).
          { pose proof (generic_format_B2R 53 1024 max) as G. rewrite Rmult_comm. change 128 with (bpow radix2 7). apply format_scale; [exact G|left; lia]. }
          rewrite <- (round_generic radix2 (SpecFloat.fexp 53 1024) ZnearestE _ G). apply round_le; [exact (fexp_valid 53 1024 f64_prec)|apply valid_rnd_N|]. nra. }
        assert (Hq2 : B2R max <= B2R q). { rewrite E2. pose proof (generic_format_B2R 53 1024 max) as G. rewrite <- (round_generic radix2 (SpecFloat.fexp 53 1024) ZnearestE _ G) at 1. apply round_le; [exact (fexp_valid 53 1024 f64_prec)|apply valid_rnd_N|]. lra. }
        lra. }
      assert ((1 <= Zceil (B2R q))%Z) by (apply (Z.le_succ_l 0), lt_IZR; pose proof (Zceil_ub (B2R q)); lra). assert (1 <= IZR (Zceil (B2R q))) by (apply IZR_le; assumption). lra.
    - assert (G : format64 (B2R m1 / 128)).
      { unfold Rdiv. change (/ 128) with (bpow radix2 (-7)). apply format_scale; [exact (generic_format_B2R 53 1024 m1)|right; split; [lia|exact Big]]. }
      assert (Eq : B2R q = B2R m1 / 128) by (rewrite E2; apply round_generic; [apply valid_rnd_N|exact G]). pose proof (Zceil_ub (B2R q)). lra. }
  rewrite ENz, plus_IZR. lra.
Qed.
Lemma N_pos : (2 <= N)%nat.
Proof.
  clear HN. pose proof max_frames as F. destruct Hmax as [Fm Rm]. pose proof (S_range sr Hsr) as RS. destruct (Nat.le_gt_cases 2 N) as [L|L]; [exact L|exfalso]. assert (Hn : IZR (Z.of_nat N) <= 1) by (apply IZR_le; lia).
  assert (B2R max <= rnd64 (B2R max * S)). { pose proof (generic_format_B2R 53 1024 max) as G. rewrite <- (round_generic radix2 (SpecFloat.fexp 53 1024) ZnearestE _ G) at 1. apply round_le; [exact (fexp_valid 53 1024 f64_prec)|apply valid_rnd_N|]. nra. }
  lra.
Qed.

(** up to the limit of the parameter, which is rounded *)
Definition limit_ok (d : f32) : Prop := is_finite d = true /\ 0 <= B2R d <= B2R (f32_of_f64 max).
Lemma limit_max : B2R (f32_of_f64 max) <= B2R max + / 65536 /\ is_finite (f32_of_f64 max) = true.
Proof using Hmax.
  clear HN EN. destruct Hmax as [Fm Rm]. destruct (f32_of_f64_err max 8 Fm) as (F & _ & Ab & _); [unfold exp_ok; lia|rewrite Rabs_pos_eq by lra; change (bpow radix2 8) with 256; lra|]. apply Rabs_le_inv in Ab. change (bpow radix2 (8 - 24)) with (/ 65536) in Ab. split; [lra|exact F].
Qed.
Lemma clamp_val : forall d cyc, limit_ok d -> let c := clamp (f64_of_f32 d) quantum_span cyc in is_finite c = true /\ 0 <= B2R c <= 256 /\ B2R c * S <= 128 * IZR (Z.of_nat N) - 10.
Proof.
  clear HN. intros d cyc [Fd Rd] c. destruct (f64_of_f32_val d Fd) as [Ed Fd']. destruct limit_max as [Lm _]. destruct quantum_span_val as (Fq & Rq & Sq). destruct Hmax as [Fm Rm]. pose proof (S_range sr Hsr) as RS.
  pose proof max_frames as F. pose proof N_pos as HN. assert (N2 : 2 <= IZR (Z.of_nat N)) by (apply IZR_le; lia). destruct (num_val max Fm ltac:(lra)) as (_ & E1 & A1 & _). rewrite <- E1 in F. apply Rabs_le_inv in A1.
  assert (Dd : B2R d * S <= 128 * IZR (Z.of_nat N) - 10). { assert (B2R d * S <= (B2R max + / 65536) * S) by (apply Rmult_le_compat_r; lra). rewrite Rmult_plus_distr_r in H. lra. }
  unfold c, clamp. destruct cyc.
  - destruct (f64_max_val (f64_of_f32 d) quantum_span Fd' Fq) as [F1 E2]. rewrite E2, Ed. split; [exact F1|]. split.
    + split; [apply Rle_trans with (B2R d); [lra|apply Rmax_l]|apply Rmax_lub; lra].
    + unfold Rmax. destruct (Rle_dec _ _); lra.
  - rewrite Ed. split; [exact Fd'|]. split; [lra|exact Dd].
Qed.
Lemma pos_low : forall d cyc i, limit_ok d -> (i < 128)%nat -> (- 128 * Z.of_nat N <= Zfloor (B2R (pos64 (clamp (f64_of_f32 d) quantum_span cyc) i)))%Z.
Proof.
  clear HN. intros d cyc i Hd Hi. destruct (clamp_val d cyc Hd) as (Fc & Rc & Sc). cbv zeta in *. destruct (pos64_val _ i Fc Rc Hi) as (F & Ab & _). apply Zfloor_lub. rewrite mult_IZR. apply Rabs_le_inv in Ab. assert (0 <= IZR (Z.of_nat i)) by (apply (IZR_le 0); lia). lra.
Qed.

(** *** All addresses are in the ring *)
Definition delays_ok32 (delays : list f32) : Prop := (length delays = 1 \/ length delays = 128)%nat /\ Forall limit_ok delays.
(** the frame read for sample [i], relative to the quantum, and the interpolation factor *)
Definition read_at (delays : list f32) (cyc : bool) (i : nat) : Z * f32 :=
  match delays with
  | [d] => let p := pos64 (clamp (f64_of_f32 d) quantum_span cyc) 0 in ((Zfloor (B2R p) + Z.of_nat i)%Z, f32_of_f64 (f64_sub p (f64_floor p)))
  | _ => let p := pos64 (clamp (f64_of_f32 (nth i delays f32_zero)) quantum_span cyc) i in (Zfloor (B2R p), f32_of_f64 (f64_sub p (f64_floor p)))
  end.
Lemma infos_nth_ieee : forall delays cyc Q, delays_ok32 delays -> let is := all_infos A sr delays cyc (Z.of_nat N) (Z.of_nat (Q mod N)) in
  length is = 128%nat /\ forall i, (i < 128)%nat -> nth_error is i = Some (address N (128 * Z.of_nat Q + fst (read_at delays cyc i)), snd (read_at delays cyc i)).
Proof.
  clear HN. pose proof N_pos as HN. intros delays cyc Q [Hl Hd]. unfold all_infos. cbv zeta. change (t_of_v A) with f64_of_f32. fold quantum_span.
  destruct delays as [|d [|d2 delays]].
  - cbn [length] in Hl. lia.
  - apply Forall_cons_iff in Hd. destruct Hd as [Hd _]. destruct (clamp_val d cyc Hd) as (Fc & Rc & _). cbv zeta in Fc, Rc. pose proof (infos_val (f64_of_f32 d) quantum_span cyc 0 Q Fc Rc ltac:(lia) (pos_low d cyc 0 Hd ltac:(lia))) as E.
    change (t_zero A) with (f64_of_Z (Z.of_nat 0)). rewrite E. split; [apply constant_infos_length|]. intros i Hi. rewrite (constant_infos_nth N ltac:(lia)) by exact Hi. unfold read_at. cbv zeta. cbn [fst snd]. rewrite Z.add_assoc. reflexivity.
  - cbn [length] in Hl. destruct Hl as [Hl|Hl]; [discriminate|]. set (ds := d :: d2 :: delays) in *. assert (Lc : length (combine (seq 0 RQ) ds) = 128%nat) by (rewrite combine_length, seq_length; change (length ds) with (Datatypes.S (Datatypes.S (length delays))); unfold RQ; lia). split; [rewrite map_length; exact Lc|].
    intros i Hi. assert (En : nth_error (combine (seq 0 RQ) ds) i = Some (i, nth i ds f32_zero)). { rewrite (nth_error_nth' _ (0%nat, f32_zero)) by lia. rewrite combine_nth by (rewrite seq_length; exact (eq_sym Hl)). rewrite seq_nth by (unfold RQ; lia). reflexivity. }
    rewrite (map_nth_error _ _ _ En). cbn [fst snd]. f_equal. rewrite Forall_forall in Hd. assert (Hin : In (nth i ds f32_zero) ds) by (apply nth_In; change (length ds) with (Datatypes.S (Datatypes.S (length delays))); lia). specialize (Hd _ Hin).
    destruct (clamp_val _ cyc Hd) as (Fc & Rc & _). exact (infos_val _ quantum_span cyc i Q Fc Rc Hi (pos_low _ cyc i Hd Hi)).
Qed.

(** *** Safety of any sequence of quanta *)
Variable remix : nat -> list (list f32) -> list (list f32).
Hypothesis remix_good : forall C n b, good C b -> (0 < n)%nat -> good n (remix n b).
Record safe (s : @delay f32) : Prop := {
  s_cap : d_capacity s = N; s_windex : (d_windex s < N)%nat; s_rindex : (d_rindex s < N)%nat; s_len : (length (d_ring s) <= N)%nat;
  s_good : exists C, (0 < C)%nat /\ Forall (good C) (fill_ring A s)
}.
Definition input_ok (b : list (list f32)) : Prop := exists C, (0 < C)%nat /\ good C b.

Lemma safe_fill : forall s, safe s -> length (fill_ring A s) = N.
Proof using. clear. intros s H. unfold fill_ring. rewrite (s_cap _ H). pose proof (s_len _ H). destruct (Nat.ltb_spec (length (d_ring s)) N); [|lia]. rewrite app_length, repeat_length. lia. Qed.
Lemma fill_same : forall s, length (d_ring s) = d_capacity s -> fill_ring A s = d_ring s.
Proof using. clear. intros s H. unfold fill_ring. rewrite H, Nat.ltb_irrefl. reflexivity. Qed.
Lemma safe_new : safe (delay_new N).
Proof using Hsr Hmax EN.
  clear remix_good HN. pose proof N_pos as HN. split; cbn [delay_new d_capacity d_windex d_rindex d_ring length]; try lia. exists 1%nat. split; [lia|]. unfold fill_ring. cbn [delay_new d_ring d_capacity length app]. destruct (Nat.ltb_spec 0 N); [|lia].
  apply Forall_forall. intros b Hb. apply repeat_spec in Hb. subst b. split; [reflexivity|]. apply Forall_cons; [apply repeat_length|apply Forall_nil].
Qed.
Lemma writer_safe : forall s input frame, safe s -> input_ok input -> exists s', writer A remix s input frame = Ok s' /\ safe s'.
Proof using Hsr Hmax EN remix_good.
  clear HN. pose proof N_pos as HN. intros s input frame Hs (C & HC & Gi). pose proof (safe_fill s Hs) as L. destruct (s_good _ Hs) as (C0 & HC0 & G0). unfold writer.
  destruct (fill_ring A s) as [|first rest] eqn:E; [cbn [length] in L; lia|]. change (index (first :: rest) 0) with (Ok first). cbn [bind]. rewrite <- E in *.
  set (ring := if (length first =? length input)%nat then fill_ring A s else map (remix (length input)) (fill_ring A s)).
  assert (Gr : Forall (good C) ring /\ length ring = N).
  { destruct Gi as [Li Gi]. unfold ring. destruct (Nat.eqb_spec (length first) (length input)) as [Ef|Ef].
    - split; [|exact L]. assert (C0 = C); [|subst C0; exact G0]. rewrite E in G0. apply Forall_cons_iff in G0. destruct G0 as [[Lf _] _]. lia.
    - split; [|rewrite map_length; exact L]. apply Forall_map. eapply Forall_impl; [|exact G0]. intros b Gb. rewrite Li. exact (remix_good C0 C b Gb HC). }
  destruct Gr as [Gr Lr]. unfold store. destruct (Nat.ltb_spec (d_windex s) (length ring)) as [_|W]; [|pose proof (s_windex _ Hs); lia]. cbn [bind]. rewrite (s_cap _ Hs). unfold check. destruct (Nat.ltb_spec 0 N); [|lia]. cbn [bind].
  assert (Gu : Forall (good C) (update (d_windex s) (fun _ => input) ring)) by (apply update_Forall; [exact Gr|intros _ _; exact Gi]).
  eexists. split; [reflexivity|]. split; cbn [d_capacity d_windex d_rindex d_ring]; rewrite ?update_length; try lia.
  - apply Nat.mod_upper_bound. lia.
  - exact (s_rindex _ Hs).
  - exists C. split; [exact HC|]. rewrite fill_same; cbn [d_ring d_capacity]; [exact Gu|rewrite update_length; exact Lr].
Qed.
Lemma read_safe : forall ring C c b f k, length ring = N -> Forall (good C) ring -> (c < C)%nat -> (0 <= b < Z.of_nat N)%Z -> (0 <= f < 128)%Z -> exists v, read_sample A ring c (b, f, k) = Ok v.
Proof using Hsr Hmax EN.
  clear remix_good HN. pose proof N_pos as HN. intros ring C c b f k L G Hc Hb Hf. assert (L' : length (ring : list (@block f32)) = N) by exact L.
  assert (Sm : forall b f, (0 <= b < Z.of_nat N)%Z -> (0 <= f < 128)%Z -> exists v, ring_sample ring b f c = Ok v).
  { intros b' f' Hb' Hf'. unfold ring_sample, index_i32. rewrite L'. destruct (Z.leb_spec 0 b'); [|lia]. destruct (Z.ltb_spec b' (Z.of_nat N)); [|lia]. cbn [andb]. unfold index.
    destruct (nth_error (ring : list (@block f32)) (Z.to_nat b')) as [q|] eqn:Eq; [|apply nth_error_None in Eq; lia]. cbn [from_option bind]. rewrite Forall_forall in G. destruct (G q (nth_error_In _ _ Eq)) as [Lq Gq].
    destruct (nth_error q c) as [ch|] eqn:Ec; [|apply nth_error_None in Ec; lia]. cbn [from_option bind]. rewrite Forall_forall in Gq. assert (Lch : length (ch : list f32) = 128%nat) by exact (Gq ch (nth_error_In _ _ Ec)). rewrite Lch. destruct (Z.leb_spec 0 f'); [|lia]. destruct (Z.ltb_spec f' (Z.of_nat 128)); [|lia]. cbn [andb].
    destruct (nth_error ch (Z.to_nat f')) as [v|] eqn:Ev; [exists v; reflexivity|]. apply nth_error_None in Ev. rewrite Lch in Ev. lia. }
  unfold read_sample. rewrite L'. destruct (next_address (Z.of_nat N) b f) as [b' f'] eqn:En. assert (Hn : (0 <= b' < Z.of_nat N)%Z /\ (0 <= f' < 128)%Z).
  { unfold next_address in En. destruct (Z.leb_spec 128 (f + 1)); injection En as <- <-; [split; [apply Z.mod_pos_bound; lia|lia]|lia]. }
  destruct (Sm b f Hb Hf) as (v & Ev). rewrite Ev. cbn [bind]. destruct (Sm b' f' (proj1 Hn) (proj2 Hn)) as (v' & Ev'). rewrite Ev'. cbn [bind]. eexists. reflexivity.
Qed.
Lemma map_res_some : forall X Y (f : X -> res Y) l, (forall x, In x l -> exists y, f x = Ok y) -> exists ys, map_res f l = Ok ys /\ length ys = length l.
Proof using.
  clear. intros X Y f l. induction l as [|x l IH]; intros H; [exists []; split; reflexivity|]. destruct (H x (or_introl eq_refl)) as (y & Ey). destruct IH as (ys & E & L); [intros z Hz; apply H; right; exact Hz|]. exists (y :: ys). cbn [map_res]. rewrite Ey. cbn [bind]. rewrite E. cbn [bind length]. split; [reflexivity|lia].
Qed.
Lemma map_res_each : forall X Y (f : X -> res Y) (P : Y -> Prop) l, (forall x, In x l -> exists y, f x = Ok y /\ P y) -> exists ys, map_res f l = Ok ys /\ length ys = length l /\ Forall P ys.
Proof using.
  clear. intros X Y f P l. induction l as [|x l IH]; intros H; [exists []; repeat split; constructor|]. destruct (H x (or_introl eq_refl)) as (y & Ey & Py). destruct IH as (ys & E & L & G); [intros z Hz; apply H; right; exact Hz|]. exists (y :: ys). cbn [map_res]. rewrite Ey. cbn [bind]. rewrite E. cbn [bind length]. split; [reflexivity|]. split; [lia|apply Forall_cons; assumption].
Qed.
Lemma reader_safe : forall s delays frame, safe s -> delays_ok32 delays -> exists s' out alive, reader A sr s delays frame = Ok (s', (out, alive)) /\ safe s' /\ input_ok out.
Proof using Hsr Hmax EN HN.
  clear remix_good. intros s delays frame Hs Hd. pose proof (safe_fill s Hs) as L. destruct (s_good _ Hs) as (C & HC & G). unfold reader.
  destruct (fill_ring A s) as [|first rest] eqn:E; [cbn [length] in L; lia|]. change (index (first :: rest) 0) with (Ok first). cbn [bind]. rewrite <- E in *. assert (Lf : length first = C) by (rewrite E in G; apply Forall_cons_iff in G; exact (proj1 (proj1 G))). rewrite Lf, L.
  set (cyc := d_in_cycle s || _). pose proof (infos_nth_ieee delays cyc (d_rindex s) Hd) as [Li Ni]. cbv zeta in Li, Ni. rewrite (Nat.mod_small (d_rindex s) N) in Li, Ni by exact (s_rindex _ Hs).
  set (is := all_infos A sr delays cyc (Z.of_nat N) (Z.of_nat (d_rindex s))) in *.
  destruct (map_res_each _ _ (fun c => map_res (read_sample A (fill_ring A s) c) is) (fun ch => length ch = 128%nat) (seq 0 C)) as (chs & Ec & Lc & Gc).
  { intros c Hc. apply in_seq in Hc. destruct (map_res_some _ _ (read_sample A (fill_ring A s) c) is) as (ys & Ey & Ly).
    - intros x Hx. apply In_nth_error in Hx. destruct Hx as (i & Ei). assert (Hi : (i < 128)%nat) by (rewrite <- Li; apply nth_error_Some; congruence). rewrite (Ni i Hi) in Ei. injection Ei as <-. unfold address.
      apply (read_safe _ C); [exact L|exact G|lia|apply Z.mod_pos_bound; lia|apply Z.mod_pos_bound; lia].
    - exists ys. split; [exact Ey|]. rewrite Ly. exact Li. }
  rewrite Ec. cbn [bind]. set (out := if existsb (existsb (v_normal A)) chs then chs else silent_block A).
  assert (Go : input_ok out). { unfold out. destruct (existsb _ chs); [exists C; split; [exact HC|]; split; [rewrite Lc; apply seq_length|exact Gc]|]. exists 1%nat. split; [lia|]. split; [reflexivity|]. apply Forall_cons; [apply repeat_length|apply Forall_nil]. }
  clearbody out. assert (Sf : forall ri ic lw ck, (ri < N)%nat -> safe (mk_delay (fill_ring A s) (d_capacity s) (d_windex s) (d_latest s) ri ic lw ck)).
  { intros ri ic lw ck Hr. split; cbn [d_capacity d_windex d_rindex d_ring]; [exact (s_cap _ Hs)|exact (s_windex _ Hs)|exact Hr|lia|]. exists C. split; [exact HC|]. rewrite fill_same; cbn [d_ring d_capacity]; [exact G|rewrite (s_cap _ Hs); exact L]. }
  destruct (match d_checked s with Some i => (i =? d_rindex s)%nat | None => false end).
  - do 3 eexists. split; [reflexivity|]. split; [apply Sf; exact (s_rindex _ Hs)|exact Go].
  - rewrite (s_cap _ Hs) in *. unfold check. destruct (Nat.ltb_spec 0 N); [|lia]. cbn [bind]. do 3 eexists. split; [reflexivity|]. split; [apply Sf; apply Nat.mod_upper_bound; lia|exact Go].
Qed.
Definition action_ok (a : @delay_action f32) : Prop :=
  match a with D_both input _ delays => input_ok input /\ delays_ok32 delays | D_reader delays => delays_ok32 delays | D_writer input => input_ok input | D_drop => True end.
Lemma run_safe : forall l s frame, safe s -> Forall action_ok l -> exists s' os, delay_run A sr remix s frame l = Ok (s', os) /\ safe s' /\ Forall (fun o => input_ok (fst o)) os.
Proof using Hsr Hmax EN HN remix_good.
  induction l as [|a l IH]; intros s frame Hs Hl; [exists s, []; repeat split; try apply Hs; constructor|]. apply Forall_cons_iff in Hl. destruct Hl as [Ha Hl]. cbn [delay_run].
  assert (St : exists s' os, delay_step A sr remix s frame a = Ok (s', os) /\ safe s' /\ Forall (fun o : list (list f32) * bool => input_ok (fst o)) os).
  { destruct a as [input first delays|delays|input|]; cbn [action_ok delay_step] in *.
    - destruct Ha as [Hi Hd]. destruct first.
      + destruct (reader_safe s delays frame Hs Hd) as (s1 & out & al & E1 & S1 & G1). rewrite E1. cbn [bind fst snd]. destruct (writer_safe s1 input frame S1 Hi) as (s2 & E2 & S2). rewrite E2. cbn [bind]. do 2 eexists. split; [reflexivity|]. split; [exact S2|apply Forall_cons; [exact G1|apply Forall_nil]].
      + destruct (writer_safe s input frame Hs Hi) as (s1 & E1 & S1). rewrite E1. cbn [bind]. destruct (reader_safe s1 delays frame S1 Hd) as (s2 & out & al & E2 & S2 & G2). rewrite E2. cbn [bind fst snd]. do 2 eexists. split; [reflexivity|]. split; [exact S2|apply Forall_cons; [exact G2|apply Forall_nil]].
    - destruct (reader_safe s delays frame Hs Ha) as (s2 & out & al & E2 & S2 & G2). rewrite E2. cbn [bind fst snd]. do 2 eexists. split; [reflexivity|]. split; [exact S2|apply Forall_cons; [exact G2|apply Forall_nil]].
    - destruct (writer_safe s input frame Hs Ha) as (s1 & E1 & S1). rewrite E1. cbn [bind]. do 2 eexists. split; [reflexivity|]. split; [exact S1|apply Forall_nil].
    - do 2 eexists. split; [reflexivity|]. split; [|apply Forall_nil]. destruct Hs. split; cbn [drop_writer d_capacity d_windex d_rindex d_ring]; assumption. }
  destruct St as (s1 & o1 & E1 & S1 & G1). rewrite E1. cbn [bind fst snd]. match goal with |- context [delay_run A sr remix s1 ?f l] => destruct (IH s1 f S1 Hl) as (s2 & o2 & E2 & S2 & G2) end. rewrite E2. cbn [bind fst snd]. do 2 eexists. split; [reflexivity|]. split; [exact S2|apply Forall_app; split; assumption].
Qed.
End Max.
End Ieee.
