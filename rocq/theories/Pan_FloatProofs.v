(** Equal power panning in floating point: how far the samples are from the law. *)
From Coq Require Import List Arith Bool ZArith Reals Lra Lia Machin.
From Flocq Require Import Core Sterbenz BinarySingleNaN.
From Verif Require Import Common_Model Float_Model Float_Proofs Float_BoundProofs Float_ErrorProofs Arith_Model Arith_Real Quantum_Model Route_Spec Pan_Model Pan_Spec Pan_Proofs Pan_NodeProofs Pan_IeeeProofs.
Import ListNotations.
Local Open Scope R_scope.

(** ** pi *)
Lemma pi_bounds : 31415925 / 10000000 <= PI <= 31415928 / 10000000.
Proof.
  pose proof (PI_2_3_7_ineq 3) as [L U].
  cbn [Nat.mul Nat.add sum_f_R0] in L, U. unfold tg_alt, PI_2_3_7_tg, Ratan_seq in L, U. cbn [Nat.add Nat.mul pow] in L, U. repeat rewrite INR_IZR_INZ in L. repeat rewrite INR_IZR_INZ in U. cbn [Z.of_nat Pos.of_succ_nat Pos.succ] in L, U.
  lra.
Qed.

Notation close32 := (close 24 128).
Notation fin x := (is_finite x = true).
Ltac powers := change (bpow radix2 1) with 2 in *; change (bpow radix2 0) with 1 in *; change (bpow radix2 2) with 4 in *; change (bpow radix2 7) with 128 in *; change (bpow radix2 8) with 256 in *;
  change (bpow radix2 (2 - 24)) with (/ 4194304) in *; change (bpow radix2 (1 - 24)) with (/ 8388608) in *; change (bpow radix2 (0 - 24)) with (/ 16777216) in *;
  change (bpow radix2 (8 - 24)) with (/ 65536) in *; change (bpow radix2 (7 - 24)) with (/ 131072) in *.
Lemma exp_small e : (-125 <= e < 128)%Z -> exp_ok 128 e. Proof. unfold exp_ok. lia. Qed.
Lemma sin_near a b : Rabs (sin b - sin a) <= Rabs (b - a).
Proof.
  destruct (MVT_abs sin cos a b) as (c & E & _); [intros c _; apply derivable_pt_lim_sin|].
  rewrite E. pose proof (COS_bound c). assert (Rabs (cos c) <= 1) by (apply Rabs_le; lra). pose proof (Rabs_pos (b - a)). pose proof (Rabs_pos (cos c)). nra.
Qed.
Lemma cos_near a b : Rabs (cos b - cos a) <= Rabs (b - a).
Proof. rewrite !cos_sin. eapply Rle_trans; [apply sin_near|]. right. f_equal. ring. Qed.
Lemma value32 (x : f32) s m e : B2SF x = SpecFloat.S754_finite s m e -> B2R x = IZR (cond_Zopp s (Zpos m)) * bpow radix2 e.
Proof. intros H. rewrite <- SF2R_B2SF, H. reflexivity. Qed.
Lemma pi32 : fin f32_PI /\ B2R f32_PI = 13176795 / 4194304.
Proof. split; [vm_compute; reflexivity|]. rewrite (value32 f32_PI false 13176795 (-22)) by (vm_compute; reflexivity). change (bpow radix2 (-22)) with (/ 4194304). cbn [cond_Zopp]. lra. Qed.
Lemma half32 : fin (f32_frac 1 2) /\ B2R (f32_frac 1 2) = / 2.
Proof. split; [vm_compute; reflexivity|]. rewrite (value32 (f32_frac 1 2) false 8388608 (-24)) by (vm_compute; reflexivity). change (bpow radix2 (-24)) with (/ 16777216). cbn [cond_Zopp]. lra. Qed.

Section Float.
Variable M : libm.
Notation A := (ieee M).
Variable eps : R.
(** sine and cosine of the library between 0 and 2 *)
Hypothesis sin_close : forall x : f32, fin x -> 0 <= B2R x <= 2 -> fin (m32_sin M x) /\ Rabs (B2R (m32_sin M x) - sin (B2R x)) <= eps.
Hypothesis eps_small : 0 <= eps <= / 1024.

Lemma quarter_err (x : f32) : fin x -> 0 <= B2R x <= 1 -> fin (quarter_turn A x) /\ 0 <= B2R (quarter_turn A x) <= 2 /\ Rabs (B2R (quarter_turn A x) - B2R x * (PI / 2)) <= / 2097152.
Proof.
  intros F H. unfold quarter_turn. cbn [ieee v_div v_mul v_of_Z v_PI]. destruct pi32 as [Fp Ep]. destruct (int32 2 ltac:(lia)) as [E2 F2].
  assert (Bm : Rabs (B2R x * B2R f32_PI) <= 4) by (rewrite Ep; apply Rabs_le; nra).
  destruct (mult_err 24 128 f32_prec f32_emax x f32_PI 2 F Fp (exp_small 2 ltac:(lia)) Bm) as (Fm & _ & Em & _).
  destruct (mult_between 24 128 f32_prec f32_emax x f32_PI 0 4 F Fp ltac:(lia) ltac:(lia)) as (_ & _ & Rm); [rewrite Ep; nra|].
  fold (f32_mul x f32_PI) in *. set (m := f32_mul x f32_PI) in *.
  assert (Bd : Rabs (B2R m / B2R (f32_of_Z 2)) <= 2) by (rewrite E2; apply Rabs_le; lra).
  destruct (div_err 24 128 f32_prec f32_emax m (f32_of_Z 2) 1 Fm ltac:(rewrite E2; lra) (exp_small 1 ltac:(lia)) Bd) as (Fd & _ & Ed & _).
  destruct (div_between 24 128 f32_prec f32_emax m (f32_of_Z 2) 0 2 Fm ltac:(rewrite E2; lra) ltac:(lia) ltac:(lia)) as (_ & _ & Rd); [rewrite E2; lra|].
  fold (f32_div m (f32_of_Z 2)) in *. split; [exact Fd|]. split; [lra|]. powers. rewrite E2 in Ed. rewrite Ep in Em.
  apply Rabs_le_inv in Ed, Em. apply Rabs_le. pose proof pi_bounds. nra.
Qed.
Lemma sine_err (x : f32) a d : fin x -> 0 <= B2R x <= 1 -> Rabs (B2R x - a) <= d ->
  fin (m32_sin M (quarter_turn A x)) /\ Rabs (B2R (m32_sin M (quarter_turn A x)) - sin (a * (PI / 2))) <= eps + / 2097152 + 2 * d.
Proof.
  intros F H Ha. destruct (quarter_err x F H) as (Fq & Rq & Eq). destruct (sin_close _ Fq Rq) as [Fs Es]. split; [exact Fs|].
  set (q := B2R (quarter_turn A x)) in *. pose proof (sin_near (a * (PI / 2)) q) as N. pose proof pi_bounds as P.
  assert (D : Rabs (q - a * (PI / 2)) <= / 2097152 + 2 * d).
  { replace (q - a * (PI / 2)) with ((q - B2R x * (PI / 2)) + (B2R x - a) * (PI / 2)) by ring. eapply Rle_trans; [apply Rabs_triang|]. apply Rplus_le_compat; [exact Eq|].
    rewrite Rabs_mult, (Rabs_pos_eq (PI / 2)) by lra. pose proof (Rabs_pos (B2R x - a)). nra. }
  set (g := B2R (m32_sin M (quarter_turn A x))) in *. replace (g - sin (a * (PI / 2))) with ((g - sin q) + (sin q - sin (a * (PI / 2)))) by ring.
  eapply Rle_trans; [apply Rabs_triang|]. lra.
Qed.
Lemma gains_err (x : f32) a d : fin x -> 0 <= B2R x <= 1 -> Rabs (B2R x - a) <= d -> let g := get_stereo_gains A x in
  (fin (fst g) /\ Rabs (B2R (fst g) - cos (a * (PI / 2))) <= eps + / 2097152 + / 8388608 + 2 * d) /\ fin (snd g) /\ Rabs (B2R (snd g) - sin (a * (PI / 2))) <= eps + / 2097152 + 2 * d.
Proof.
  intros F H Ha g. unfold g, get_stereo_gains. cbn [fst snd ieee v_sin]. split; [|apply sine_err; assumption].
  cbn [v_sub v_of_Z]. destruct one32v as [E1 F1].
  destruct (minus_err 24 128 f32_prec f32_emax (f32_of_Z 1) x 0 F1 F (exp_small 0 ltac:(lia))) as (Fm & _ & Em & _); [rewrite E1; apply Rabs_le; powers; lra|].
  destruct (minus_between 24 128 f32_prec f32_emax (f32_of_Z 1) x 0 1 F1 F ltac:(lia) ltac:(lia)) as (_ & _ & Rm); [rewrite E1; lra|].
  fold (f32_sub (f32_of_Z 1) x) in *. set (m := f32_sub (f32_of_Z 1) x) in *. powers. rewrite E1 in Em.
  destruct (sine_err m (1 - a) (d + / 16777216) Fm ltac:(lra)) as [Fs Es].
  { apply Rabs_le_inv in Em, Ha. apply Rabs_le. lra. }
  split; [exact Fs|]. replace (cos (a * (PI / 2))) with (sin ((1 - a) * (PI / 2))) by (rewrite <- sin_co; f_equal; ring). eapply Rle_trans; [exact Es|lra].
Qed.

(** a sample times a gain *)
Variable k : Z.
Hypothesis k_range : (-125 <= k <= 125)%Z.
Notation amp := (bpow radix2 k).
Definition limited (x : f32) : Prop := fin x /\ Rabs (B2R x) <= amp.
(** [z] is [r] but for the share [e] of the amplitude *)
Definition nearly (e : R) (z : f32) (r : R) : Prop := fin z /\ Rabs (B2R z - r) <= amp * e.
Lemma amp_pos : 0 < amp. Proof. apply bpow_gt_0. Qed.
Lemma amp_up e : bpow radix2 (k + e) = amp * bpow radix2 e. Proof. apply bpow_plus. Qed.
Lemma gain_two (g : f32) r d : Rabs (B2R g - r) <= d -> -1 <= r <= 1 -> d <= 1 -> Rabs (B2R g) <= 2.
Proof. intros H R D. apply Rabs_le_inv in H. apply Rabs_le. lra. Qed.
Lemma mul_err (x g : f32) r d : limited x -> fin g -> Rabs (B2R g - r) <= d -> -1 <= r <= 1 -> d <= 1 -> nearly (d + / 8388608) (f32_mul x g) (B2R x * r).
Proof.
  intros [Fx Bx] Fg Hg R D. pose proof (gain_two g r d Hg R D) as B. pose proof amp_pos as P.
  assert (Bm : Rabs (B2R x * B2R g) <= bpow radix2 (k + 1)).
  { rewrite amp_up, Rabs_mult. powers. pose proof (Rabs_pos (B2R x)). pose proof (Rabs_pos (B2R g)). nra. }
  destruct (mult_err 24 128 f32_prec f32_emax x g (k + 1) Fx Fg (exp_small (k + 1) ltac:(lia)) Bm) as (Fm & _ & Em & _). split; [exact Fm|].
  replace (k + 1 - 24)%Z with (k + (1 - 24))%Z in Em by lia. rewrite amp_up in Em. powers. fold (f32_mul x g) in *.
  replace (B2R (f32_mul x g) - B2R x * r) with ((B2R (f32_mul x g) - B2R x * B2R g) + B2R x * (B2R g - r)) by ring. eapply Rle_trans; [apply Rabs_triang|].
  rewrite Rabs_mult. pose proof (Rabs_pos (B2R x)). pose proof (Rabs_pos (B2R g - r)). nra.
Qed.
Lemma fma_near (x g y : f32) r d : limited x -> limited y -> fin g -> Rabs (B2R g - r) <= d -> -1 <= r <= 1 -> d <= 1 -> nearly (d + / 4194304) (f32_fma x g y) (B2R y + B2R x * r).
Proof.
  intros [Fx Bx] [Fy By] Fg Hg R D. pose proof (gain_two g r d Hg R D) as B. pose proof amp_pos as P.
  assert (Bm : Rabs (B2R x * B2R g + B2R y) <= bpow radix2 (k + 2)).
  { rewrite amp_up. eapply Rle_trans; [apply Rabs_triang|]. rewrite Rabs_mult. powers. pose proof (Rabs_pos (B2R x)). pose proof (Rabs_pos (B2R g)). nra. }
  destruct (fma_err 24 128 f32_prec f32_emax x g y (k + 2) Fx Fg Fy (exp_small (k + 2) ltac:(lia)) Bm) as (Fm & _ & Em & _). split; [exact Fm|].
  replace (k + 2 - 24)%Z with (k + (2 - 24))%Z in Em by lia. rewrite amp_up in Em. powers. fold (f32_fma x g y) in *.
  replace (B2R (f32_fma x g y) - (B2R y + B2R x * r)) with ((B2R (f32_fma x g y) - (B2R x * B2R g + B2R y)) + B2R x * (B2R g - r)) by ring. eapply Rle_trans; [apply Rabs_triang|].
  rewrite Rabs_mult. pose proof (Rabs_pos (B2R x)). pose proof (Rabs_pos (B2R g - r)). nra.
Qed.
Lemma nearly_up e e' z r : nearly e z r -> e <= e' -> nearly e' z r.
Proof. intros [F H] L. split; [exact F|]. pose proof amp_pos. nra. Qed.

(** ** The stereo panner *)
Lemma mono_near (pan x y : f32) : fin pan -> -1 <= B2R pan <= 1 -> limited x -> let o := stereo_pan_mono A pan x y in let e := panned (B2R pan) [B2R x] in
  nearly (eps + / 524288) (fst o) (fst e) /\ nearly (eps + / 524288) (snd o) (snd e).
Proof.
  intros Fp Rp Lx o e. unfold o, e, stereo_pan_mono, panned. cbn [fst snd]. set (x0 := v_mul A (v_add A pan (v_of_Z A 1)) (v_frac A 1 2)).
  destruct one32v as [E1 F1]. destruct half32 as [Fh Eh].
  assert (X : fin x0 /\ 0 <= B2R x0 <= 1 /\ Rabs (B2R x0 - (B2R pan + 1) / 2) <= / 8388608).
  { unfold x0. cbn [ieee v_mul v_add v_of_Z v_frac].
    destruct (plus_err 24 128 f32_prec f32_emax pan (f32_of_Z 1) 1 Fp F1 (exp_small 1 ltac:(lia))) as (Fa & _ & Ea & _); [rewrite E1; apply Rabs_le; powers; lra|].
    destruct (plus_between 24 128 f32_prec f32_emax pan (f32_of_Z 1) 0 2 Fp F1 ltac:(lia) ltac:(lia)) as (_ & _ & Ra); [rewrite E1; lra|].
    fold (f32_add pan (f32_of_Z 1)) in *. set (a := f32_add pan (f32_of_Z 1)) in *.
    destruct (mult_err 24 128 f32_prec f32_emax a (f32_frac 1 2) 0 Fa Fh (exp_small 0 ltac:(lia))) as (Fm & _ & Em & _); [rewrite Eh; apply Rabs_le; powers; lra|].
    destruct (mult_between 24 128 f32_prec f32_emax a (f32_frac 1 2) 0 1 Fa Fh ltac:(lia) ltac:(lia)) as (_ & _ & Rm); [rewrite Eh; lra|].
    fold (f32_mul a (f32_frac 1 2)) in *. split; [exact Fm|]. split; [lra|]. powers. rewrite Eh in Em. rewrite E1 in Ea. apply Rabs_le_inv in Ea, Em. apply Rabs_le. lra. }
  destruct X as (Fx & Rx & Ex). destruct (gains_err x0 _ _ Fx Rx Ex) as ((Fl & El) & Fr & Er). unfold get_stereo_gains in *. cbn [fst snd] in *.
  set (a := (B2R pan + 1) / 2 * (PI / 2)) in *. pose proof (COS_bound a). pose proof (SIN_bound a).
  split; (eapply nearly_up; [first [exact (mul_err x _ _ _ Lx Fl El ltac:(lra) ltac:(lra))|exact (mul_err x _ _ _ Lx Fr Er ltac:(lra) ltac:(lra))]|lra]).
Qed.
Lemma stereo_near (pan l r : f32) : fin pan -> -1 <= B2R pan <= 1 -> limited l -> limited r -> let o := stereo_pan_stereo A pan l r in let e := panned (B2R pan) [B2R l; B2R r] in
  nearly (eps + / 524288) (fst o) (fst e) /\ nearly (eps + / 524288) (snd o) (snd e).
Proof.
  intros Fp Rp Ll Lr o e. unfold o, e, stereo_pan_stereo, panned. destruct one32v as [E1 F1]. destruct zero32v as [E0 F0].
  destruct (lt_int 0 pan ltac:(lia) Fp) as (_ & _ & _ & C). cbn [ieee v_le v_of_Z].
  destruct (f32_le pan (f32_of_Z 0)) eqn:Le; destruct (Rle_dec (B2R pan) 0) as [Q|Q].
  - assert (X : fin (v_add A pan (v_of_Z A 1)) /\ 0 <= B2R (v_add A pan (v_of_Z A 1)) <= 1 /\ Rabs (B2R (v_add A pan (v_of_Z A 1)) - (B2R pan + 1)) <= / 16777216).
    { cbn [ieee v_add v_of_Z].
      destruct (plus_err 24 128 f32_prec f32_emax pan (f32_of_Z 1) 0 Fp F1 (exp_small 0 ltac:(lia))) as (Fa & _ & Ea & _); [rewrite E1; apply Rabs_le; powers; lra|].
      destruct (plus_between 24 128 f32_prec f32_emax pan (f32_of_Z 1) 0 1 Fp F1 ltac:(lia) ltac:(lia)) as (_ & _ & Ra); [rewrite E1; lra|].
      fold (f32_add pan (f32_of_Z 1)) in *. split; [exact Fa|]. split; [lra|]. powers. rewrite E1 in Ea. exact Ea. }
    destruct X as (Fx & Rx & Ex). destruct (gains_err _ _ _ Fx Rx Ex) as ((Fl & El) & Fr & Er). unfold get_stereo_gains in *. cbn [fst snd ieee v_add v_of_Z] in *.
    set (a := (B2R pan + 1) * (PI / 2)) in *. pose proof (COS_bound a). pose proof (SIN_bound a).
    split; (eapply nearly_up; [first [exact (mul_err r _ _ _ Lr Fr Er ltac:(lra) ltac:(lra))|exact (fma_near r _ l _ _ Lr Ll Fl El ltac:(lra) ltac:(lra))]|lra]).
  - exfalso. apply Q. apply C. reflexivity.
  - exfalso. apply C in Q. congruence.
  - destruct (gains_err pan (B2R pan) 0 Fp ltac:(lra)) as ((Fl & El) & Fr & Er); [rewrite Rminus_eq_0, Rabs_R0; lra|]. unfold get_stereo_gains in *. cbn [fst snd ieee v_add v_of_Z] in *.
    set (a := B2R pan * (PI / 2)) in *. pose proof (COS_bound a). pose proof (SIN_bound a).
    split; (eapply nearly_up; [first [exact (mul_err l _ _ _ Ll Fl El ltac:(lra) ltac:(lra))|exact (fma_near l _ r _ _ Ll Lr Fr Er ltac:(lra) ltac:(lra))]|lra]).
Qed.

(** ** The panner *)
Hypothesis cos_close : forall x : f32, fin x -> 0 <= B2R x <= 2 -> fin (m32_cos M x) /\ Rabs (B2R (m32_cos M x) - cos (B2R x)) <= eps.
Lemma cosine_err (x : f32) a d : fin x -> 0 <= B2R x <= 1 -> Rabs (B2R x - a) <= d ->
  fin (m32_cos M (quarter_turn A x)) /\ Rabs (B2R (m32_cos M (quarter_turn A x)) - cos (a * (PI / 2))) <= eps + / 2097152 + 2 * d.
Proof.
  intros F H Ha. destruct (quarter_err x F H) as (Fq & Rq & Eq). destruct (cos_close _ Fq Rq) as [Fs Es]. split; [exact Fs|].
  set (q := B2R (quarter_turn A x)) in *. pose proof (cos_near (a * (PI / 2)) q) as N. pose proof pi_bounds as P.
  assert (D : Rabs (q - a * (PI / 2)) <= / 2097152 + 2 * d).
  { replace (q - a * (PI / 2)) with ((q - B2R x * (PI / 2)) + (B2R x - a) * (PI / 2)) by ring. eapply Rle_trans; [apply Rabs_triang|]. apply Rplus_le_compat; [exact Eq|].
    rewrite Rabs_mult, (Rabs_pos_eq (PI / 2)) by lra. pose proof (Rabs_pos (B2R x - a)). nra. }
  set (g := B2R (m32_cos M (quarter_turn A x))) in *. replace (g - cos (a * (PI / 2))) with ((g - cos q) + (cos q - cos (a * (PI / 2)))) by ring.
  eapply Rle_trans; [apply Rabs_triang|]. lra.
Qed.
(** distance gain, cone gain and azimuth are numbers in their ranges *)
Definition located (q : spatial (V := f32)) : Prop :=
  (fin (sp_azimuth q) /\ -180 <= B2R (sp_azimuth q) <= 180) /\ (fin (sp_dist q) /\ 0 <= B2R (sp_dist q) <= 1) /\ (fin (sp_cone q) /\ 0 <= B2R (sp_cone q) <= 1).
Lemma format_minus (u v : R) : generic_format radix2 (SpecFloat.fexp 24 128) u -> generic_format radix2 (SpecFloat.fexp 24 128) v -> v / 2 <= u <= 2 * v -> generic_format radix2 (SpecFloat.fexp 24 128) (u - v).
Proof. intros U V S. apply sterbenz; [apply (fexp_valid 24 128 f32_prec)|apply (FLT_exp_monotone (3 - 128 - 24) 24)|exact U|exact V|exact S]. Qed.
Lemma minus_exact (x y : f32) : fin x -> fin y -> -90 <= B2R x - B2R y <= 90 -> generic_format radix2 (SpecFloat.fexp 24 128) (B2R x - B2R y) -> fin (f32_sub x y) /\ B2R (f32_sub x y) = B2R x - B2R y.
Proof.
  intros Fx Fy H G. destruct (minus_between 24 128 f32_prec f32_emax x y (-90) 90 Fx Fy ltac:(lia) ltac:(lia) H) as (F & E & _). split; [exact F|]. fold (f32_sub x y) in E. rewrite E.
  apply round_generic; [apply valid_rnd_N|exact G].
Qed.
Lemma lt_is (x y : f32) (P : Prop) (D : {P} + {~ P}) : (f32_lt x y = true <-> P) -> f32_lt x y = if D then true else false.
Proof. intros H. destruct D as [p|p]; [apply H; exact p|]. destruct (f32_lt x y); [exfalso; apply p; apply H; reflexivity|reflexivity]. Qed.
Lemma fold_exact (az : f32) : fin az -> -180 <= B2R az <= 180 -> fin (fold_azimuth A az) /\ B2R (fold_azimuth A az) = 90 * pan_of (B2R az) /\ -1 <= pan_of (B2R az) <= 1.
Proof.
  intros F H. assert (P : -1 <= pan_of (B2R az) <= 1) by (apply fold_pan; exact H). unfold fold_azimuth, pan_of in *. cbn [ieee v_lt v_of_Z v_sub].
  destruct (lt_int (-180) az ltac:(lia) F) as (_ & C1 & _). destruct (lt_int 180 az ltac:(lia) F) as (C2 & _). destruct (lt_int (-90) az ltac:(lia) F) as (_ & C3 & _). destruct (lt_int 90 az ltac:(lia) F) as (C4 & _).
  rewrite (lt_is _ _ _ (Rlt_dec (B2R az) (-180)) C1), (lt_is _ _ _ (Rlt_dec 180 (B2R az)) C2). destruct (Rlt_dec (B2R az) (-180)); [lra|]. destruct (Rlt_dec 180 (B2R az)); [lra|].
  rewrite (lt_is _ _ _ (Rlt_dec (B2R az) (-90)) C3), (lt_is _ _ _ (Rlt_dec 90 (B2R az)) C4).
  destruct (int32 180 ltac:(lia)) as [E180 F180]. destruct (int32 (-180) ltac:(lia)) as [Em180 Fm180].
  destruct (Rlt_dec (B2R az) (-90)); [|destruct (Rlt_dec 90 (B2R az))].
  - destruct (minus_exact (f32_of_Z (-180)) az Fm180 F) as [Fs Es]; [rewrite Em180; lra| |split; [exact Fs|split; [rewrite Es, Em180; field|exact P]]].
    rewrite Em180. replace (-180 - B2R az) with (- B2R az - 180) by ring. apply format_minus; [apply generic_format_opp; apply generic_format_B2R|rewrite <- E180; apply generic_format_B2R|lra].
  - destruct (minus_exact (f32_of_Z 180) az F180 F) as [Fs Es]; [rewrite E180; lra| |split; [exact Fs|split; [rewrite Es, E180; field|exact P]]].
    apply format_minus; [apply generic_format_B2R|apply generic_format_B2R|rewrite E180; lra].
  - split; [exact F|]. split; [field|exact P].
Qed.

Lemma unit_err (z u : f32) r e j : fin z -> fin u -> 0 <= B2R u <= 1 -> (-125 <= j < 128)%Z -> Rabs (B2R z) <= bpow radix2 j -> Rabs (B2R z - r) <= e ->
  fin (f32_mul z u) /\ Rabs (B2R (f32_mul z u) - r * B2R u) <= e + bpow radix2 (j - 24) /\ Rabs (B2R (f32_mul z u)) <= bpow radix2 j.
Proof.
  intros Fz Fu Ru J Bz Ez. assert (Bm : Rabs (B2R z * B2R u) <= bpow radix2 j) by (rewrite Rabs_mult, (Rabs_pos_eq (B2R u)) by lra; pose proof (Rabs_pos (B2R z)); nra).
  destruct (mult_err 24 128 f32_prec f32_emax z u j Fz Fu (exp_small j J) Bm) as (F & _ & E & B). fold (f32_mul z u) in *. split; [exact F|]. split; [|exact B].
  replace (B2R (f32_mul z u) - r * B2R u) with ((B2R (f32_mul z u) - B2R z * B2R u) + (B2R z - r) * B2R u) by ring. eapply Rle_trans; [apply Rabs_triang|].
  rewrite Rabs_mult, (Rabs_pos_eq (B2R u)) by lra. pose proof (Rabs_pos (B2R z - r)). nra.
Qed.
Lemma ratio_err (az : f32) n e : fin az -> (n = 90 /\ e = 7 \/ n = 180 /\ e = 8)%Z -> 0 <= B2R az + 90 <= IZR n ->
  let x := f32_div (f32_add az (f32_of_Z 90)) (f32_of_Z n) in fin x /\ 0 <= B2R x <= 1 /\ Rabs (B2R x - (B2R az + 90) / IZR n) <= / 4194304.
Proof.
  intros F Hn H x. assert (Hne : (n < 2 ^ e)%Z) by (destruct Hn as [[-> ->]|[-> ->]]; reflexivity). destruct (int32 90 ltac:(lia)) as [E90 F90]. destruct (int32 n ltac:(lia)) as [En Fn]. assert (Rn : 90 <= IZR n <= 180) by (split; apply IZR_le; lia).
  assert (Pe : IZR n <= bpow radix2 e) by (rewrite <- (IZR_Zpower radix2 e) by lia; apply IZR_le; change (Z.pow 2 e) with (2 ^ e)%Z in *; change (radix_val radix2) with 2%Z; lia).
  destruct (plus_err 24 128 f32_prec f32_emax az (f32_of_Z 90) e F F90 (exp_small e ltac:(lia))) as (Fa & _ & Ea & _); [rewrite E90; apply Rabs_le; lra|].
  destruct (plus_between 24 128 f32_prec f32_emax az (f32_of_Z 90) 0 n F F90 ltac:(lia) ltac:(lia)) as (_ & _ & Ra); [rewrite E90; lra|].
  fold (f32_add az (f32_of_Z 90)) in *. set (a := f32_add az (f32_of_Z 90)) in *.
  assert (In : 0 < / IZR n) by (apply Rinv_0_lt_compat; lra). assert (Nn : IZR n * / IZR n = 1) by (apply Rinv_r; lra).
  assert (R1 : 0 <= B2R a / B2R (f32_of_Z n) <= 1) by (rewrite En; unfold Rdiv; nra).
  destruct (div_err 24 128 f32_prec f32_emax a (f32_of_Z n) 0 Fa ltac:(rewrite En; lra) (exp_small 0 ltac:(lia))) as (Fd & _ & Ed & _); [apply Rabs_le; powers; lra|].
  destruct (div_between 24 128 f32_prec f32_emax a (f32_of_Z n) 0 1 Fa ltac:(rewrite En; lra) ltac:(lia) ltac:(lia) R1) as (_ & _ & Rd).
  fold (f32_div a (f32_of_Z n)) in *. fold x in Fd, Ed, Rd. split; [exact Fd|]. split; [lra|]. rewrite E90 in Ea. rewrite En in Ed. powers. 
  assert (Ea' : Rabs (B2R a - (B2R az + 90)) * / IZR n <= / 8388608).
  { destruct Hn as [[-> ->]|[-> ->]]; powers; lra. }
  replace (B2R x - (B2R az + 90) / IZR n) with ((B2R x - B2R a / IZR n) + (B2R a - (B2R az + 90)) * / IZR n) by (unfold Rdiv; ring).
  eapply Rle_trans; [apply Rabs_triang|]. rewrite Rabs_mult, (Rabs_pos_eq (/ IZR n)) by lra. lra.
Qed.

Lemma apply_mono_near q (x : f32) : located q -> limited x -> let o := apply_mono A q x x in let e := scaled (B2R (sp_dist q) * B2R (sp_cone q)) (panned (pan_of (B2R (sp_azimuth q))) [B2R x]) in
  nearly (eps + / 524288) (fst o) (fst e) /\ nearly (eps + / 524288) (snd o) (snd e).
Proof.
  intros ((Fz & Rz) & (Fd & Rd) & (Fc & Rc)) Lx o e. destruct (fold_exact _ Fz Rz) as (Ff & Ef & Rp). unfold o, e, apply_mono, panned, scaled. cbn [fst snd].
  set (az := fold_azimuth A (sp_azimuth q)) in *. set (p := pan_of (B2R (sp_azimuth q))) in *.
  destruct (ratio_err az 180 8 Ff ltac:(right; split; reflexivity)) as (Fx & Rx & Ex); [rewrite Ef; lra|]. rewrite Ef in Ex. replace ((90 * p + 90) / 180) with ((p + 1) / 2) in Ex by field.
  cbn [ieee v_div v_add v_of_Z v_cos v_sin v_mul]. set (x0 := f32_div (f32_add az (f32_of_Z 90)) (f32_of_Z 180)) in *.
  destruct (cosine_err x0 _ _ Fx Rx Ex) as (Fl & El). destruct (sine_err x0 _ _ Fx Rx Ex) as (Fr & Er).
  set (a := (p + 1) / 2 * (PI / 2)) in *. pose proof (COS_bound a). pose proof (SIN_bound a).
  set (gl := m32_cos M (quarter_turn A x0)) in *. set (gr := m32_sin M (quarter_turn A x0)) in *.
  assert (G : forall (g : f32) r, fin g -> Rabs (B2R g - r) <= eps + / 2097152 + 2 * / 4194304 -> -1 <= r <= 1 -> nearly (eps + / 524288) (f32_mul x (f32_mul (f32_mul g (sp_dist q)) (sp_cone q))) (B2R (sp_dist q) * B2R (sp_cone q) * (B2R x * r))).
  { intros g r Fg Eg Rr. destruct (unit_err g (sp_dist q) r _ 1 Fg Fd Rd ltac:(lia) (gain_two g r _ Eg Rr ltac:(lra)) Eg) as (F1 & E1 & B1).
    destruct (unit_err _ (sp_cone q) _ _ 1 F1 Fc Rc ltac:(lia) B1 E1) as (F2 & E2 & _). powers.
    assert (Rr' : -1 <= r * B2R (sp_dist q) * B2R (sp_cone q) <= 1).
    { apply Rabs_le_inv. rewrite !Rabs_mult, (Rabs_pos_eq (B2R (sp_dist q))), (Rabs_pos_eq (B2R (sp_cone q))) by lra. assert (Rabs r <= 1) by (apply Rabs_le; exact Rr). pose proof (Rabs_pos r). assert (0 <= Rabs r * B2R (sp_dist q) <= 1) by nra. nra. }
    pose proof (mul_err x _ _ _ Lx F2 E2 Rr' ltac:(lra)) as N. apply nearly_up with (e' := eps + / 524288) in N; [|lra].
    replace (B2R (sp_dist q) * B2R (sp_cone q) * (B2R x * r)) with (B2R x * (r * B2R (sp_dist q) * B2R (sp_cone q))) by ring. exact N. }
  split; apply G; assumption || lra.
Qed.
Lemma apply_stereo_near q (l r : f32) : located q -> limited l -> limited r -> let o := apply_stereo A q l r in let e := scaled (B2R (sp_dist q) * B2R (sp_cone q)) (panned (pan_of (B2R (sp_azimuth q))) [B2R l; B2R r]) in
  nearly (eps + / 524288) (fst o) (fst e) /\ nearly (eps + / 524288) (snd o) (snd e).
Proof.
  intros ((Fz & Rz) & (Fd & Rd) & (Fc & Rc)) Ll Lr o e. destruct (fold_exact _ Fz Rz) as (Ff & Ef & Rp). unfold o, e, apply_stereo, panned, scaled.
  set (az := fold_azimuth A (sp_azimuth q)) in *. set (p := pan_of (B2R (sp_azimuth q))) in *. pose proof amp_pos as Pa.
  set (d := sp_dist q) in *. set (c := sp_cone q) in *.
  assert (Scale : forall (z : f32) v b, fin z -> Rabs (B2R z) <= bpow radix2 (k + 2) -> Rabs (B2R z - v) <= amp * b -> nearly (b + / 2097152) (f32_mul (f32_mul z d) c) (B2R d * B2R c * v)).
  { intros z v b F B E. destruct (unit_err z d v _ (k + 2) F Fd Rd ltac:(lia) B E) as (F1 & E1 & B1). destruct (unit_err _ c _ _ (k + 2) F1 Fc Rc ltac:(lia) B1 E1) as (F2 & E2 & _).
    split; [exact F2|]. replace (k + 2 - 24)%Z with (k + (2 - 24))%Z in E2 by lia. rewrite amp_up in E2. powers. replace (B2R d * B2R c * v) with (v * B2R d * B2R c) by ring. lra. }
  assert (One : forall (x g : f32) v, limited x -> fin g -> Rabs (B2R g - v) <= eps + / 2097152 + 2 * / 4194304 -> -1 <= v <= 1 ->
    nearly (eps + / 524288) (f32_mul (f32_mul (f32_mul x g) d) c) (B2R d * B2R c * (B2R x * v))).
  { intros x g v Lx Fg Eg Rv. destruct (mul_err x g v _ Lx Fg Eg Rv ltac:(lra)) as [F E]. eapply nearly_up; [apply Scale; [exact F| |exact E]|lra].
    destruct Lx as [Fx Bx]. pose proof (gain_two g v _ Eg Rv ltac:(lra)) as B. rewrite amp_up. powers. 
    assert (Rabs (B2R x * v) <= amp) by (rewrite Rabs_mult; assert (Rabs v <= 1) by (apply Rabs_le; exact Rv); pose proof (Rabs_pos (B2R x)); pose proof (Rabs_pos v); nra).
    replace (B2R (f32_mul x g)) with ((B2R (f32_mul x g) - B2R x * v) + B2R x * v) by ring. eapply Rle_trans; [apply Rabs_triang|]. nra. }
  assert (Two : forall (x y g : f32) v, limited x -> limited y -> fin g -> Rabs (B2R g - v) <= eps + / 2097152 + 2 * / 4194304 -> -1 <= v <= 1 ->
    nearly (eps + / 524288) (f32_mul (f32_mul (f32_add y (f32_mul x g)) d) c) (B2R d * B2R c * (B2R y + B2R x * v))).
  { intros x y g v Lx [Fy By] Fg Eg Rv. destruct (mul_err x g v _ Lx Fg Eg Rv ltac:(lra)) as [F E]. destruct Lx as [Fx Bx].
    assert (Bv : Rabs (B2R x * v) <= amp) by (rewrite Rabs_mult; assert (Rabs v <= 1) by (apply Rabs_le; exact Rv); pose proof (Rabs_pos (B2R x)); pose proof (Rabs_pos v); nra).
    set (m := f32_mul x g) in *.
    assert (Bm : Rabs (B2R m) <= amp * 2). { replace (B2R m) with ((B2R m - B2R x * v) + B2R x * v) by ring. eapply Rle_trans; [apply Rabs_triang|]. nra. }
    assert (Bs : Rabs (B2R y + B2R m) <= bpow radix2 (k + 2)). { rewrite amp_up. powers. eapply Rle_trans; [apply Rabs_triang|]. nra. }
    destruct (plus_err 24 128 f32_prec f32_emax y m (k + 2) Fy F (exp_small (k + 2) ltac:(lia)) Bs) as (Fs & _ & Es & B'). fold (f32_add y m) in *.
    replace (k + 2 - 24)%Z with (k + (2 - 24))%Z in Es by lia. rewrite amp_up in Es. powers.
    eapply nearly_up; [apply (Scale (f32_add y m) _ (eps + / 2097152 + 2 * / 4194304 + / 8388608 + / 4194304)); [exact Fs|exact B'|]|lra].
    replace (B2R (f32_add y m) - (B2R y + B2R x * v)) with ((B2R (f32_add y m) - (B2R y + B2R m)) + (B2R m - B2R x * v)) by ring. eapply Rle_trans; [apply Rabs_triang|]. lra. }
  cbn [ieee v_le v_of_Z]. destruct (lt_int 0 az ltac:(lia) Ff) as (_ & _ & _ & C). rewrite Ef in C.
  assert (Q : f32_le az (f32_of_Z 0) = if Rle_dec p 0 then true else false).
  { destruct (Rle_dec p 0); [apply C; lra|]. destruct (f32_le az (f32_of_Z 0)); [exfalso; pose proof (proj1 C eq_refl); lra|reflexivity]. }
  rewrite Q. destruct (Rle_dec p 0) as [Hp|Hp]; cbn [fst snd].
  - destruct (ratio_err az 90 7 Ff ltac:(left; split; reflexivity)) as (Fx & Rx & Ex); [rewrite Ef; lra|]. rewrite Ef in Ex. replace ((90 * p + 90) / 90) with (p + 1) in Ex by field.
    cbn [v_div v_add v_cos v_sin v_mul]. set (x0 := f32_div (f32_add az (f32_of_Z 90)) (f32_of_Z 90)) in *.
    destruct (cosine_err x0 _ _ Fx Rx Ex) as (Fl & El). destruct (sine_err x0 _ _ Fx Rx Ex) as (Fr & Er).
    set (a := (p + 1) * (PI / 2)) in *. pose proof (COS_bound a). pose proof (SIN_bound a).
    split; [apply Two|apply One]; assumption.
  - destruct (int32 90 ltac:(lia)) as [E90 F90].
    assert (R1 : 0 <= B2R az / B2R (f32_of_Z 90) <= 1) by (rewrite E90, Ef; lra).
    destruct (div_err 24 128 f32_prec f32_emax az (f32_of_Z 90) 0 Ff ltac:(rewrite E90; lra) (exp_small 0 ltac:(lia))) as (Fx & _ & Ex & _); [apply Rabs_le; powers; lra|].
    destruct (div_between 24 128 f32_prec f32_emax az (f32_of_Z 90) 0 1 Ff ltac:(rewrite E90; lra) ltac:(lia) ltac:(lia) R1) as (_ & _ & Rx).
    fold (f32_div az (f32_of_Z 90)) in *. powers. rewrite E90, Ef in Ex. replace (90 * p / 90) with p in Ex by field.
    cbn [v_div v_add v_cos v_sin v_mul]. set (x0 := f32_div az (f32_of_Z 90)) in *.
    destruct (cosine_err x0 p (/ 4194304) Fx ltac:(lra) ltac:(lra)) as (Fl & El). destruct (sine_err x0 p (/ 4194304) Fx ltac:(lra) ltac:(lra)) as (Fr & Er).
    set (a := p * (PI / 2)) in *. pose proof (COS_bound a). pose proof (SIN_bound a).
    split; [apply One|apply Two]; assumption.
Qed.
End Float.
