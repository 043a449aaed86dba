(** Buffer sizes and sample rates of a stream. *)
From Coq Require Import List Arith Bool ZArith Reals Lra Lia Floats.SpecFloat.
From Flocq Require Import Core BinarySingleNaN.
From Verif Require Import Common_Model Float_Model Float_Proofs Float_BoundProofs Float_ErrorProofs Buffer_Model Device_Model Osc_IeeeProofs Buffer_ResampleProofs.
Import ListNotations.
Local Open Scope R_scope.

Section Size.
Variables (s : f64) (rate : Z).
Hypothesis Fs : is_finite s = true.
Hypothesis Ps : 0 < B2R s.
Hypothesis Hr : (0 < rate <= 2 ^ 24)%Z.
Let x := B2R s * IZR rate.
Hypothesis Hx : x <= IZR (2 ^ 31).

Lemma rate_exact : B2R (f32_of_Z rate) = IZR rate /\ is_finite (f32_of_Z rate) = true.
Proof. apply (of_Z_exact 24 128 f32_prec f32_emax). rewrite Z.abs_eq; lia. Qed.
Let p := f64_mul s (f64_of_f32 (f32_of_Z rate)).
Lemma prod_val : is_finite p = true /\ B2R p = round radix2 (SpecFloat.fexp 53 1024) ZnearestE x /\ 0 <= B2R p <= IZR (2 ^ 31).
Proof.
  destruct rate_exact as [E F]. destruct (f64_of_f32_val _ F) as [E' F'].
  assert (0 < IZR rate) by (apply IZR_lt; lia).
  destruct (mult_between 53 1024 f64_prec f64_emax s (f64_of_f32 (f32_of_Z rate)) 0 (2 ^ 31) Fs F') as (A & B & C).
  - cbn; lia.
  - cbn; lia.
  - rewrite E', E. split; [cbn; apply Rmult_le_pos; lra | exact Hx].
  - rewrite E', E in B. split; [exact A | split; [exact B | exact C]].
Qed.
Lemma usize_val : f64_to_usize p = Zfloor (B2R p) /\ (0 <= Zfloor (B2R p) <= 2 ^ 31)%Z.
Proof.
  destruct prod_val as (F & _ & C).
  assert (0 <= Zfloor (B2R p) <= 2 ^ 31)%Z as H.
  { split; [apply Zfloor_lub; apply C|]. apply le_IZR. apply Rle_trans with (B2R p); [apply Zfloor_lb | apply C]. }
  split; [|exact H]. rewrite f64_to_usize_val by exact F. rewrite Ztrunc_floor by apply C. lia.
Qed.
Lemma floor_between : (Zfloor x <= Zfloor (B2R p) <= Zceil x)%Z.
Proof.
  destruct prod_val as (F & E & C). assert (0 < IZR rate) by (apply IZR_lt; lia). assert (0 <= x) by (apply Rmult_le_pos; lra).
  assert (0 <= Zfloor x)%Z as L by (apply Zfloor_lub; assumption).
  assert (Zceil x <= 2 ^ 31)%Z as U by (apply Zceil_glb; exact Hx).
  assert (Zfloor x <= Zceil x)%Z as M. { apply le_IZR. apply Rle_trans with x; [apply Zfloor_lb | apply Zceil_ub]. }
  destruct (rnd_between 53 1024 f64_prec (IZR (Zfloor x)) (IZR (Zceil x)) x) as [A B].
  - apply format_int; try exact f64_prec; try exact f64_emax. lia.
  - apply format_int; try exact f64_prec; try exact f64_emax. lia.
  - split; [apply Zfloor_lb | apply Zceil_ub].
  - rewrite E. split.
    + apply Zfloor_lub. exact A.
    + apply le_IZR. eapply Rle_trans; [apply Zfloor_lb | exact B].
Qed.
Lemma size_custom : exists k, (0 <= k <= 31)%Z /\ buffer_size (Custom s) (f32_of_Z rate) = Ok (2 ^ k)%Z /\ (Zfloor x <= 2 ^ k < 2 * Zceil x)%Z /\
  k = Z.log2_up (Zfloor (B2R p)).
Proof.
  destruct usize_val as [E B]. destruct floor_between as [L U].
  exists (Z.log2_up (Zfloor (B2R p))).
  assert (Z.log2_up (Zfloor (B2R p)) <= 31)%Z as K.
  { replace 31%Z with (Z.log2_up (2 ^ 31)) by reflexivity. apply Z.log2_up_le_mono. lia. }
  pose proof (Z.log2_up_nonneg (Zfloor (B2R p))) as K0.
  split; [lia|]. split; [|split; [|reflexivity]].
  - unfold buffer_size. replace (f64_lt f64_zero s) with true.
    2: { symmetry. apply f64_lt_R; [reflexivity | exact Fs |]. exact Ps. }
    cbn [check bind]. fold p. rewrite E. unfold next_power_of_two. destruct (Zfloor (B2R p) <=? 2 ^ 63)%Z eqn:H; [reflexivity | apply Z.leb_gt in H; lia].
  - assert (0 < Zceil x)%Z as C.
    { apply lt_IZR. apply Rlt_le_trans with x; [apply Rmult_lt_0_compat; [exact Ps | apply IZR_lt; lia] | apply Zceil_ub]. }
    destruct (Z.le_gt_cases (Zfloor (B2R p)) 1) as [S1 | S1].
    + rewrite Z.log2_up_eqn0 by exact S1. cbn [Z.pow]. lia.
    + pose proof (Z.log2_up_spec _ S1) as [G1 G2].
      assert (2 ^ Z.log2_up (Zfloor (B2R p)) = 2 * 2 ^ Z.pred (Z.log2_up (Zfloor (B2R p))))%Z as T.
      { rewrite <- Z.pow_succ_r; [f_equal; lia|]. pose proof (Z.log2_up_pos _ S1). lia. }
      lia.
Qed.
End Size.

Lemma as_u32_small : forall n, (0 <= n < 2 ^ 32)%Z -> as_u32 n = n.
Proof. intros n H. unfold as_u32. apply Z.mod_small. exact H. Qed.

Lemma size_mono : forall s s' rate k k', is_finite s = true -> is_finite s' = true -> 0 < B2R s <= B2R s' -> (0 < rate <= 2 ^ 24)%Z ->
  B2R s' * IZR rate <= IZR (2 ^ 31) ->
  buffer_size (Custom s) (f32_of_Z rate) = Ok k -> buffer_size (Custom s') (f32_of_Z rate) = Ok k' -> (k <= k' <= 2 ^ 31)%Z.
Proof.
  intros s s' rate k k' Fs Fs' [P L] Hr Hx E E'.
  assert (0 < IZR rate) by (apply IZR_lt; lia).
  assert (B2R s * IZR rate <= IZR (2 ^ 31)) as Hx0 by (apply Rle_trans with (B2R s' * IZR rate); [apply Rmult_le_compat_r; lra | exact Hx]).
  destruct (size_custom s rate Fs P Hr Hx0) as (a & Ha & Ea & _ & Ka). destruct (size_custom s' rate Fs' ltac:(lra) Hr Hx) as (b & Hb & Eb & _ & Kb).
  rewrite Ea in E. injection E as <-. rewrite Eb in E'. injection E' as <-.
  split; [|apply Z.pow_le_mono_r; lia].
  apply Z.pow_le_mono_r; [lia|]. rewrite Ka, Kb. apply Z.log2_up_le_mono. apply Zfloor_le.
  destruct (prod_val s rate Fs P Hr Hx0) as (_ & -> & _). destruct (prod_val s' rate Fs' ltac:(lra) Hr Hx) as (_ & -> & _).
  apply round_le; [exact (fexp_valid 53 1024 f64_prec) | apply valid_rnd_N |]. apply Rmult_le_compat_r; lra.
Qed.

(** an integral sample rate survives the conversions *)
Lemma whole_rate : forall (r : f32) n, B2R r = IZR n -> (3000 <= n <= 768000)%Z -> is_finite r = true -> f32_to_u32 r = n /\ f32_of_Z n = r.
Proof.
  intros r n E H F. split.
  - unfold f32_to_u32. rewrite f32_to_usize_val by exact F. rewrite E, Ztrunc_IZR. lia.
  - destruct (of_Z_exact 24 128 f32_prec f32_emax n ltac:(rewrite Z.abs_eq; lia)) as [E' F'].
    change (f32_of_Z n) with (binary_normalize 24 128 f32_prec f32_emax mode_NE n 0 false) in *.
    apply B2R_inj; [| | rewrite E', E; reflexivity].
    + apply is_finite_strict_B2R. rewrite E'. apply IZR_neq. lia.
    + apply is_finite_strict_B2R. rewrite E. apply IZR_neq. lia.
Qed.

(** a rate that is allowed fits an unsigned integer *)
Lemma valid_rate_u32 : forall r : f32, is_valid_sample_rate r = true -> f32_to_u32 r = Ztrunc (B2R r).
Proof.
  intros r H. destruct (rate_val r H) as [F B].
  destruct (is_finite r) eqn:Fr; [|destruct r; discriminate].
  destruct (f64_of_f32_val r Fr) as [E _]. rewrite E in B.
  unfold f32_to_u32. rewrite f32_to_usize_val by exact Fr.
  assert (3000 <= Ztrunc (B2R r) <= 768000)%Z.
  { split; [apply Z.le_trans with (Ztrunc (IZR 3000)); [now rewrite Ztrunc_IZR|]|apply Z.le_trans with (Ztrunc (IZR 768000)); [|now rewrite Ztrunc_IZR]];
      apply Ztrunc_le; apply B. }
  lia.
Qed.
