(** Oscillators in floating point arithmetic: the phase and the samples follow the exact phase. *)
From Coq Require Import List Arith Bool ZArith Reals Lra Lia.
From Flocq Require Import Core BinarySingleNaN Sterbenz Mult_error.
From Verif Require Import Float_Model Float_Proofs Float_BoundProofs Float_ErrorProofs Buffer_Model Buffer_ResampleProofs
  Common_Model Arith_Model Arith_Real Source_Model Source_Spec Source_Proofs Source_ClockProofs Osc_Proofs Osc_ExactProofs Osc_IeeeProofs Delay_IeeeProofs Osc_SoundSpec Osc_ToneProofs Osc_PhaseSpec.
Import ListNotations.
Local Open Scope R_scope.

Section Phase.
Variable M : libm.
Notation A := (ieee M).
Variable sr : f32.
Hypothesis Hsr : rate_ok sr.
Notation S := (B2R (f64_of_f32 sr)).
Notation zero32 := (B754_zero false : f32).
Notation zero64 := (B754_zero false : f64).
Hypothesis Hexp : is_finite (m64_exp2 M zero64) = true /\ B2R (m64_exp2 M zero64) = 1.

Definition below (f : f32) : Prop := is_finite f = true /\ 0 <= B2R f /\ B2R f < S / 2.

Lemma zero_detune : f64_div (f64_of_f32 zero32) (f64_of_Z 1200) = zero64.
Proof. apply B2SF_inj. vm_compute. reflexivity. Qed.

Lemma plain_freq : forall f, is_finite f = true -> is_finite (computed_freq A f zero32) = true /\ B2R (computed_freq A f zero32) = B2R f.
Proof.
  intros f F. unfold computed_freq. cbn [ieee t_mul t_of_v t_exp2 t_div t_of_Z]. rewrite zero_detune. destruct Hexp as [F1 E1]. destruct (f64_of_f32_val f F) as [E2 F2].
  destruct (f64_mul_err (f64_of_f32 f) (m64_exp2 M zero64) 128 F2 F1 (eok 128 ltac:(lia))) as (F3 & E3 & _ & _); [rewrite E1, E2, Rmult_1_r; apply f32_bound|].
  split; [exact F3|]. rewrite E3, E1, E2, Rmult_1_r. apply round_generic; [apply valid_rnd_N|apply format_32_64].
Qed.

Let incr f := t_div A (computed_freq A f zero32) (t_of_v A sr).
Let outside f := t_le A (t_div A (t_of_v A sr) (t_of_Z A 2)) (t_abs A (computed_freq A f zero32)).

Lemma plain_incr : forall f, below f -> is_finite (incr f) = true /\ 0 <= B2R (incr f) <= / 2 /\ Rabs (B2R (incr f) - B2R f / S) <= bpow radix2 (-54).
Proof.
  intros f (F & P & L). destruct (plain_freq f F) as [F1 E1]. pose proof (S_range sr Hsr) as R. unfold incr. cbn [ieee t_div t_of_v].
  assert (B : 0 <= B2R f / S <= / 2). { split; [apply Rmult_le_pos; [exact P|left; apply Rinv_0_lt_compat; lra]|]. apply Rmult_le_reg_r with S; [lra|]. unfold Rdiv. rewrite Rmult_assoc, Rinv_l by lra. lra. }
  destruct (f64_div_err (computed_freq A f zero32) (f64_of_f32 sr) (-1) F1) as (F3 & E3 & A3 & B3); [lra|apply eok; lia|rewrite E1, Rabs_pos_eq by lra; change (bpow radix2 (-1)) with (/ 2); lra|].
  rewrite E1 in *. split; [exact F3|]. split; [|exact A3]. apply Rabs_le_inv in B3. change (bpow radix2 (-1)) with (/ 2) in B3. split; [rewrite E3, <- (rnd_0 53 1024); apply rnd_mono; [exact f64_prec|lra]|lra].
Qed.
Lemma plain_inside : forall f, below f -> outside f = false.
Proof.
  intros f (F & P & L). destruct (plain_freq f F) as [F1 E1]. pose proof (S_range sr Hsr) as R. unfold outside. cbn [ieee t_div t_of_v t_le t_abs t_of_Z].
  destruct (f64_of_Z_exact 2) as [E4 F4]; [lia|]. pose proof (S_finite sr Hsr) as F2.
  destruct (f64_div_err (f64_of_f32 sr) (f64_of_Z 2) 20 F2) as (F5 & E5 & _ & _); [rewrite E4; lra|apply eok; lia|rewrite E4; rewrite Rabs_pos_eq by lra; change (bpow radix2 20) with 1048576; lra|].
  rewrite E4 in E5.
  assert (H2 : B2R (f64_div (f64_of_f32 sr) (f64_of_Z 2)) = S / 2).
  { rewrite E5. apply round_generic; [apply valid_rnd_N|]. unfold Rdiv. change (/ 2) with (bpow radix2 (-1)). apply (mult_bpow_exact_FLT radix2 (3 - 1024 - 53) 53); [apply generic_format_B2R|].
    assert (1 <= mag radix2 S)%Z; [|lia]. apply mag_ge_bpow. change (bpow radix2 (1 - 1)) with 1. rewrite Rabs_pos_eq; lra. }
  destruct (f64_le _ _) eqn:C; [|reflexivity]. exfalso. apply f64_le_R in C; [|exact F5|unfold f64_abs; rewrite is_finite_Babs; exact F1]. unfold f64_abs in C. rewrite B2R_Babs, E1, H2, Rabs_pos_eq in C by exact P. lra.
Qed.

(** [p] follows [x] turns, up to [k] roundings *)
Definition follows (k : nat) (x : R) (p : f64) : Prop := phase64 p /\ exists z : Z, Rabs (B2R p + IZR z - x) <= INR k * bpow radix2 (-51).

Lemma unroll_value : forall p : f64, is_finite p = true -> 0 <= B2R p < 2 -> exists z : Z, B2R (unroll_phase A p) = B2R p - IZR z.
Proof.
  intros p F H. unfold unroll_phase, t_one, t_zero. cbn [ieee t_le t_lt t_sub t_add t_of_Z]. destruct one_val as [E1 F1]. destruct zero_val as [E0 F0].
  destruct (f64_le (f64_of_Z 1) p) eqn:C.
  - apply f64_le_R in C; [|assumption|assumption]. rewrite E1 in C. destruct (sub_exact p (f64_of_Z 1)) as [F2 E2]; try assumption; try (rewrite E1; lra).
    { rewrite Rabs_pos_eq by lra. apply Rle_trans with 2; [lra|]. change 2 with (bpow radix2 1). apply bpow_le. lia. }
    exists 1%Z. rewrite E2, E1. reflexivity.
  - destruct (f64_lt p (f64_of_Z 0)) eqn:C0; [|exists 0%Z; lra]. apply f64_lt_R in C0; [|assumption|assumption]. rewrite E0 in C0. lra.
Qed.

Lemma follows_step : forall k x p f, follows k x p -> below f -> follows (Datatypes.S k) (x + B2R f / S) (unroll_phase A (t_add A p (incr f))).
Proof.
  intros k x p f [[F [P0 P1]] [z Hz]] Hf. destruct (plain_incr f Hf) as (F1 & [B0 B1] & Ai). cbn [ieee t_add].
  destruct (f64_add_err p (incr f) 1 F F1 (eok 1 ltac:(lia))) as (F2 & E2 & A2 & _); [rewrite Rabs_pos_eq by lra; change (bpow radix2 1) with 2; lra|].
  assert (N : 0 <= B2R (f64_add p (incr f))) by (rewrite E2, <- (rnd_0 53 1024); apply rnd_mono; [exact f64_prec|lra]).
  apply Rabs_le_inv in Ai, A2, Hz. change (bpow radix2 (1 - 53)) with (/ 4503599627370496) in A2. change (bpow radix2 (-54)) with (/ 18014398509481984) in Ai. change (bpow radix2 (-51)) with (/ 2251799813685248) in *.
  assert (N2 : 0 <= B2R (f64_add p (incr f)) < 2) by lra. split; [apply unroll_phase_ieee; assumption|]. destruct (unroll_value _ F2 N2) as [y Ey]. exists (z + y)%Z. rewrite Ey, plus_IZR, S_INR. change (bpow radix2 (-51)) with (/ 2251799813685248). apply Rabs_le. lra.
Qed.

(** ** Runs *)
Variable table : list f32.
Variable ty : wave_type.
Hypothesis Hty : ty <> Custom.
Hypothesis Htable : wave64 table.
Variable freq : list (list f32).
Hypothesis Hfreq : Forall (fun fs => values_ok fs /\ Forall below fs) freq.
Notation T := (turns S freq).

Definition plain (s : @osc f64 f32) : Prop := os_type s = ty /\ os_start s = zero64 /\ os_stop s = f64_MAX.
Definition state_at (n : nat) (s : @osc f64 f32) : Prop := plain s /\ follows n (T n) (os_phase s).
(** a sample of frame [n] *)
Definition out_at (n : nat) (v : f32) : Prop := exists p i, follows n (T n) p /\ 
  forall s : @osc f64 f32, os_type s = ty -> os_phase s = p -> waveform_sample A table s i = Ok v.

Lemma wave_out : forall n s i, state_at n s -> exists v, waveform_sample A table s i = Ok v /\ out_at n v.
Proof.
  intros n s i [(E1 & _ & _) Fo]. assert (W : exists v, waveform_sample A table s i = Ok v).
  { apply (waveform_ok A table phase64 wave64); [intros w p; apply table_ieee|exact Htable|exact (proj1 Fo)|]. intros C. congruence. }
  destruct W as [v Ev]. exists v. split; [exact Ev|]. exists (os_phase s), i. split; [exact Fo|]. intros s' E2 E3. rewrite <- Ev. unfold waveform_sample. rewrite E1, E2, E3. destruct ty; try reflexivity. contradiction.
Qed.

Lemma state_step : forall n s, state_at n s -> below (frequency freq n) -> state_at (Datatypes.S n) (with_phase s (unroll_phase A (t_add A (os_phase s) (incr (frequency freq n))))).
Proof. intros n s [P Fo] Hf. split; [exact P|]. cbn [with_phase os_phase turns]. apply follows_step; assumption. Qed.
Lemma state_started : forall n s, state_at n s -> state_at n (with_started s).
Proof. intros n s [P Fo]. split; assumption. Qed.

Lemma fast_follows : forall m n s f, state_at n s -> (forall i, (i < m)%nat -> frequency freq (n + i) = f) -> below f ->
  exists s' os, osc_fast A table m s (incr f) = Ok (s', os) /\ state_at (n + m) s' /\ os_started s' = os_started s /\ length os = m /\ forall i v, nth_error os i = Some v -> out_at (n + i) v.
Proof.
  induction m as [|m IH]; intros n s f Hs Hf Hb; cbn [osc_fast].
  - exists s, []. split; [reflexivity|]. rewrite Nat.add_0_r. split; [exact Hs|]. split; [reflexivity|]. split; [reflexivity|]. intros [|i] v; discriminate.
  - destruct (wave_out n s (incr f) Hs) as (v & -> & Ov). cbn [bind]. assert (E0 : frequency freq n = f) by (rewrite <- (Hf 0%nat) by lia; f_equal; lia).
    pose proof (state_step n s Hs) as Hst. rewrite E0 in Hst. destruct (IH (Datatypes.S n) _ f (Hst Hb)) as (s' & os & E & Q1 & Q2 & Q3 & Q4); [intros i Hi; rewrite <- (Hf (Datatypes.S i)) by lia; f_equal; lia|exact Hb|].
    rewrite E. cbn [bind fst snd]. exists s', (v :: os). split; [reflexivity|]. replace (n + Datatypes.S m)%nat with (Datatypes.S n + m)%nat by lia. split; [exact Q1|]. split; [exact Q2|]. split; [cbn; lia|].
    intros [|i] w Hw; cbn [nth_error] in Hw; [injection Hw as <-; rewrite Nat.add_0_r; exact Ov|]. replace (n + Datatypes.S i)%nat with (Datatypes.S n + i)%nat by lia. apply Q4. exact Hw.
Qed.

Lemma lt_zero_false : forall t : f64, is_finite t = true -> 0 <= B2R t -> f64_lt t zero64 = false.
Proof. intros t F H. destruct (f64_lt t zero64) eqn:C; [|reflexivity]. apply f64_lt_R in C; [|exact F|reflexivity]. cbn [B2R] in C. lra. Qed.

Lemma slow_follows : forall q m i s fs ds, early sr (128 * Z.of_nat q) -> (i + m = 128)%nat -> state_at (128 * q + i) s -> (os_started s = true \/ (q = 0 /\ i = 0)%nat) ->
  (forall j, (j < 128)%nat -> cycle A fs j = frequency freq (128 * q + j) /\ below (frequency freq (128 * q + j)) /\ cycle A ds j = zero32) ->
  exists s' os, osc_slow A sr table m i s fs ds (advance A sr i (block_time A sr (128 * Z.of_nat q))) = Ok (s', os) /\ state_at (128 * q + i + m) s' /\ (0 < m -> os_started s' = true)%nat /\ length os = m /\
    forall j v, nth_error os j = Some v -> out_at (128 * q + i + j) v.
Proof.
  intros q. induction m as [|m IH]; intros i s fs ds He Hi Hs Hst Hc; cbn [osc_slow].
  - exists s, []. split; [reflexivity|]. rewrite Nat.add_0_r. split; [exact Hs|]. split; [lia|]. split; [reflexivity|]. intros [|j] v; discriminate.
  - destruct (Hc i ltac:(lia)) as (C1 & C2 & C3). cbv zeta. rewrite C1, C3. set (f := frequency freq (128 * q + i)) in *. change (t_le A (t_div A (t_of_v A sr) (t_of_Z A 2)) (t_abs A (computed_freq A f zero32))) with (outside f).
    change (t_div A (computed_freq A f zero32) (t_of_v A sr)) with (incr f). rewrite (plain_inside f C2).
    destruct (advance_ieee M sr Hsr (128 * Z.of_nat q) i He ltac:(lia)) as (Ft & At & Gt). destruct (block_ieee M sr Hsr _ He) as (Fb & Ab & Pb). pose proof (early_time sr Hsr _ He) as Et. pose proof (S_inv sr Hsr) as Inv.
    set (t := advance A sr i (block_time A sr (128 * Z.of_nat q))) in *.
    assert (Ht : 0 <= B2R t <= 16777216). { split; [lra|]. assert (INR i <= 127) by (rewrite INR_IZR_INZ; apply IZR_le; lia). pose proof (pos_INR i). apply Rabs_le_inv in At. rewrite plus_IZR, <- INR_IZR_INZ in At. unfold Rdiv in *. rewrite Rmult_plus_distr_r in At.
      change (bpow radix2 (-28)) with (/ 268435456) in At. assert (INR i * / S <= 127) by nra. lra. }
    assert (S1 : exists s1, generate_sample A sr table s false (incr f) t = bind (waveform_sample A table s1 (incr f)) (fun v => Ok (with_phase s1 (unroll_phase A (t_add A (os_phase s1) (incr f))), v)) /\ state_at (128 * q + i) s1 /\ os_started s1 = true).
    { destruct Hs as [(T1 & T2 & T3) Fo]. unfold generate_sample. rewrite T2, T3. cbn [ieee t_lt t_le]. rewrite (lt_zero_false t Ft (proj1 Ht)). destruct (below_max t Ft (proj2 Ht)) as [-> _]. cbn [orb].
      destruct (os_started s) eqn:Es.
      - exists s. split; [reflexivity|]. split; [split; [split; [exact T1|split; assumption]|exact Fo]|exact Es].
      - destruct Hst as [C|[-> ->]]; [congruence|]. exists (with_started s). split; [|split; [split; [split; [exact T1|split; assumption]|exact Fo]|reflexivity]].
        assert (Z0 : f64_lt zero64 t = false). { destruct (f64_lt zero64 t) eqn:C; [|reflexivity]. apply f64_lt_R in C; [|reflexivity|exact Ft]. cbn [B2R] in C. exfalso.
          assert (Et0 : B2R t = 0); [|lra]. unfold t. cbn [advance]. unfold block_time. cbn [ieee t_div t_of_Z t_of_v]. change (128 * Z.of_nat 0)%Z with 0%Z. destruct zero_val as [E0 F0]. pose proof (S_range sr Hsr).
          destruct (f64_div_err (f64_of_Z 0) (f64_of_f32 sr) 0 F0) as (_ & E5 & _ & _); [lra|apply eok; lia|rewrite E0; unfold Rdiv; rewrite Rmult_0_l, Rabs_R0; apply bpow_ge_0|]. rewrite E5, E0. unfold Rdiv. rewrite Rmult_0_l. apply rnd_0. }
        rewrite Z0. reflexivity. }
    destruct S1 as (s1 & -> & Hs1 & Est). destruct (wave_out _ s1 (incr f) Hs1) as (v & -> & Ov). cbn [bind fst snd].
    unfold t. rewrite <- advance_last.
    pose proof (state_step _ s1 Hs1 C2) as Hs2. destruct (IH (Datatypes.S i) (with_phase s1 (unroll_phase A (t_add A (os_phase s1) (incr f)))) fs ds He ltac:(lia)) as (s' & os & E & Q1 & Q2 & Q3 & Q4); [|left; exact Est|exact Hc|].
    { replace (128 * q + Datatypes.S i)%nat with (Datatypes.S (128 * q + i)) by lia. exact Hs2. }
    rewrite E. cbn [bind fst snd]. exists s', (v :: os). split; [reflexivity|]. replace (128 * q + i + Datatypes.S m)%nat with (128 * q + Datatypes.S i + m)%nat by lia. split; [exact Q1|]. split.
    { intros _. destruct m; [|apply Q2; lia]. cbn [osc_slow] in E. injection E as <- _. exact Est. }
    split; [cbn; lia|]. intros [|j] w Hw; cbn [nth_error] in Hw; [injection Hw as <-; rewrite Nat.add_0_r; exact Ov|].
    replace (128 * q + i + Datatypes.S j)%nat with (128 * q + Datatypes.S i + j)%nat by lia. apply Q4. exact Hw.
Qed.

Lemma quantum_freq : forall q fs, nth_error freq q = Some fs -> values_ok fs /\ forall j, (j < 128)%nat -> cycle A fs j = frequency freq (128 * q + j) /\ below (frequency freq (128 * q + j)).
Proof.
  intros q fs Hq. rewrite Forall_forall in Hfreq. destruct (Hfreq fs (nth_error_In _ _ Hq)) as [V B]. split; [exact V|]. intros j Hj.
  assert (E : frequency freq (128 * q + j) = value_at zero32 fs j).
  { unfold frequency. replace ((128 * q + j) / 128)%nat with q by (rewrite Nat.mul_comm, Nat.div_add_l by lia; rewrite Nat.div_small by exact Hj; lia).
    replace ((128 * q + j) mod 128)%nat with j by (rewrite Nat.mul_comm, Nat.add_comm, Nat.mod_add by lia; rewrite Nat.mod_small by exact Hj; reflexivity). rewrite (nth_error_nth freq q [] Hq). reflexivity. }
  rewrite E. split; [apply cycle_value; assumption|]. rewrite Forall_forall in B. apply B. unfold value_at. destruct fs as [|a [|b r]]; [destruct V; discriminate|left; reflexivity|]. apply nth_In. destruct V as [V|V]; [discriminate|]. rewrite V. exact Hj.
Qed.

Lemma process_follows : forall q s fs, early sr (128 * Z.of_nat q) -> state_at (128 * q) s -> (os_started s = true \/ q = 0%nat) -> nth_error freq q = Some fs ->
  exists s' o, osc_process A sr table s (128 * Z.of_nat q) fs [zero32] = Ok (s', o) /\ state_at (128 * Datatypes.S q) s' /\ os_started s' = true /\ length (o_output o) = 128%nat /\
    forall i v, nth_error (o_output o) i = Some v -> out_at (128 * q + i) v.
Proof.
  intros q s fs He Hs Hst Hq. destruct (quantum_freq q fs Hq) as [V Hf]. assert (Hs' := Hs). destruct Hs' as [(T1 & T2 & T3) Fo]. unfold osc_process. cbv zeta. rewrite T3, T2.
  destruct (block_ieee M sr Hsr _ He) as (Fb & Ab & Pb). destruct (next_ieee M sr Hsr _ He) as (Fn & An). pose proof (early_time sr Hsr _ He) as Et. pose proof (S_inv sr Hsr) as Inv. change (bpow radix2 (-29)) with (/ 536870912) in Ab. change (bpow radix2 (-27)) with (/ 134217728) in An. apply Rabs_le_inv in Ab, An.
  assert (En : IZR (128 * Z.of_nat q + 128) / S = IZR (128 * Z.of_nat q) / S + 128 * / S) by (rewrite plus_IZR; unfold Rdiv; ring). rewrite En in An.
  set (b := block_time A sr (128 * Z.of_nat q)) in *. set (nx := next_block_time A sr (128 * Z.of_nat q)) in *.
  assert (Cb : t_le A f64_MAX b = false) by (apply below_max; [exact Fb|lra]). rewrite Cb. assert (Cn : t_le A f64_MAX nx = false) by (apply below_max; [exact Fn|lra]).
  assert (C0 : t_le A nx zero64 = false). { cbn [ieee t_le]. destruct (f64_le nx zero64) eqn:C; [|reflexivity]. apply f64_le_R in C; [|exact Fn|reflexivity]. cbn [B2R] in C. lra. }
  rewrite C0.
  assert (S1 : (if negb (os_started s) && t_lt A zero64 b then with_start s b else s) = s).
  { destruct (os_started s) eqn:Es; [reflexivity|]. destruct Hst as [C|Q0]; [congruence|]. cbn [negb andb]. cbn [ieee t_lt]. destruct (f64_lt zero64 b) eqn:C; [|reflexivity]. apply f64_lt_R in C; [|reflexivity|exact Fb]. cbn [B2R] in C. exfalso.
    assert (Et0 : B2R b = 0); [|lra]. unfold b, block_time. cbn [ieee t_div t_of_Z t_of_v]. rewrite Q0. change (128 * Z.of_nat 0)%Z with 0%Z. destruct zero_val as [E0 F0]. pose proof (S_range sr Hsr).
    destruct (f64_div_err (f64_of_Z 0) (f64_of_f32 sr) 0 F0) as (_ & E5 & _ & _); [lra|apply eok; lia|rewrite E0; unfold Rdiv; rewrite Rmult_0_l, Rabs_R0; apply bpow_ge_0|]. rewrite E5, E0. unfold Rdiv. rewrite Rmult_0_l. apply rnd_0. }
  rewrite S1.
  match goal with |- context [bind ?e _] => assert (R : exists s' os, e = Ok (s', os) /\ state_at (128 * q + 128) s' /\ os_started s' = true /\ length os = 128%nat /\ forall i v, nth_error os i = Some v -> out_at (128 * q + i) v) end.
  { destruct (_ && _ && _ && _) eqn:E.
    - apply andb_true_iff in E. destruct E as [E Eo]. apply andb_true_iff in E. destruct E as [E Ea]. apply andb_true_iff in E. destruct E as [El _]. apply Nat.eqb_eq in El. apply andb_true_iff in Ea. destruct Ea as [Ea _]. apply andb_true_iff in Ea. destruct Ea as [Ea _].
      destruct fs as [|f [|g r]]; try discriminate. change (cycle A [f] 0) with f. change (cycle A [zero32] 0) with zero32.
      assert (Hall : forall i, (i < 128)%nat -> frequency freq (128 * q + i) = f). { intros i Hi. destruct (Hf i Hi) as [<- _]. unfold cycle. cbn [length]. rewrite Nat.mod_1_r. reflexivity. }
      destruct (fast_follows RQ (128 * q) s f Hs Hall) as (s' & os & E1 & Q1 & Q2 & Q3 & Q4); [rewrite <- (Hall 0%nat) by lia; apply Hf; lia|].
      exists s', os. split; [exact E1|]. split; [exact Q1|]. split; [rewrite Q2; exact Ea|]. split; [exact Q3|exact Q4].
    - destruct (slow_follows q RQ 0 s fs [zero32] He eq_refl) as (s' & os & E1 & Q1 & Q2 & Q3 & Q4).
      + rewrite Nat.add_0_r. exact Hs.
      + destruct Hst as [Hst|Hst]; [left; exact Hst|right; split; [exact Hst|reflexivity]].
      + intros j Hj. destruct (Hf j Hj) as [H1 H2]. split; [exact H1|]. split; [exact H2|]. unfold cycle. cbn [length]. rewrite Nat.mod_1_r. reflexivity.
      + cbn [advance] in E1. exists s', os. split; [exact E1|]. rewrite Nat.add_0_r in *. split; [exact Q1|]. split; [apply Q2; unfold RQ; lia|]. split; [exact Q3|exact Q4]. }
  destruct R as (s' & os & -> & Q1 & Q2 & Q3 & Q4). cbn [bind fst snd]. assert (T4 := Q1). destruct T4 as [(_ & _ & ->) _]. rewrite Cn. exists s', (mk_outcome os true false). split; [reflexivity|].
  replace (128 * Datatypes.S q)%nat with (128 * q + 128)%nat by lia. split; [exact Q1|]. split; [exact Q2|]. split; [exact Q3|exact Q4].
Qed.

Lemma run_follows : forall fss q s, freq = firstn q freq ++ fss -> length (firstn q freq) = q -> (forall k, (k < length fss)%nat -> early sr (128 * Z.of_nat (q + k))) -> state_at (128 * q) s -> (os_started s = true \/ q = 0%nat) ->
  exists s' f' os, osc_run A sr table s (128 * Z.of_nat q) (map (fun fs => O_quantum fs [zero32]) fss) = Ok (s', f', os) /\ state_at (128 * (q + length fss)) s' /\ length os = length fss /\ Forall (fun o => length (o_output o) = 128%nat) os /\
    forall k o i v, nth_error os k = Some o -> nth_error (o_output o) i = Some v -> out_at (128 * (q + k) + i) v.
Proof.
  induction fss as [|fs fss IH]; intros q s Hq Lq He Hs Hst; cbn [map osc_run].
  - exists s, (128 * Z.of_nat q)%Z, []. split; [reflexivity|]. rewrite Nat.add_0_r. split; [exact Hs|]. split; [reflexivity|]. split; [constructor|]. intros [|k] o i v; discriminate.
  - assert (Hn : nth_error freq q = Some fs). { rewrite Hq, nth_error_app2 by lia. rewrite Lq, Nat.sub_diag. reflexivity. }
    destruct (process_follows q s fs) as (s1 & o & E & Q1 & Q2 & Q3 & Q4); [specialize (He 0%nat); rewrite Nat.add_0_r in He; apply He; cbn; lia|exact Hs|exact Hst|exact Hn|].
    rewrite E. cbn [bind fst snd]. replace (128 * Z.of_nat q + Z.of_nat RQ)%Z with (128 * Z.of_nat (Datatypes.S q))%Z by (change (Z.of_nat RQ) with 128%Z; lia).
    assert (Hf2 : firstn (Datatypes.S q) freq = firstn q freq ++ [fs]). { rewrite Hq at 1. rewrite firstn_app, Lq. replace (Datatypes.S q - q)%nat with 1%nat by lia. rewrite firstn_all2 by lia. reflexivity. }
    destruct (IH (Datatypes.S q) s1) as (s' & f' & os & E2 & P1 & P2 & P3 & P4).
    { rewrite Hf2, <- app_assoc. exact Hq. }
    { rewrite Hf2, app_length, Lq. cbn. lia. }
    { intros k Hk. replace (Datatypes.S q + k)%nat with (q + Datatypes.S k)%nat by lia. apply He. cbn. lia. }
    { exact Q1. }
    { left. exact Q2. }
    rewrite E2. cbn [bind fst snd]. exists s', f', (o :: os). split; [reflexivity|]. cbn [length]. replace (q + Datatypes.S (length fss))%nat with (Datatypes.S q + length fss)%nat by lia. split; [exact P1|]. split; [lia|]. split; [constructor; assumption|].
    intros [|k] o' i v Hk Hi; cbn [nth_error] in Hk; [injection Hk as <-; rewrite Nat.add_0_r; apply Q4; exact Hi|]. replace (q + Datatypes.S k)%nat with (Datatypes.S q + k)%nat by lia. apply (P4 k o'); assumption.
Qed.

Lemma start_follows : IZR (128 * Z.of_nat (length freq)) / S <= 8388608 ->
  exists s' f' os, osc_run A sr table (osc_new A ty) 0 (O_start zero64 :: map (fun fs => O_quantum fs [zero32]) freq) = Ok (s', f', os) /\ follows (128 * length freq) (T (128 * length freq)) (os_phase s') /\ length os = length freq /\
    Forall (fun o => length (o_output o) = 128%nat) os /\ forall k o i v, nth_error os k = Some o -> nth_error (o_output o) i = Some v -> out_at (128 * k + i) v.
Proof.
  intros Hm. cbn [osc_run]. destruct (run_follows freq 0 (osc_message (osc_new A ty) (O_start zero64))) as (s' & f' & os & E & Q1 & Q2 & Q3 & Q4).
  - reflexivity.
  - reflexivity.
  - intros k Hk. split; [lia|]. eapply Rle_trans; [|exact Hm]. pose proof (S_range sr Hsr). apply Rmult_le_compat_r; [left; apply Rinv_0_lt_compat; lra|apply IZR_le; lia].
  - split; [split; [reflexivity|split; reflexivity]|]. cbn [osc_message with_start osc_new os_phase]. destruct zero_val as [E0 F0]. split; [split; [exact F0|change (t_zero A) with (f64_of_Z 0); rewrite E0; lra]|]. exists 0%Z.
    change (t_zero A) with (f64_of_Z 0). rewrite E0. change (128 * 0)%nat with 0%nat. cbn [turns INR]. replace (0 + 0 - 0) with 0 by ring. rewrite Rabs_R0, Rmult_0_l. lra.
  - right. reflexivity.
  - exists s', f', os. split; [exact E|]. split; [exact (proj2 Q1)|]. auto.
Qed.
End Phase.
