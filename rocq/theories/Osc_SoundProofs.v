From Coq Require Import List Arith Bool ZArith Reals Lra Lia.
From Flocq Require Import Core.
From Verif Require Import Common_Model Arith_Model Arith_Real Source_Model Source_Spec Source_Proofs Osc_Proofs Osc_ExactProofs Osc_SoundSpec.
Import ListNotations.
Local Open Scope R_scope.

(** ** Fractional parts *)
Lemma frac_unique : forall x k, 0 <= x - IZR k < 1 -> frac x = x - IZR k.
Proof. intros x k H. unfold frac. rewrite (Zfloor_imp k x); [reflexivity|]. rewrite plus_IZR. lra. Qed.
Lemma frac_bounds : forall x, 0 <= frac x < 1.
Proof. intros x. unfold frac. pose proof (Zfloor_lb x). pose proof (Zfloor_ub x). lra. Qed.
Lemma frac_add : forall a b, frac (frac a + b) = frac (a + b).
Proof. intros a b. pose proof (frac_bounds (a + b)) as B. unfold frac in B. rewrite (frac_unique (frac a + b) (Zfloor (a + b) - Zfloor a)); unfold frac; rewrite minus_IZR; lra. Qed.
Lemma frac_zero : frac 0 = 0.
Proof. rewrite (frac_unique 0 0); lra. Qed.

Section Exact.
Variable sr : R.
Hypothesis Hsr : 0 < sr.
Notation A := exact.
Variable sine : list R.

Lemma unroll_frac : forall p, -1 <= p < 2 -> unroll_phase A p = frac p.
Proof.
  intros p H. unfold unroll_phase, t_one, t_zero. cbn [exact t_le t_lt t_sub t_add t_of_Z]. unfold R_le, R_lt.
  destruct (Rle_dec 1 p); [|destruct (Rlt_dec p 0)]; [rewrite (frac_unique p 1)|rewrite (frac_unique p (-1))|rewrite (frac_unique p 0)]; lra.
Qed.
Lemma unbounded_frac : forall p, unroll_unbounded A p = frac p.
Proof.
  intros p. pose proof (unroll_unbounded_exact p) as B. unfold unroll_unbounded, phase_ok in *. unfold t_one, t_zero in *. cbn [exact t_lt t_add t_of_Z t_rem1] in *. unfold R_lt, R_rem1 in *.
  destruct (Rlt_dec _ _); [rewrite (frac_unique p (Ztrunc p - 1)); rewrite minus_IZR; lra|rewrite (frac_unique p (Ztrunc p)); lra].
Qed.
Lemma unroll_exact : forall outside p, (outside = false -> -1 <= p < 2) -> unroll A outside p = frac p.
Proof. intros [|] p H; unfold unroll; [apply unbounded_frac|apply unroll_frac, H; reflexivity]. Qed.

(** ** Waveforms *)
Lemma table_interp : forall (w : list R) p v, 0 <= p < 1 -> table_sample A w p = Ok v -> v = interp w p.
Proof.
  intros w p v Hp H. unfold table_sample in H. cbn [exact t_mul t_of_Z t_floor t_to_Z t_sub v_of_t v_fma v_sub v_mul] in H. unfold v_one in H. cbn [exact v_of_Z] in H.
  unfold interp. rewrite INR_IZR_INZ. set (n := length w) in *. set (x := p * IZR (Z.of_nat n)) in *.
  assert (Hx : 0 <= x) by (unfold x; apply Rmult_le_pos; [lra|apply IZR_le; lia]). assert (Z0 : (0 <= Zfloor x)%Z) by (apply Zfloor_lub; exact Hx).
  unfold R_to_Z in H. rewrite Ztrunc_IZR, Z.max_r in H by exact Z0. unfold index in H.
  destruct (nth_error w (Z.to_nat (Zfloor x))) as [a|] eqn:E1; [|discriminate]. cbn [from_option bind] in H.
  assert (Ln : (Z.to_nat (Zfloor x) < n)%nat) by (apply nth_error_Some; rewrite E1; discriminate).
  assert (J : Z.to_nat (if (Zfloor x + 1 =? Z.of_nat n)%Z then 0%Z else (Zfloor x + 1)%Z) = ((Z.to_nat (Zfloor x) + 1) mod n)%nat).
  { destruct (Z.eqb_spec (Zfloor x + 1) (Z.of_nat n)) as [E|E].
    - replace (Z.to_nat (Zfloor x) + 1)%nat with n by lia. rewrite Nat.mod_same by lia. reflexivity.
    - rewrite Nat.mod_small by lia. lia. }
  rewrite J in H. clear J. destruct (nth_error w ((Z.to_nat (Zfloor x) + 1) mod n)) as [b|] eqn:E2; [|discriminate]. cbn [from_option bind] in H. injection H as <-.
  rewrite (nth_error_nth _ _ 0 E1), (nth_error_nth _ _ 0 E2). rewrite INR_IZR_INZ, Z2Nat.id by exact Z0. ring.
Qed.
Lemma poly_blep_eq : forall t d, poly_blep A t d = blep t d.
Proof.
  intros t d. unfold poly_blep, blep, t_one, t_zero. cbn [exact t_lt t_div t_sub t_add t_mul t_fma t_of_Z]. unfold R_lt. destruct (Rlt_dec t d); [unfold Rdiv; ring|]. destruct (Rlt_dec (1 - d) t); [unfold Rdiv; ring|reflexivity].
Qed.
Lemma waveform_eq : forall s incr v, 0 <= os_phase s < 1 -> waveform_sample A sine s incr = Ok v -> v = wave sine (os_type s) (os_wave s) (os_phase s) incr.
Proof.
  intros s incr v Hp H. unfold waveform_sample in H. unfold wave. destruct (os_type s).
  - apply (table_interp _ _ _ Hp H).
  - injection H as <-. unfold square_sample, t_one. cbn [exact t_lt t_add t_sub t_of_Z t_frac v_of_t]. rewrite !poly_blep_eq. rewrite unroll_frac by lra.
    unfold R_lt. replace (1 / 2) with (/ 2) by lra. destruct (Rlt_dec _ _); reflexivity.
  - injection H as <-. unfold sawtooth_sample, t_one. cbn [exact t_lt t_add t_sub t_mul t_of_Z t_frac v_of_t]. rewrite !poly_blep_eq. rewrite unroll_frac by lra. replace (1 / 2) with (/ 2) by lra. reflexivity.
  - injection H as <-. unfold triangle_sample, t_one. cbn [exact t_lt t_add t_sub t_mul t_of_Z v_of_t]. unfold R_lt. repeat (match goal with |- context [Rlt_dec ?a ?b] => destruct (Rlt_dec a b) | |- context [Rle_dec ?a ?b] => destruct (Rle_dec a b) end; try lra).
  - destruct (os_wave s) as [w|]; [|discriminate]. apply (table_interp _ _ _ Hp H).
Qed.

(** ** One frame *)
Variable plan : list setting.
Notation accumulated := (accumulated sr plan).
Notation sounding := (sounding sr plan).
Notation tone := (tone plan).
Notation phase_at := (phase_at sr plan).
Notation first_phase := (first_phase sr plan).
Notation sample := (sample sr sine plan).
Notation time n := (INR n / sr).

Lemma time_le : forall a b, (a <= b)%nat -> time a <= time b.
Proof. intros a b H. apply Rmult_le_compat_r; [left; apply Rinv_0_lt_compat; lra|apply le_INR; exact H]. Qed.
Lemma time_lt : forall a b, (a < b)%nat -> time a < time b.
Proof. intros a b H. apply Rmult_lt_compat_r; [apply Rinv_0_lt_compat; lra|apply lt_INR; exact H]. Qed.
Lemma time_S : forall n, time (S n) = time n + / sr.
Proof. intros n. rewrite S_INR. field. lra. Qed.

Lemma accumulated_keeps : forall m n, (m <= n)%nat -> accumulated m <> None -> accumulated n <> None.
Proof. intros m n H. induction H as [|n H IH]; intros N; [exact N|]. cbn [Osc_SoundSpec.accumulated]. destruct (sounding n); [discriminate|auto]. Qed.
Lemma accumulated_after : forall m n, (m < n)%nat -> sounding m = true -> accumulated n <> None.
Proof. intros m n H E. apply (accumulated_keeps (S m)); [exact H|]. cbn [Osc_SoundSpec.accumulated]. rewrite E. discriminate. Qed.

Section Quantum.
Variable q : nat.
Let g := nth q plan (mk_setting None None Sine None [] []).
Let B := time (128 * q).
Definition frame_inv (s : @osc R R) (n : nat) : Prop :=
  os_type s = g_type g /\ os_wave s = g_wave g /\ os_stop s = time_of (g_stop g) /\
  match accumulated n with
  | Some p => os_started s = true /\ os_phase s = frac p /\ (os_start s = time_of (g_start g) \/ exists t, g_start g = Some t /\ t <= B /\ os_start s <= B)
  | None => os_started s = false /\ os_phase s = 0 /\ os_start s = Rmax (time_of (g_start g)) B /\ (n = (128 * q)%nat \/ time n - / sr < os_start s \/ os_stop s <= time n - / sr)
  end.

Lemma in_quantum : forall n, (128 * q <= n < 128 * q + 128)%nat -> (n / 128)%nat = q.
Proof. intros n H. symmetry. apply (Nat.div_unique n 128 q (n - 128 * q)); lia. Qed.
Lemma setting_in : forall n, (128 * q <= n < 128 * q + 128)%nat -> setting_at plan n = g.
Proof. intros n H. unfold setting_at. rewrite in_quantum by exact H. reflexivity. Qed.

Lemma sounding_in : forall n, (128 * q <= n < 128 * q + 128)%nat -> sounding n = in_time sr (g_start g) (g_stop g) (Z.of_nat n).
Proof. intros n H. unfold Osc_SoundSpec.sounding. rewrite setting_in by exact H. reflexivity. Qed.
Lemma in_time_times : forall start stop n, time n < t_MAX A -> in_time sr start stop (Z.of_nat n) = R_le (time_of start) (time n) && R_lt (time n) (time_of stop).
Proof.
  intros start stop n M. unfold in_time, time_of, R_le, R_lt. rewrite <- INR_IZR_INZ. destruct start as [st|].
  - destruct (Rle_dec st _); [|reflexivity]. destruct stop as [sp|]; [reflexivity|]. destruct (Rlt_dec _ _); [reflexivity|contradiction].
  - destruct (Rle_dec (t_MAX A) _); [lra|reflexivity].
Qed.
Lemma silent_test : forall s n, (128 * q <= n < 128 * q + 128)%nat -> time n < t_MAX A -> frame_inv s n ->
  t_lt A (time n) (os_start s) || t_le A (os_stop s) (time n) = negb (sounding n).
Proof.
  intros s n Hn M (_ & _ & Es & H). rewrite sounding_in, in_time_times by assumption. rewrite Es. cbn [exact t_lt t_le]. unfold R_lt, R_le.
  assert (HB : B <= time n) by (apply time_le; lia).
  assert (X : time n < os_start s <-> time n < time_of (g_start g)).
  { destruct (accumulated n) as [p|].
    - destruct H as (_ & _ & [->|(t & -> & H1 & H2)]); [tauto|]. cbn [time_of]. lra.
    - destruct H as (_ & _ & -> & _). unfold Rmax. destruct (Rle_dec _ _); lra. }
  destruct (Rlt_dec _ (os_start s)), (Rle_dec (time_of (g_start g)) _), (Rle_dec (time_of (g_stop g)) _), (Rlt_dec _ (time_of (g_stop g))); cbn; try reflexivity; exfalso; lra.
Qed.

Definition half_rate (f : R) : bool := t_le A (t_div A (t_of_v A sr) (t_of_Z A 2)) (t_abs A f).
Lemma half_rate_dec : forall f, if half_rate f then ~ Rabs f < sr / 2 else Rabs f < sr / 2 /\ - (1 / 2) < f / sr < 1 / 2.
Proof.
  intros f. unfold half_rate. cbn [exact t_le t_div t_of_v t_of_Z t_abs]. unfold R_le. destruct (Rle_dec _ _) as [H|H]; [lra|]. apply Rnot_le_lt in H. split; [exact H|]. apply Rabs_def2 in H.
  assert (I : f / sr * sr = f) by (field; lra). split; apply Rmult_lt_reg_r with sr; try exact Hsr; rewrite I; lra.
Qed.

Lemma frame_step : forall s n s' v, (128 * q <= n < 128 * q + 128)%nat -> time n < t_MAX A -> frame_inv s n ->
  generate_sample A sr sine s (half_rate (tone n)) (tone n / sr) (time n) = Ok (s', v) -> v = sample n /\ frame_inv s' (S n).
Proof.
  intros s n s' v Hn M I H. pose proof (silent_test s n Hn M I) as Q. unfold generate_sample in H. rewrite Q in H.
  destruct (sounding n) eqn:Es; cbn [negb] in H, Q; [clear Q|].
  2:{ injection H as <- <-. split; [unfold Osc_SoundSpec.sample; rewrite Es; reflexivity|]. destruct I as (I1 & I2 & I3 & I). refine (conj I1 (conj I2 (conj I3 _))).
    cbn [Osc_SoundSpec.accumulated]. rewrite Es. destruct (accumulated n) eqn:Ea; [exact I|]. destruct I as (I4 & I5 & I6 & _). refine (conj I4 (conj I5 (conj I6 _))). right.
    rewrite time_S. cbn [exact t_lt t_le] in Q. unfold R_lt, R_le in Q. destruct (Rlt_dec _ _); [left; lra|]. destruct (Rle_dec _ _); [right; lra|discriminate]. }
  set (s1 := if os_started s then s else _) in H. pose proof Es as Es'. rewrite sounding_in, in_time_times in Es' by assumption. apply andb_true_iff in Es'. destruct Es' as [L1 L2].
  unfold R_le in L1. unfold R_lt in L2. destruct (Rle_dec _ _) as [L1'|] in L1; [|discriminate]. destruct (Rlt_dec _ _) as [L2'|] in L2; [|discriminate]. clear L1 L2.
  assert (HB : B <= time n) by (apply time_le; lia). pose proof (Rinv_0_lt_compat _ Hsr) as Hi.
  assert (F : os_type s1 = g_type g /\ os_wave s1 = g_wave g /\ os_stop s1 = time_of (g_stop g) /\ os_started s1 = true /\ os_phase s1 = frac (phase_at n)
    /\ (os_start s1 = time_of (g_start g) \/ exists t, g_start g = Some t /\ t <= B /\ os_start s1 <= B)).
  { destruct I as (I1 & I2 & I3 & I). unfold s1, Osc_SoundSpec.phase_at. destruct (accumulated n) as [p|] eqn:Ea.
    - destruct I as (I4 & I5 & I6). rewrite I4. auto 10.
    - destruct I as (I4 & I5 & I6 & I7). rewrite I4. destruct (g_start g) as [st|] eqn:Eg; [|cbn [time_of] in L1'; lra]. cbn [time_of] in *.
      assert (Ef : first_phase n = tone n * (time n - os_start s)). { unfold Osc_SoundSpec.first_phase. rewrite setting_in by exact Hn. rewrite in_quantum by exact Hn. rewrite Eg, I6. reflexivity. }
      assert (St : os_start s = st \/ (exists t, Some st = Some t /\ t <= B /\ os_start s <= B)). { rewrite I6. unfold Rmax. destruct (Rle_dec _ _); [right; exists st; split; [reflexivity|lra]|left; reflexivity]. }
      assert (Le : os_start s <= time n) by (rewrite I6; apply Rmax_lub; assumption).
      cbn [exact t_lt]. unfold R_lt. destruct (Rlt_dec _ _) as [Lt|Lt]; cbn [with_started with_phase os_type os_wave os_stop os_started os_phase os_start]; refine (conj I1 (conj I2 (conj I3 (conj eq_refl (conj _ St))))).
      + rewrite dt_exact. cbn [exact t_mul t_div t_sub]. replace (tone n / sr * ((time n - os_start s) / / sr)) with (first_phase n) by (rewrite Ef; field; lra).
        apply unroll_exact. intros Eo. pose proof (half_rate_dec (tone n)) as D. rewrite Eo in D. destruct D as [_ D].
        destruct I7 as [->|[I7|I7]]; [pose proof (Rmax_r st B); unfold B in *; lra| |lra].
        rewrite Ef. replace (tone n * (time n - os_start s)) with (tone n / sr * ((time n - os_start s) * sr)) by (field; lra).
        assert (0 < (time n - os_start s) * sr < 1). { split; [apply Rmult_lt_0_compat; lra|]. apply Rmult_lt_reg_r with (/ sr); [exact Hi|]. rewrite Rmult_assoc, Rinv_r by lra. lra. }
        split; nra.
      + rewrite I5, Ef. replace (time n - os_start s) with 0 by lra. rewrite Rmult_0_r, frac_zero. reflexivity. }
  clearbody s1. destruct F as (F1 & F2 & F3 & F4 & F5 & F6). pose proof (half_rate_dec (tone n)) as D.
  assert (V : v = sample n /\ s' = with_phase s1 (unroll A (half_rate (tone n)) (t_add A (os_phase s1) (tone n / sr)))).
  { unfold Osc_SoundSpec.sample. rewrite Es. rewrite setting_in by exact Hn. destruct (half_rate (tone n)).
    - cbn [bind] in H. injection H as <- <-. destruct (Rlt_dec _ _); [contradiction|]. split; reflexivity.
    - destruct D as [D _]. destruct (Rlt_dec _ _); [|contradiction]. destruct (waveform_sample _ _ _ _) as [w| |] eqn:E in H; try discriminate. cbn [bind] in H. injection H as <- <-. split; [|reflexivity].
      rewrite <- F1, <- F2, <- F5. apply waveform_eq; [|exact E]. rewrite F5. apply frac_bounds. }
  destruct V as [-> ->]. split; [reflexivity|]. unfold frame_inv. cbn [with_phase os_type os_wave os_stop os_started os_phase os_start]. refine (conj F1 (conj F2 (conj F3 _))).
  cbn [Osc_SoundSpec.accumulated]. rewrite Es. fold (phase_at n). refine (conj F4 (conj _ F6)). cbn [exact t_add]. rewrite F5.
  rewrite unroll_exact; [apply frac_add|]. intros Eo. rewrite Eo in D. pose proof (frac_bounds (phase_at n)). lra.
Qed.

Lemma tone_in : forall i, (i < 128)%nat -> values_ok (g_freq g) -> values_ok (g_detune g) -> tone (128 * q + i) = computed_freq A (cycle A (g_freq g) i) (cycle A (g_detune g) i).
Proof.
  intros i Hi H1 H2. unfold Osc_SoundSpec.tone. rewrite setting_in by lia. rewrite !cycle_value by assumption. replace ((128 * q + i) mod 128)%nat with i; [reflexivity|].
  apply (Nat.mod_unique _ 128 q); lia.
Qed.

Lemma slow_sound : forall n i s r, (i + n <= 128)%nat -> values_ok (g_freq g) -> values_ok (g_detune g) -> time (128 * q + 128) < t_MAX A -> frame_inv s (128 * q + i) ->
  osc_slow A sr sine n i s (g_freq g) (g_detune g) (time (128 * q + i)) = Ok r -> snd r = map sample (seq (128 * q + i) n) /\ frame_inv (fst r) (128 * q + i + n).
Proof.
  induction n as [|n IH]; intros i s r Hi V1 V2 M I H; cbn [osc_slow] in H; [injection H as <-; rewrite Nat.add_0_r; split; [reflexivity|exact I]|].
  rewrite <- tone_in in H by (try assumption; lia). fold (half_rate (tone (128 * q + i))) in H. cbn [exact t_div t_of_v] in H. fold A in H.
  destruct (generate_sample _ _ _ _ _ _ _) as [[s1 v]| |] eqn:E in H; try discriminate. cbn [bind fst snd] in H.
  apply frame_step in E; [|lia| |exact I]. 2:{ eapply Rle_lt_trans; [|exact M]. apply time_le. lia. }
  destruct E as [-> I1]. replace (t_add A (time (128 * q + i)) (dt A sr)) with (time (128 * q + S i)) in H.
  2:{ rewrite dt_exact. cbn [exact t_add]. rewrite Nat.add_succ_r. apply time_S. }
  destruct (osc_slow _ _ _ n _ _ _ _ _) as [r2| |] eqn:E2 in H; try discriminate. cbn [bind] in H. injection H as <-. cbn [fst snd].
  rewrite <- Nat.add_succ_r in I1. apply IH in E2; try assumption; [|lia]. destruct E2 as [-> I2]. split; [|replace (128 * q + i + S n)%nat with (128 * q + S i + n)%nat by lia; exact I2].
  cbn [seq map]. rewrite <- Nat.add_succ_r. reflexivity.
Qed.

Lemma fast_sound : forall n i s r f d, (i + n <= 128)%nat -> g_freq g = [f] -> g_detune g = [d] -> half_rate (computed_freq A f d) = false -> time (128 * q + 128) < t_MAX A -> frame_inv s (128 * q + i) ->
  os_started s = true -> os_start s <= B -> time (128 * q + 128) <= os_stop s ->
  osc_fast A sine n s (computed_freq A f d / sr) = Ok r -> snd r = map sample (seq (128 * q + i) n) /\ frame_inv (fst r) (128 * q + i + n).
Proof.
  induction n as [|n IH]; intros i s r f d Hi Ef Ed Hh M I S1 S2 S3 H; cbn [osc_fast] in H; [injection H as <-; rewrite Nat.add_0_r; split; [reflexivity|exact I]|].
  assert (T : tone (128 * q + i) = computed_freq A f d). { rewrite tone_in; [|lia|rewrite Ef; left; reflexivity|rewrite Ed; left; reflexivity]. rewrite Ef, Ed. unfold cycle. cbn [length]. rewrite !Nat.mod_1_r. reflexivity. }
  assert (L1 : time (128 * q + i) < time (128 * q + 128)) by (apply time_lt; lia). assert (L2 : B <= time (128 * q + i)) by (apply time_le; lia).
  destruct (waveform_sample _ _ _ _) as [v| |] eqn:E in H; try discriminate. cbn [bind] in H.
  assert (G : generate_sample A sr sine s (half_rate (tone (128 * q + i))) (tone (128 * q + i) / sr) (time (128 * q + i)) = Ok (with_phase s (unroll_phase A (t_add A (os_phase s) (computed_freq A f d / sr))), v)).
  { unfold generate_sample. rewrite S1, T, Hh. cbn [exact t_lt t_le]. unfold R_lt, R_le. fold A. destruct (Rlt_dec _ _); [lra|]. destruct (Rle_dec _ _); [lra|]. cbn [orb]. rewrite E. reflexivity. }
  apply frame_step in G; [|lia|lra|exact I]. destruct G as [-> I1].
  destruct (osc_fast _ _ n _ _) as [r2| |] eqn:E2 in H; try discriminate. cbn [bind] in H. injection H as <-. cbn [fst snd].
  rewrite <- Nat.add_succ_r in I1. apply (IH (Datatypes.S i)) in E2; try assumption; [|lia]. destruct E2 as [-> I2]. split; [|replace (128 * q + i + Datatypes.S n)%nat with (128 * q + Datatypes.S i + n)%nat by lia; exact I2].
  cbn [seq map]. rewrite <- Nat.add_succ_r. reflexivity.
Qed.

(** ** One quantum *)
Definition quantum_inv (s : @osc R R) (start stop : option R) (ty : wave_type) (w : option (list R)) (n : nat) : Prop :=
  os_type s = ty /\ os_wave s = w /\ os_stop s = time_of stop /\
  match accumulated n with
  | Some p => os_started s = true /\ os_phase s = frac p /\ (os_start s = time_of start \/ exists t, start = Some t /\ t <= time n /\ os_start s <= time n)
  | None => os_started s = false /\ os_phase s = 0 /\ os_start s = time_of start
  end.

Lemma silent_quantum : (forall n, (128 * q <= n < 128 * q + 128)%nat -> sounding n = false) ->
  repeat 0 128 = map sample (seq (128 * q) 128) /\ accumulated (128 * q + 128) = accumulated (128 * q).
Proof.
  intros H. split.
  - symmetry. rewrite (map_ext_in _ (fun _ => 0)); [|intros n Hn; apply in_seq in Hn; unfold Osc_SoundSpec.sample; rewrite H by lia; reflexivity].
    generalize (128 * q)%nat. generalize 128%nat. induction n as [|n IH]; intros m; [reflexivity|]. cbn [seq map repeat]. rewrite IH. reflexivity.
  - assert (K : forall k, (k <= 128)%nat -> accumulated (128 * q + k) = accumulated (128 * q)); [|apply K; lia].
    induction k as [|k IH]; intros Hk; [rewrite Nat.add_0_r; reflexivity|]. rewrite Nat.add_succ_r. cbn [Osc_SoundSpec.accumulated]. rewrite H by lia. apply IH. lia.
Qed.

Lemma quantum_inv_later : forall s start stop ty w n m, (n <= m)%nat -> accumulated m = accumulated n -> quantum_inv s start stop ty w n -> quantum_inv s start stop ty w m.
Proof.
  intros s start stop ty w n m L E (H1 & H2 & H3 & H). refine (conj H1 (conj H2 (conj H3 _))). rewrite E. destruct (accumulated n); [|exact H]. destruct H as (H4 & H5 & H6). refine (conj H4 (conj H5 _)).
  pose proof (time_le n m L). destruct H6 as [H6|(t & H6 & H7 & H8)]; [left; exact H6|right; exists t; split; [exact H6|lra]].
Qed.
Lemma ended_inv : forall s start stop ty w n, quantum_inv s start stop ty w n -> quantum_inv (with_ended s) start stop ty w n.
Proof. intros s start stop ty w n H. exact H. Qed.

Lemma process_sound : forall s s' o, values_ok (g_freq g) -> values_ok (g_detune g) -> time (128 * q + 128) < t_MAX A -> quantum_inv s (g_start g) (g_stop g) (g_type g) (g_wave g) (128 * q) ->
  osc_process A sr sine s (Z.of_nat (128 * q)) (g_freq g) (g_detune g) = Ok (s', o) ->
  o_output o = map sample (seq (128 * q) 128) /\ quantum_inv s' (g_start g) (g_stop g) (g_type g) (g_wave g) (128 * q + 128).
Proof.
  intros s s' o V1 V2 M I H. unfold osc_process in H. rewrite next_exact, block_exact in H by exact Hsr.
  replace (IZR (Z.of_nat (128 * q) + 128) / sr) with (time (128 * q + 128)) in H by (rewrite INR_IZR_INZ, Nat2Z.inj_add; reflexivity). rewrite <- INR_IZR_INZ in H. fold B in H.
  pose proof I as (I1 & I2 & I3 & I4).
  assert (Q : (forall n, (128 * q <= n < 128 * q + 128)%nat -> sounding n = false) -> (s' = s \/ s' = with_ended s) -> o_output o = repeat 0 128 ->
    o_output o = map sample (seq (128 * q) 128) /\ quantum_inv s' (g_start g) (g_stop g) (g_type g) (g_wave g) (128 * q + 128)).
  { intros HS Hs Ho. destruct (silent_quantum HS) as [E1 E2]. rewrite Ho. split; [exact E1|]. apply (quantum_inv_later _ _ _ _ _ (128 * q)); [lia|exact E2|]. destruct Hs as [->| ->]; [exact I|apply ended_inv; exact I]. }
  cbn [exact t_le t_lt] in H. unfold R_le at 1 in H. destruct (Rle_dec (os_stop s) B) as [S1|S1].
  { injection H as <- <-. apply Q; auto. intros n Hn. rewrite sounding_in, in_time_times by first [assumption | eapply Rlt_trans; [apply (time_lt n (128 * q + 128)); lia|exact M]].
    apply andb_false_iff. right. unfold R_lt. destruct (Rlt_dec _ _); [|reflexivity]. pose proof (time_le (128 * q) n ltac:(lia)). unfold B in *. lra. }
  unfold R_le at 1 in H. destruct (Rle_dec _ (os_start s)) as [S2|S2].
  { assert (HS : forall n, (128 * q <= n < 128 * q + 128)%nat -> sounding n = false).
    { intros n Hn. pose proof (time_lt n (128 * q + 128) ltac:(lia)) as Ln. rewrite sounding_in, in_time_times by (try assumption; lra). apply andb_false_iff. left. unfold R_le. destruct (Rle_dec _ _); [|reflexivity]. exfalso.
      pose proof (time_le (128 * q) (128 * q + 128) ltac:(lia)). destruct (accumulated (128 * q)); [destruct I4 as (_ & _ & [I4|(t & _ & _ & I4)])|destruct I4 as (_ & _ & I4)]; try lra.
      pose proof (time_lt (128 * q) (128 * q + 128) ltac:(lia)). lra. }
    unfold R_le at 1 in H. destruct (Rle_dec _ _) in H; injection H as <- <-; apply Q; auto. }
  set (s1 := if _ && _ then _ else s) in H. cbv zeta in H.
  assert (J : frame_inv s1 (128 * q) /\ (accumulated (128 * q) = None -> os_start s1 = os_start s \/ sounding (128 * q) = true)).
  { unfold s1, frame_inv. destruct (accumulated (128 * q)) as [p|] eqn:Ea.
    - destruct I4 as (I4 & I5 & I6). rewrite I4. cbn [negb andb]. split; [|discriminate]. exact (conj I1 (conj I2 (conj I3 (conj I4 (conj I5 I6))))).
    - destruct I4 as (I4 & I5 & I6). rewrite I4. cbn [negb andb]. unfold R_lt. destruct (Rlt_dec _ _) as [Lt|Lt]; cbn [with_start os_type os_wave os_stop os_started os_phase os_start].
      + split; [|intros _; right]. { refine (conj I1 (conj I2 (conj I3 (conj I4 (conj I5 (conj _ (or_introl eq_refl))))))). rewrite Rmax_right; [reflexivity|lra]. }
        rewrite sounding_in, in_time_times; [|unfold B in *; eapply Rlt_trans; [apply (time_lt _ (128 * q + 128)); lia|exact M]|lia]. unfold R_le, R_lt. fold B. destruct (Rle_dec _ _); [|lra]. destruct (Rlt_dec _ _); [reflexivity|lra].
      + split; [|intros _; left; reflexivity]. refine (conj I1 (conj I2 (conj I3 (conj I4 (conj I5 (conj _ (or_introl eq_refl))))))). rewrite Rmax_left; [exact I6|lra]. }
  clearbody s1. destruct J as [J JN].
  destruct (if _ && _ && _ && _ then _ else _) as [r| |] eqn:E in H; try discriminate. cbn [bind] in H.
  assert (R : snd r = map sample (seq (128 * q) 128) /\ frame_inv (fst r) (128 * q + 128) /\ os_start (fst r) = os_start s1).
  { destruct (_ && _ && _ && _) eqn:C in E.
    - apply andb_true_iff in C. destruct C as [C C5]. apply andb_true_iff in C. destruct C as [C C4]. apply andb_true_iff in C. destruct C as [C1 C2]. apply andb_true_iff in C4. destruct C4 as [C4 C6]. apply andb_true_iff in C4. destruct C4 as [C3 C4].
      apply Nat.eqb_eq in C1, C2. destruct (g_freq g) as [|f [|]] eqn:Ef; try discriminate. destruct (g_detune g) as [|d [|]] eqn:Ed; try discriminate.
      apply negb_true_iff in C5. unfold R_le in C4, C6. destruct (Rle_dec _ _) as [C4'|] in C4; [|discriminate]. destruct (Rle_dec _ _) as [C6'|] in C6; [|discriminate].
      pose proof (fast_fields _ _ _ _ _ _ E) as (_ & F & _). change (cycle A [f] 0) with f in E, C5. change (cycle A [d] 0) with d in E, C5.
      pose proof (fast_sound RQ 0 s1 r f d) as R. rewrite !Nat.add_0_r in R. destruct (R (le_n 128) Ef Ed C5 M J C3 C4' C6' E) as [R1 R2]. auto.
    - pose proof (slow_fields _ _ _ _ _ _ _ _ _ _ E) as (_ & F & _). 
      pose proof (slow_sound RQ 0 s1 r) as R. rewrite !Nat.add_0_r in R. destruct (R (le_n 128) V1 V2 M J E) as [R1 R2]. auto. }
  destruct R as (R1 & R2 & R3).
  assert (K : quantum_inv (fst r) (g_start g) (g_stop g) (g_type g) (g_wave g) (128 * q + 128)).
  { destruct R2 as (K1 & K2 & K3 & K4). refine (conj K1 (conj K2 (conj K3 _))). destruct (accumulated (128 * q + 128)) as [p|] eqn:Ea.
    - destruct K4 as (K4 & K5 & K6). refine (conj K4 (conj K5 _)). pose proof (time_le (128 * q) (128 * q + 128) ltac:(lia)). destruct K6 as [K6|(t & K6 & K7 & K8)]; [left; exact K6|right; exists t; unfold B in *; split; [exact K6|lra]].
    - destruct K4 as (K4 & K5 & _). refine (conj K4 (conj K5 _)).
      assert (A0 : accumulated (128 * q) = None). { destruct (accumulated (128 * q)) eqn:E0; [|reflexivity]. exfalso. apply (accumulated_keeps (128 * q) (128 * q + 128) ltac:(lia)); [rewrite E0; discriminate|exact Ea]. }
      destruct (JN A0) as [J1|J1]; [|exfalso; apply (accumulated_after (128 * q) (128 * q + 128) ltac:(lia) J1 Ea)]. rewrite A0 in I4. rewrite R3, J1. apply I4. }
  destruct (R_le _ _) in H; injection H as <- <-; cbn [o_output]; (split; [exact R1|]); [apply ended_inv|]; exact K.
Qed.
End Quantum.

(** ** All quanta *)
Definition values_of (a : @osc_action R R) : Prop := match a with O_quantum freq detune => values_ok freq /\ values_ok detune | _ => True end.
Lemma run_sound : forall l s q start stop ty w pre s' f os, plan = pre ++ settings start stop ty w l -> length pre = q -> Forall values_of l -> time (128 * (q + osc_quanta l)) < t_MAX A ->
  quantum_inv s start stop ty w (128 * q) -> osc_run A sr sine s (Z.of_nat (128 * q)) l = Ok (s', f, os) -> map (@o_output R) os = map (fun k => map sample (seq (128 * k) 128)) (seq q (osc_quanta l)).
Proof.
  induction l as [|a l IH]; intros s q start stop ty w pre s' f os P Lp F M I H; [cbn in H; injection H as <- <- <-; reflexivity|].
  pose proof (Forall_inv F) as Fa. apply Forall_inv_tail in F. pose proof I as (I1 & I2 & I3 & I4). destruct a as [t|t|ty'|w'|freq detune]; cbn [osc_run settings] in *.
  - refine (IH _ q _ _ _ _ pre _ _ _ P Lp F M _ H). refine (conj I1 (conj I2 (conj I3 _))). cbn [osc_message with_start os_started os_phase os_start time_of]. destruct (accumulated _); intuition.
  - refine (IH _ q _ _ _ _ pre _ _ _ P Lp F M _ H). refine (conj I1 (conj I2 (conj eq_refl I4))).
  - refine (IH _ q _ _ _ _ pre _ _ _ P Lp F M _ H). refine (conj eq_refl (conj I2 (conj I3 I4))).
  - refine (IH _ q _ _ _ _ pre _ _ _ P Lp F M _ H). refine (conj eq_refl (conj eq_refl (conj I3 I4))).
  - destruct (osc_process A sr sine s (Z.of_nat (128 * q)) freq detune) as [[s1 o]| |] eqn:E; try discriminate. cbn [bind fst snd] in H.
    destruct (osc_run A sr sine s1 _ l) as [[[s2 f2] os2]| |] eqn:E2 in H; try discriminate. cbn [bind fst snd] in H. injection H as <- <- <-.
    change (osc_quanta (O_quantum freq detune :: l)) with (S (osc_quanta l)) in *.
    assert (G : nth q plan (mk_setting None None Sine None [] []) = mk_setting start stop ty w freq detune) by (rewrite P, app_nth2, Lp, Nat.sub_diag by lia; reflexivity).
    destruct (process_sound q s s1 o) as [O1 O2]; rewrite ?G; cbn [g_freq g_detune g_start g_stop g_type g_wave].
    + apply Fa.
    + apply Fa.
    + eapply Rle_lt_trans; [|exact M]. apply time_le. lia.
    + exact I.
    + exact E.
    + rewrite G in O2. cbn [g_freq g_detune g_start g_stop g_type g_wave] in O2. cbn [seq map]. rewrite O1. f_equal.
      replace (Z.of_nat (128 * q) + Z.of_nat RQ)%Z with (Z.of_nat (128 * S q)) in E2 by (unfold RQ; lia). replace (128 * q + 128)%nat with (128 * S q)%nat in O2 by lia.
      refine (IH s1 (S q) start stop ty w (pre ++ [mk_setting start stop ty w freq detune]) _ _ _ _ _ F _ O2 E2).
      * rewrite <- app_assoc. exact P.
      * rewrite app_length. cbn. lia.
      * replace (S q + osc_quanta l)%nat with (q + S (osc_quanta l))%nat by lia. exact M.
Qed.
End Exact.

Lemma osc_sound : forall sr sine ty l s f os, 0 < sr -> Forall values_of l -> INR (128 * osc_quanta l) / sr < t_MAX exact ->
  osc_run exact sr sine (osc_new exact ty) 0 l = Ok (s, f, os) ->
  map (@o_output R) os = map (fun k => map (sample sr sine (settings None None ty None l)) (seq (128 * k) 128)) (seq 0 (osc_quanta l)).
Proof.
  intros sr sine ty l s f os Hsr F M H.
  refine (run_sound sr Hsr sine (settings None None ty None l) l (osc_new exact ty) 0 None None ty None [] s f os eq_refl eq_refl F M _ H).
  repeat (apply conj; [reflexivity|]). reflexivity.
Qed.
