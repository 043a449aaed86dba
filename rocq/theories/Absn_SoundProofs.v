(** The buffer source's sound in exact arithmetic: the frames of the slow track. *)
From Coq Require Import List Arith Bool ZArith Reals Lra Lia Psatz.
From Flocq Require Import Core.
From Verif Require Import Common_Model Arith_Model Arith_Real Source_Model Absn_Model Absn_Spec Absn_ExactProofs Absn_SafetyProofs Absn_LoopProofs Absn_SoundSpec.
Import ListNotations.
Local Open Scope R_scope.

Lemma is_le_true : forall x y, x <= y -> is_le x y = true.
Proof. intros. unfold is_le. destruct (Rle_dec _ _); [reflexivity|contradiction]. Qed.
Lemma is_le_false : forall x y, y < x -> is_le x y = false.
Proof. intros. unfold is_le. destruct (Rle_dec _ _); [lra|reflexivity]. Qed.
Lemma is_lt_true : forall x y, x < y -> is_lt x y = true.
Proof. intros. unfold is_lt. destruct (Rlt_dec _ _); [reflexivity|contradiction]. Qed.
Lemma is_lt_false : forall x y, y <= x -> is_lt x y = false.
Proof. intros. unfold is_lt. destruct (Rlt_dec _ _); [lra|reflexivity]. Qed.
Lemma le_is : forall x y, R_le x y = is_le x y.
Proof. reflexivity. Qed.
Lemma lt_is : forall x y, R_lt x y = is_lt x y.
Proof. reflexivity. Qed.
Lemma is_le_iff : forall x y, is_le x y = true <-> x <= y.
Proof. intros. unfold is_le. destruct (Rle_dec _ _); split; (discriminate || contradiction || auto). Qed.
Lemma is_lt_iff : forall x y, is_lt x y = true <-> x < y.
Proof. intros. unfold is_lt. destruct (Rlt_dec _ _); split; (discriminate || contradiction || auto). Qed.
Lemma is_le_niff : forall x y, is_le x y = false <-> y < x.
Proof. intros. unfold is_le. destruct (Rle_dec _ _); split; try discriminate; try reflexivity; lra. Qed.
Lemma is_lt_niff : forall x y, is_lt x y = false <-> y <= x.
Proof. intros. unfold is_lt. destruct (Rlt_dec _ _); split; try discriminate; try reflexivity; lra. Qed.

(** ** Wrapping *)
Section Wrap.
Variables a b : R.
Hypothesis Hab : a < b.
Definition wrapped (x : R) : R := x - IZR (Zfloor ((x - a) / (b - a))) * (b - a).
Lemma wrapped_range : forall x, a <= wrapped x < b.
Proof.
  intros x. unfold wrapped. set (y := (x - a) / (b - a)). assert (x = a + y * (b - a)) by (unfold y; field; lra). pose proof (Zfloor_lb y). pose proof (Zfloor_ub y). rewrite H. split; nra.
Qed.
Lemma wrapped_plus : forall x m, wrapped (x + IZR m * (b - a)) = wrapped x.
Proof.
  intros x m. unfold wrapped. replace ((x + IZR m * (b - a) - a) / (b - a)) with ((x - a) / (b - a) + IZR m) by (field; lra).
  replace (Zfloor ((x - a) / (b - a) + IZR m)) with (Zfloor ((x - a) / (b - a)) + m)%Z; [rewrite plus_IZR; lra|].
  symmetry. apply Zfloor_imp. rewrite !plus_IZR. pose proof (Zfloor_lb ((x - a) / (b - a))). pose proof (Zfloor_ub ((x - a) / (b - a))). lra.
Qed.
Lemma wrapped_id : forall x, a <= x < b -> wrapped x = x.
Proof.
  intros x H. unfold wrapped. replace (Zfloor ((x - a) / (b - a))) with 0%Z; [lra|]. symmetry. apply Zfloor_imp. cbn [Z.add]. split.
  - apply Rmult_le_pos; [lra|]. apply Rlt_le, Rinv_0_lt_compat. lra.
  - apply Rmult_lt_reg_r with (b - a); [lra|]. unfold Rdiv. rewrite Rmult_assoc, Rinv_l; lra.
Qed.
Lemma wrapped_cong : forall x, exists m, wrapped x = x + IZR m * (b - a).
Proof. intros x. exists (- Zfloor ((x - a) / (b - a)))%Z. unfold wrapped. rewrite opp_IZR. lra. Qed.

Lemma wrap_down_val : forall t, exists t', ends (fun n => wrap_down exact a b n t) t' /\ t' < b /\ (exists m, t' = t + IZR m * (b - a)) /\ (b <= t -> a <= t') /\ (t < b -> t' = t).
Proof.
  intros t. assert (Hk : exists k, t - INR k * (b - a) < b).
  { destruct (Absn_LoopProofs.steps (b - a) (t - b)) as [k Hk]; [lra|]. exists k. lra. }
  destruct Hk as [k Hk]. revert t Hk. induction k as [|k IH]; intros t Hk.
  - cbn [INR] in Hk. exists t. split; [exists 0%nat; intros n _; destruct n; cbn [wrap_down]; cbn [exact t_le]; rewrite R_le_false by lra; reflexivity|]. split; [lra|]. split; [exists 0%Z; lra|]. split; [lra|reflexivity].
  - destruct (Rlt_dec t b) as [C|C].
    { exists t. split; [exists 0%nat; intros n _; destruct n; cbn [wrap_down]; cbn [exact t_le]; rewrite R_le_false by lra; reflexivity|]. split; [lra|]. split; [exists 0%Z; lra|]. split; [lra|reflexivity]. }
    destruct (IH (t - (b - a))) as (t' & (n0 & Hn0) & B & (m & Hm) & Lo & Id); [rewrite S_INR in Hk; lra|]. exists t'. split.
    { exists (S n0). intros n Hn. destruct n as [|n]; [lia|]. cbn [wrap_down]. cbn [exact t_le t_sub]. rewrite R_le_true by lra. apply Hn0. lia. }
    split; [exact B|]. split; [exists (m - 1)%Z; rewrite Hm, minus_IZR; lra|]. split; [|lra]. intros _. destruct (Rlt_dec (t - (b - a)) b) as [D|D]; [rewrite Id by exact D; lra|apply Lo; lra].
Qed.
Lemma wrap_up_val : forall t, t < b -> exists t', ends (fun n => wrap_up exact a b n t) t' /\ a <= t' < b /\ (exists m, t' = t + IZR m * (b - a)).
Proof.
  intros t. assert (Hk : exists k, a <= t + INR k * (b - a)).
  { destruct (Absn_LoopProofs.steps (b - a) (a - t)) as [k Hk]; [lra|]. exists k. lra. }
  destruct Hk as [k Hk]. revert t Hk. induction k as [|k IH]; intros t Hk Ht.
  - cbn [INR] in Hk. exists t. split; [exists 0%nat; intros n _; destruct n; cbn [wrap_up]; cbn [exact t_lt]; rewrite R_lt_false by lra; reflexivity|]. split; [lra|]. exists 0%Z; lra.
  - destruct (Rlt_dec t a) as [C|C].
    2: { exists t. split; [exists 0%nat; intros n _; destruct n; cbn [wrap_up]; cbn [exact t_lt]; rewrite R_lt_false by lra; reflexivity|]. split; [lra|]. exists 0%Z; lra. }
    destruct (IH (t + (b - a))) as (t' & (n0 & Hn0) & B & (m & Hm)); [rewrite S_INR in Hk; lra|lra|]. exists t'. split.
    { exists (S n0). intros n Hn. destruct n as [|n]; [lia|]. cbn [wrap_up]. cbn [exact t_lt t_add t_sub]. rewrite R_lt_true by lra. apply Hn0. lia. }
    split; [exact B|]. exists (m + 1)%Z. rewrite Hm, plus_IZR. lra.
Qed.
Lemma wrap_both : forall t, ends (fun n => do t1 <- wrap_down exact a b n t; wrap_up exact a b n t1) (wrapped t).
Proof.
  intros t. destruct (wrap_down_val t) as (t1 & E1 & B1 & (m1 & M1) & _). destruct (wrap_up_val t1 B1) as (t2 & E2 & B2 & (m2 & M2)).
  replace (wrapped t) with t2; [eapply ends_bind; [exact E1|exact E2]|].
  rewrite <- (wrapped_id t2 B2), M2, wrapped_plus, M1, wrapped_plus. reflexivity.
Qed.
End Wrap.

(** ** Frames *)
Section Frames.
Variables (sr brate : R) (L : nat).
Hypothesis Hsr : 0 < sr.
Hypothesis Hbr : 0 < brate.
Hypothesis HL : (0 < L)%nat.
Variable almost_equal : R -> R -> bool.
Variable almost_zero : R -> bool.
(** the comparisons with tolerance are used where exact numbers are equal *)
Hypothesis Heq : forall x y, almost_equal x y = true -> x = y.
Hypothesis Hzero : forall x, almost_zero x = true -> x = 0.
Variable call : start_call.
Variable lp : loop.
Hypothesis Hloop : l_on lp = true -> l_start lp < l_end lp.
Variables (rate stop : nat -> R).

Notation time := (time sr).
Notation D := (length_s brate L).
Notation first := (first sr call).
Notation lead := (lead sr call).
Notation rate_at := (rate_at rate).
Notation origin := (origin sr brate L call lp rate).
Notation unlooped := (unlooped sr brate L call lp rate).
Notation played := (played sr call rate).
Notation enters := (enters sr brate L call lp rate).
Notation entered := (entered sr brate L call lp rate).
Notation position := (position sr brate L call lp rate).
Notation alive := (alive sr brate L call lp rate stop).
Notation over := (over sr brate L call lp rate stop).
Notation sounding := (sounding sr brate L call lp rate stop).
Notation d := (c_duration call).
Notation when := (c_when call).

Lemma time_lt : forall m n, (m < n)%nat -> time m < time n.
Proof. intros. unfold Absn_SoundSpec.time. apply Rmult_lt_compat_r; [apply Rinv_0_lt_compat; exact Hsr|apply lt_INR; assumption]. Qed.
Lemma time_le : forall m n, (m <= n)%nat -> time m <= time n.
Proof. intros m n H. destruct (Nat.eq_dec m n) as [->|]; [lra|]. apply Rlt_le, time_lt. lia. Qed.
Lemma time_S : forall n, time (S n) = time n + / sr.
Proof. intros. unfold Absn_SoundSpec.time. rewrite S_INR. lra. Qed.
Lemma D_pos : 0 < D.
Proof. unfold length_s. apply Rdiv_lt_0_compat; [apply lt_0_INR; exact HL|exact Hbr]. Qed.

Lemma first_call : (128 * c_quanta call <= first)%nat.
Proof. unfold Absn_SoundSpec.first. lia. Qed.
Lemma before_first : forall n, (128 * c_quanta call <= n < first)%nat -> time n < when.
Proof.
  intros n [H1 H2]. unfold Absn_SoundSpec.first in H2. assert (C : (Z.of_nat n < Zceil (when * sr))%Z) by lia. assert (C1 : (Z.of_nat n <= Zceil (when * sr) - 1)%Z) by lia. apply IZR_le in C1. rewrite minus_IZR in C1.
  pose proof (Zceil_lb (when * sr)). unfold Absn_SoundSpec.time. rewrite INR_IZR_INZ. apply Rmult_lt_reg_r with sr; [exact Hsr|]. unfold Rdiv. rewrite Rmult_assoc, Rinv_l by lra. lra.
Qed.
Lemma from_first : forall n, (first <= n)%nat -> when <= time n.
Proof.
  intros n H. assert (C : (Zceil (when * sr) <= Z.of_nat n)%Z) by (unfold Absn_SoundSpec.first in H; lia). apply IZR_le in C. pose proof (Zceil_ub (when * sr)). unfold Absn_SoundSpec.time. rewrite INR_IZR_INZ.
  apply Rmult_le_reg_r with sr; [exact Hsr|]. unfold Rdiv. rewrite Rmult_assoc, Rinv_l by lra. lra.
Qed.
(** the first frame of a quantum that begins after the start *)
Lemma late_first : forall q, (c_quanta call <= q)%nat -> when < time (128 * q) -> (first <= 128 * q)%nat.
Proof. intros q Hq H. destruct (Nat.le_gt_cases first (128 * q)) as [C|C]; [exact C|]. exfalso. assert (time (128 * q) < when) by (apply before_first; lia). lra. Qed.

(** ** The state *)
Definition before (n : nat) : bool := existsb enters (seq first (n - first)).
Lemma before_S : forall n, (first <= n)%nat -> before (S n) = before n || enters n.
Proof. intros n H. unfold before. replace (S n - first)%nat with (n - first + 1)%nat by lia. rewrite seq_app, existsb_app. cbn [seq existsb]. rewrite orb_false_r. replace (first + (n - first))%nat with n by lia. reflexivity. Qed.
Lemma entered_before : forall n, entered n = before (S n).
Proof. reflexivity. Qed.
Definition len := l_end lp - l_start lp.
Definition cong (x y : R) : Prop := exists m, x = y + IZR m * len.
Definition loop_rel (n : nat) (ent : bool) (t : R) : Prop :=
  if l_on lp then
    (ent = true /\ before n = true /\ cong t (unlooped n)) \/ (ent = false /\ before n = false /\ t = unlooped n)
    \/ (ent = false /\ before n = true /\ origin < l_end lp /\ l_start lp <= t /\ cong t (unlooped n))
  else t = unlooped n.
(** at frame [n], in or at the beginning of quantum [q], before the start *)
Definition unborn (q n : nat) (p : @playback R) : Prop :=
  (n <= first)%nat /\ exists st, p = mk_playback st (c_offset call) 0 false false 0 /\ ((st = when /\ time (128 * q) <= when) \/ (st = time (128 * q) /\ first = (128 * q)%nat)).
Definition playing (n : nat) (p : @playback R) : Prop :=
  p_started p = true /\ p_start p <= time first /\ p_offset p = origin /\ (first <= n)%nat /\ p_elapsed p + Rabs (rate_at n / sr) = played (S n) /\ loop_rel n (p_entered p) (p_time p).
Definition running (n : nat) (p : @playback R) : Prop := (first < n)%nat /\ playing n p.
Definition dead (q n : nat) (p : @playback R) : Prop := (first <= n)%nat /\ (stop q <= time n \/ (d <= p_elapsed p /\ d <= played n)).

Lemma unlooped_S : forall n, (first <= n)%nat -> unlooped (S n) = unlooped n + rate_at n / sr.
Proof. intros n H. unfold Absn_SoundSpec.unlooped. replace (S n - first)%nat with (S (n - first)) by lia. cbn [travelled]. replace (first + (n - first))%nat with n by lia. lra. Qed.
Lemma played_S : forall n, (first < n)%nat -> played (S n) = played n + Rabs (rate_at n / sr).
Proof.
  intros n H. unfold Absn_SoundSpec.played. destruct (Nat.leb_spec (S n) first); [lia|]. destruct (Nat.leb_spec n first); [lia|]. replace (S n - first)%nat with (S (n - first)) by lia. cbn [distance]. replace (first + (n - first))%nat with n by lia. lra.
Qed.
Lemma played_first : played (S first) = Rabs (lead * rate_at first) + Rabs (rate_at first / sr).
Proof. unfold Absn_SoundSpec.played. destruct (Nat.leb_spec (S first) first); [lia|]. replace (S first - first)%nat with 1%nat by lia. cbn [distance]. rewrite Nat.add_0_r. lra. Qed.
Lemma played_le : forall n, played n <= played (S n).
Proof.
  intros n. destruct (Nat.lt_trichotomy n first) as [H|[->|H]].
  - unfold Absn_SoundSpec.played. destruct (Nat.leb_spec (S n) first); [|lia]. destruct (Nat.leb_spec n first); [lra|lia].
  - rewrite played_first. unfold Absn_SoundSpec.played. rewrite Nat.leb_refl. pose proof (Rabs_pos (lead * rate_at first)). pose proof (Rabs_pos (rate_at first / sr)). lra.
  - rewrite played_S by exact H. pose proof (Rabs_pos (rate_at n / sr)). lra.
Qed.
Lemma played_mono : forall m n, (m <= n)%nat -> played m <= played n.
Proof. intros m n H. induction H; [lra|]. pose proof (played_le m0). lra. Qed.
Lemma running_elapsed : forall n p, running n p -> p_elapsed p = played n.
Proof. intros n p [H (_ & _ & _ & _ & E & _)]. rewrite played_S in E by exact H. lra. Qed.

Definition info (n : nat) : option (nat * R) :=
  if sounding n && is_le 0 (position n) && is_lt (position n) D then Some (Z.to_nat (Zfloor (position n * brate)), position n * brate - IZR (Zfloor (position n * brate))) else None.

(** the loop *)
Lemma loop_step : forall n p, playing n p -> l_on lp = true ->
  ends (fun fuel => loop_position exact almost_equal fuel (l_start lp) (l_end lp) p) (p_enter (p_move p (position n)) (entered n)).
Proof.
  intros n p (_ & _ & Ho & Hn & _ & Hr) On. specialize (Hloop On). unfold loop_rel in Hr. rewrite On in Hr. unfold loop_position.
  replace (if almost_equal (p_time p) (l_end lp) then l_end lp else p_time p) with (p_time p) by (destruct (almost_equal (p_time p) (l_end lp)) eqn:E; [apply Heq in E; exact E|reflexivity]).
  replace (if almost_equal (p_time p) (l_start lp) then l_start lp else p_time p) with (p_time p) by (destruct (almost_equal (p_time p) (l_start lp)) eqn:E; [apply Heq in E; exact E|reflexivity]).
  cbv zeta. rewrite Ho. cbn [exact t_lt t_le]. change R_le with is_le; change R_lt with is_lt.
  set (e := p_entered p || _ || _). assert (E : e = entered n /\ (e = true -> cong (p_time p) (unlooped n)) /\ (e = false -> p_time p = unlooped n)).
  { unfold e. rewrite entered_before, before_S by exact Hn. destruct Hr as [(-> & -> & C)|[(-> & -> & C)|(-> & -> & O & S & C)]].
    - cbn [orb]. split; [reflexivity|]. split; [intros _; exact C|discriminate].
    - cbn [orb]. rewrite C. unfold Absn_SoundSpec.enters. split; [reflexivity|]. split; [intros _; exists 0%Z; lra|intros _; reflexivity].
    - cbn [orb]. rewrite (is_lt_true _ _ O), (is_le_true _ _ S). cbn [andb orb]. split; [reflexivity|]. split; [intros _; exact C|discriminate]. }
  clearbody e. destruct E as (E & E1 & E2). rewrite <- E. unfold Absn_SoundSpec.position. rewrite On, <- E. cbn [andb]. destruct e.
  - destruct (E1 eq_refl) as [m Hm]. eapply ends_bind; [|apply ends_ok].
    replace (wrap lp (unlooped n)) with (wrapped (l_start lp) (l_end lp) (p_time p)); [apply wrap_both; exact Hloop|].
    rewrite Hm. change len with (l_end lp - l_start lp). rewrite (wrapped_plus _ _ Hloop). reflexivity.
  - rewrite <- (E2 eq_refl). eapply ends_bind; [apply ends_ok|apply ends_ok].
Qed.
Lemma position_rel : forall n, (first <= n)%nat -> loop_rel (S n) (entered n) (position n + rate_at n / sr) \/ l_on lp = false.
Proof.
  intros n Hn. destruct (l_on lp) eqn:On; [left|right; reflexivity]. specialize (Hloop eq_refl). unfold loop_rel. rewrite On, <- entered_before, unlooped_S by exact Hn. unfold Absn_SoundSpec.position. rewrite On. cbn [andb]. destruct (entered n) eqn:E.
  - left. split; [reflexivity|]. split; [reflexivity|]. destruct (wrapped_cong (l_start lp) (l_end lp) (unlooped n)) as [m Hm]. exists m. change (wrap lp (unlooped n)) with (wrapped (l_start lp) (l_end lp) (unlooped n)). rewrite Hm. unfold len. lra.
  - right. left. auto.
Qed.
Lemma position_off : forall n, l_on lp = false -> position n = unlooped n.
Proof. intros n H. unfold Absn_SoundSpec.position. rewrite H. reflexivity. Qed.

Lemma quantum_of : forall q n, (128 * q <= n < 128 * q + 128)%nat -> (n / 128 = q)%nat.
Proof. intros q n H. symmetry. apply (Nat.div_unique n 128 q (n - 128 * q)); lia. Qed.

Lemma begin_step : forall q p ls le, (128 * q <= first < 128 * q + 128)%nat -> unborn q first p -> (l_on lp = true -> ls = l_start lp /\ le = l_end lp) ->
  playing first (begin exact (l_on lp) ls le (rate q) D p (time first)).
Proof.
  intros q p ls le Hq (_ & st & -> & Hst) Hl. assert (Eq : (first / 128 = q)%nat) by (apply quantum_of; exact Hq).
  assert (Hlead : time first - st = lead).
  { unfold Absn_SoundSpec.lead. destruct Hst as [[-> Hw]|[-> Hf]].
    - destruct (Nat.eqb_spec (first mod 128) 0) as [E|E]; [|reflexivity]. assert (first = 128 * q)%nat by (rewrite (Nat.div_mod first 128), E, Eq by discriminate; lia). pose proof (from_first first (Nat.le_refl _)). rewrite <- H in Hw. lra.
    - replace (first mod 128)%nat with 0%nat by (rewrite Hf, (Nat.mul_comm 128 q), Nat.mod_mul by discriminate; reflexivity). cbn [Nat.eqb]. rewrite Hf. lra. }
  assert (Hst1 : st <= time first) by (destruct Hst as [[-> _]|[-> ->]]; [apply from_first; lia|lra]).
  assert (Ho : p_offset (begin exact (l_on lp) ls le (rate q) D (mk_playback st (c_offset call) 0 false false 0) (time first)) = origin).
  { unfold begin. cbn [p_offset p_start]. unfold t_zero. cbn [exact t_sub t_add t_mul t_min t_max t_le t_lt t_of_Z]. rewrite Hlead. unfold Absn_SoundSpec.origin, Absn_SoundSpec.rate_at. rewrite Eq. change R_le with is_le; change R_lt with is_lt.
    set (o := Rmin _ _). destruct (l_on lp); [|reflexivity]. destruct (Hl eq_refl) as [-> ->]. cbn [andb]. unfold is_le, is_lt, R_lt, R_le. destruct (Rle_dec 0 (rate q)); destruct (Rlt_dec (rate q) 0); try lra; cbn [andb].
    - destruct (Rlt_dec (l_end lp) o); [rewrite Rmin_right by lra|rewrite Rmin_left by lra]; reflexivity.
    - destruct (Rlt_dec o (l_start lp)); [rewrite Rmax_right by lra|rewrite Rmax_left by lra]; reflexivity. }
  split; [reflexivity|]. split; [exact Hst1|]. split; [exact Ho|]. split; [lia|]. split.
  - rewrite played_first. unfold begin. cbn [p_elapsed p_start exact t_abs t_mul t_sub]. rewrite Hlead. unfold Absn_SoundSpec.rate_at. rewrite Eq. reflexivity.
  - change (p_time (begin exact (l_on lp) ls le (rate q) D (mk_playback st (c_offset call) 0 false false 0) (time first))) with (p_offset (begin exact (l_on lp) ls le (rate q) D (mk_playback st (c_offset call) 0 false false 0) (time first))).
    change (p_entered (begin _ _ _ _ _ _ _ _)) with false. rewrite Ho. assert (U : unlooped first = origin) by (unfold Absn_SoundSpec.unlooped; rewrite Nat.sub_diag; cbn [travelled]; lra).
    unfold loop_rel. rewrite U. destruct (l_on lp); [|reflexivity]. right. left. split; [reflexivity|]. split; [|reflexivity]. unfold before. rewrite Nat.sub_diag. reflexivity.
Qed.

Definition good (q n : nat) (p : @playback R) : Prop := unborn q n p \/ running n p \/ dead q n p.

Lemma frame_step : forall q n p ls le ratio, (128 * q <= n < 128 * q + 128)%nat -> (c_quanta call <= q)%nat -> alive q = true -> good q n p -> (l_on lp = true -> ls = l_start lp /\ le = l_end lp) -> ratio * sr = brate ->
  exists p', ends (fun fuel => slow_sample exact sr almost_equal almost_zero fuel (stop q) d (l_on lp) ls le (rate q) D ratio L p (time n)) (p', info n) /\ good q (S n) p'.
Proof.
  intros q n p ls le ratio Hn Hcq Hal Hg Hl Hratio. assert (Eq : (n / 128 = q)%nat) by (apply quantum_of; exact Hn). unfold slow_sample.
  assert (Hsnd : sounding n = ((first <=? n)%nat && is_lt (time n) (stop q) && is_lt (played n) d)) by (unfold Absn_SoundSpec.sounding; rewrite Eq, Hal; destruct (first <=? n)%nat; reflexivity).
  replace (if negb (p_started p) && almost_equal (time n) (p_start p) then p_at p (time n) else p) with p.
  2: { destruct (p_started p); [reflexivity|]. cbn [negb andb]. destruct (almost_equal (time n) (p_start p)) eqn:E; [|reflexivity]. apply Heq in E. rewrite E. destruct p; reflexivity. }
  cbv zeta. replace (if almost_equal (p_elapsed p) d then p_elapse p d else p) with p.
  2: { destruct (almost_equal (p_elapsed p) d) eqn:E; [|reflexivity]. apply Heq in E. rewrite <- E. destruct p; reflexivity. }
  cbn [exact t_lt t_le]. change R_le with is_le; change R_lt with is_lt.
  assert (Quiet : (is_lt (time n) (p_start p) || is_le (stop q) (time n) || is_le d (p_elapsed p)) = true -> info n = None -> good q (S n) p ->
     exists p', ends (fun fuel => if is_lt (time n) (p_start p) || is_le (stop q) (time n) || is_le d (p_elapsed p) then Ok (p, None)
        else do p <- (if l_on lp then loop_position exact almost_equal fuel ls le (if p_started p then p else begin exact (l_on lp) ls le (rate q) D p (time n)) else Ok (if p_started p then p else begin exact (l_on lp) ls le (rate q) D p (time n)));
          Ok (p_elapse (p_move (if almost_zero (p_time p) then p_move p (t_zero exact) else p) (t_add exact (p_time (if almost_zero (p_time p) then p_move p (t_zero exact) else p)) (t_mul exact (dt exact sr) (rate q))))
                (t_add exact (p_elapsed (if almost_zero (p_time p) then p_move p (t_zero exact) else p)) (t_abs exact (t_mul exact (dt exact sr) (rate q)))),
              if is_le (t_zero exact) (p_time (if almost_zero (p_time p) then p_move p (t_zero exact) else p)) && is_lt (p_time (if almost_zero (p_time p) then p_move p (t_zero exact) else p)) D
              then if (t_to_Z exact (t_floor exact (t_mul exact (t_mul exact (p_time (if almost_zero (p_time p) then p_move p (t_zero exact) else p)) ratio) (t_of_v exact sr))) <? Z.of_nat L)%Z
                   then Some (Z.to_nat (t_to_Z exact (t_floor exact (t_mul exact (t_mul exact (p_time (if almost_zero (p_time p) then p_move p (t_zero exact) else p)) ratio) (t_of_v exact sr)))),
                      t_sub exact (t_mul exact (t_mul exact (p_time (if almost_zero (p_time p) then p_move p (t_zero exact) else p)) ratio) (t_of_v exact sr)) (t_floor exact (t_mul exact (t_mul exact (p_time (if almost_zero (p_time p) then p_move p (t_zero exact) else p)) ratio) (t_of_v exact sr))))
                   else None
              else None)) (p', info n) /\ good q (S n) p').
  { intros E I G. exists p. rewrite E, I. split; [apply ends_ok|exact G]. }
  (* before the first frame *)
  destruct (Nat.lt_ge_cases n first) as [B|B].
  { assert (I : info n = None) by (unfold info; rewrite Hsnd; destruct (Nat.leb_spec first n); [lia|reflexivity]).
    destruct Hg as [(_ & st & -> & Hst)|[[G _]|[G _]]]; [|lia|lia]. apply Quiet; [|exact I|].
    - cbn [p_start]. rewrite is_lt_true; [reflexivity|]. destruct Hst as [[-> _]|[-> Hf]]; [|lia]. apply before_first. lia.
    - left. split; [lia|]. exists st. split; [reflexivity|exact Hst]. }
  (* silent by the stop time or the duration *)
  assert (Dead : dead q n p -> info n = None /\ (is_lt (time n) (p_start p) || is_le (stop q) (time n) || is_le d (p_elapsed p)) = true /\ good q (S n) p).
  { intros [G0 G]. split; [|split].
    - unfold info. rewrite Hsnd. destruct G as [G|[_ G]]; [rewrite (is_lt_false (time n)) by exact G; rewrite andb_false_r; reflexivity|rewrite (is_lt_false (played n)) by exact G; rewrite andb_false_r; reflexivity].
    - destruct G as [G|[G _]]; rewrite (is_le_true _ _ G), ?orb_true_r; reflexivity.
    - right. right. split; [lia|]. destruct G as [G|[G1 G2]]; [left; pose proof (time_le n (S n) (Nat.le_succ_diag_r n)); lra|right; split; [exact G1|pose proof (played_le n); lra]]. }
  assert (Hg' : dead q n p \/ (is_lt (time n) (p_start p) || is_le (stop q) (time n) || is_le d (p_elapsed p)) = false /\ sounding n = true /\ (unborn q n p \/ running n p)).
  { assert (El : p_elapsed p = played n /\ p_start p <= time n \/ dead q n p).
    { destruct Hg as [(Hle & st & -> & Hst)|[[G P]|G]]; [left|left|right; exact G].
      - assert (n = first) by lia. subst n. cbn [p_start p_elapsed]. unfold Absn_SoundSpec.played. rewrite Nat.leb_refl. split; [reflexivity|]. destruct Hst as [[-> _]|[-> <-]]; [apply from_first; lia|lra].
      - split; [exact (running_elapsed n p (conj G P))|]. destruct P as (_ & P & _). pose proof (time_lt first n G). lra. }
    destruct El as [[El Es]|Dd]; [|left; exact Dd]. rewrite El, (is_lt_false (time n)) by exact Es. cbn [orb].
    destruct (Rle_dec (stop q) (time n)) as [C|C]; [left; split; [exact B|left; exact C]|]. destruct (Rle_dec d (played n)) as [C2|C2]; [left; split; [exact B|right; rewrite El; split; exact C2]|].
    assert (Hno : ~ dead q n p) by (intros [_ [G|[_ G]]]; [exact (C G)|exact (C2 G)]). right. rewrite !is_le_false by lra. split; [reflexivity|]. split.
    - rewrite Hsnd. rewrite !is_lt_true by lra. destruct (Nat.leb_spec first n); [reflexivity|lia].
    - destruct Hg as [G|[G|G]]; [left; exact G|right; exact G|contradiction]. }
  destruct Hg' as [Dd|(Gate & Hs & Hg')]; [destruct (Dead Dd) as (I & E & G); apply Quiet; assumption|]. clear Quiet Dead Hg. rewrite Gate.
  (* the frame sounds *)
  set (p1 := if p_started p then p else begin exact (l_on lp) ls le (rate q) D p (time n)).
  assert (P1 : playing n p1).
  { destruct Hg' as [G|[G P]].
    - assert (n = first) by (destruct G as [G _]; lia). subst n. unfold p1. replace (p_started p) with false by (destruct G as (_ & st & -> & _); reflexivity). apply begin_step; assumption.
    - unfold p1. replace (p_started p) with true by (symmetry; apply P). exact P. }
  clearbody p1.
  assert (Lp : ends (fun fuel => if l_on lp then loop_position exact almost_equal fuel ls le p1 else Ok p1) (if l_on lp then p_enter (p_move p1 (position n)) (entered n) else p1)).
  { assert (On : l_on lp = true \/ l_on lp = false) by (destruct (l_on lp); [left|right]; reflexivity). destruct On as [On|On]; rewrite On; [|apply ends_ok]. destruct (Hl On) as [-> ->]. apply loop_step; assumption. }
  set (p2 := if l_on lp then p_enter (p_move p1 (position n)) (entered n) else p1) in *.
  assert (T2 : p_time p2 = position n). { unfold p2. destruct (l_on lp) eqn:On; [reflexivity|]. rewrite position_off by exact On. destruct P1 as (_ & _ & _ & _ & _ & Hr). unfold loop_rel in Hr. rewrite On in Hr. exact Hr. }
  assert (E2 : p_elapsed p2 = p_elapsed p1) by (unfold p2; destruct (l_on lp); reflexivity).
  eexists. split.
  - eapply ends_bind; [exact Lp|]. replace (if almost_zero (p_time p2) then p_move p2 (t_zero exact) else p2) with p2 by (destruct (almost_zero (p_time p2)) eqn:E; [apply Hzero in E; unfold t_zero; cbn [exact t_of_Z]; rewrite <- E; destruct p2; reflexivity|reflexivity]).
    rewrite T2. unfold t_zero. cbn [exact t_add t_mul t_of_Z t_of_v t_floor t_to_Z t_sub t_abs].
    match goal with |- ends (fun _ => Ok (?x, ?y)) _ => replace y with (info n); [apply ends_ok|] end.
    unfold info. rewrite Hs. cbn [andb]. destruct (is_le 0 (position n)) eqn:C1; [|reflexivity]. destruct (is_lt (position n) D) eqn:C2; [|reflexivity]. cbn [andb]. apply is_le_iff in C1. apply is_lt_iff in C2.
    rewrite Rmult_assoc, Hratio. set (y := position n * brate). assert (Y0 : 0 <= y) by (apply Rmult_le_pos; lra). assert (Y1 : y < INR L). { unfold y, length_s in *. apply Rmult_lt_compat_r with (r := brate) in C2; [|exact Hbr]. unfold Rdiv in C2. rewrite Rmult_assoc, Rinv_l in C2 by lra. lra. }
    assert (F0 : (0 <= Zfloor y)%Z) by (apply Zfloor_lub; exact Y0). unfold R_to_Z. rewrite Ztrunc_IZR, Z.max_r by exact F0.
    assert (F1 : (Zfloor y < Z.of_nat L)%Z). { apply lt_IZR. rewrite <- INR_IZR_INZ. pose proof (Zfloor_lb y). lra. }
    replace (Zfloor y <? Z.of_nat L)%Z with true by (symmetry; apply Z.ltb_lt; exact F1). reflexivity.
  - right. left. split; [lia|]. replace (if almost_zero (p_time p2) then p_move p2 (t_zero exact) else p2) with p2 by (destruct (almost_zero (p_time p2)) eqn:E; [apply Hzero in E; unfold t_zero; cbn [exact t_of_Z]; rewrite <- E; destruct p2; reflexivity|reflexivity]).
    assert (Er : rate_at n = rate q) by (unfold Absn_SoundSpec.rate_at; rewrite Eq; reflexivity).
    assert (Ei : dt exact sr * rate q = rate_at n / sr). { rewrite Er. unfold dt, t_one. cbn [exact t_mul t_div t_of_Z t_of_v]. field. lra. }
    rewrite Ei. destruct P1 as (S1 & S2 & S3 & S4 & S5 & S6).
    unfold playing. cbn [p_elapse p_move p_started p_start p_offset p_elapsed p_entered p_time]. split; [unfold p2; destruct (l_on lp); exact S1|]. split; [unfold p2; destruct (l_on lp); exact S2|]. split; [unfold p2; destruct (l_on lp); exact S3|]. split; [lia|]. split.
    + rewrite E2, S5. symmetry. apply played_S. lia.
    + destruct (position_rel n S4) as [Hr|Off].
      * unfold p2. destruct (l_on lp) eqn:On; [exact Hr|]. unfold loop_rel in *. rewrite On in *. exact Hr.
      * unfold loop_rel. rewrite Off, position_off, unlooped_S by assumption. reflexivity.
Qed.

Lemma frames_run : forall q ls le ratio, (c_quanta call <= q)%nat -> alive q = true -> (l_on lp = true -> ls = l_start lp /\ le = l_end lp) -> ratio * sr = brate ->
  forall m i p, (i + m <= 128)%nat -> good q (128 * q + i) p ->
  exists p', ends (fun fuel => slow_samples exact sr almost_equal almost_zero fuel (stop q) d (l_on lp) ls le (rate q) D ratio L m i p (time (128 * q))) (p', map (fun k => info (128 * q + k)) (seq i m)) /\ good q (128 * q + (i + m)) p'.
Proof.
  intros q ls le ratio Hcq Hal Hl Hratio. induction m as [|m IH]; intros i p Him Hg; cbn [slow_samples seq map].
  - exists p. rewrite Nat.add_0_r. split; [apply ends_ok|exact Hg].
  - destruct (frame_step q (128 * q + i) p ls le ratio) as (p1 & E1 & G1); try assumption; [lia|].
    destruct (IH (S i) p1) as (p2 & E2 & G2); [lia|replace (128 * q + S i)%nat with (S (128 * q + i)) by lia; exact G1|].
    exists p2. split; [|replace (i + S m)%nat with (S i + m)%nat by lia; exact G2].
    assert (Et : t_add exact (time (128 * q)) (t_mul exact (t_of_Z exact (Z.of_nat i)) (dt exact sr)) = time (128 * q + i)).
    { unfold dt, t_one. cbn [exact t_add t_mul t_of_Z t_div t_of_v]. rewrite <- INR_IZR_INZ. unfold Absn_SoundSpec.time. rewrite plus_INR. field. lra. }
    rewrite Et. eapply ends_bind; [exact E1|]. cbn [fst snd]. eapply ends_bind; [exact E2|]. cbn [fst snd]. apply ends_ok.
Qed.

(** ** The samples *)
Notation continues := (continues brate lp rate).
Notation sample := (sample sr brate L call lp rate stop).
(** the loop continues inside the buffer *)
Definition loop_ok (q : nat) : Prop := l_on lp = true -> brate = sr /\ 0 <= l_start lp /\ l_start lp * brate <= INR L - 1 /\ (rate q < 0 -> l_end lp * brate < INR L /\ 0 <= l_end lp).

Lemma index_nth : forall (ch : list R) i, (i < length ch)%nat -> index ch i = Ok (nth i ch 0).
Proof. intros ch i H. unfold index. rewrite (nth_error_nth' ch 0) by exact H. reflexivity. Qed.
Lemma index_Z_nth : forall (ch : list R) z, (0 <= z < Z.of_nat (length ch))%Z -> index_Z ch z = Ok (nth (Z.to_nat z) ch 0).
Proof. intros ch z H. unfold index_Z. replace (z <? Z.of_nat (length ch))%Z with true by (symmetry; apply Z.ltb_lt; lia). apply index_nth. lia. Qed.

Lemma info_range : forall n i k, info n = Some (i, k) -> (i < L)%nat /\ 0 <= k < 1 /\ i = Z.to_nat (Zfloor (position n * brate)) /\ k = position n * brate - IZR (Zfloor (position n * brate)).
Proof.
  intros n i k E. unfold info in E. destruct (sounding n && is_le 0 (position n) && is_lt (position n) D) eqn:C; [|discriminate]. injection E as <- <-.
  apply andb_true_iff in C. destruct C as [C C2]. apply andb_true_iff in C. destruct C as [_ C1]. apply is_le_iff in C1. apply is_lt_iff in C2.
  set (y := position n * brate). assert (Y0 : 0 <= y) by (apply Rmult_le_pos; lra). assert (Y1 : y < INR L). { unfold y, length_s in *. apply Rmult_lt_compat_r with (r := brate) in C2; [|exact Hbr]. unfold Rdiv in C2. rewrite Rmult_assoc, Rinv_l in C2 by lra. lra. }
  assert (F0 : (0 <= Zfloor y)%Z) by (apply Zfloor_lub; exact Y0). assert (F1 : (Zfloor y < Z.of_nat L)%Z). { apply lt_IZR. rewrite <- INR_IZR_INZ. pose proof (Zfloor_lb y). lra. }
  split; [lia|]. split; [|split; reflexivity]. pose proof (Zfloor_lb y). pose proof (Zfloor_ub y). lra.
Qed.

Lemma interpolate_sound : forall q n ls le prate ch, (n / 128 = q)%nat -> length ch = L -> (l_on lp = true -> ls = l_start lp /\ le = l_end lp) -> (0 <= prate <-> 0 <= rate q) -> loop_ok q ->
  interpolate exact sr almost_equal (l_on lp) ls le prate ch (info n) = Ok (sample ch n).
Proof.
  intros q n ls le prate ch Eq Hl Hls Hsg Hok. unfold interpolate, Absn_SoundSpec.sample. destruct (info n) as [[i k]|] eqn:E.
  2: { unfold info in E. destruct (sounding n && is_le 0 (position n) && is_lt (position n) D); [discriminate|]. reflexivity. }
  assert (C : sounding n && is_le 0 (position n) && is_lt (position n) D = true) by (unfold info in E; destruct (sounding n && is_le 0 (position n) && is_lt (position n) D); [reflexivity|discriminate]).
  rewrite C. destruct (info_range n i k E) as (Hi & Hk & Ei & Ek). unfold read. cbv zeta. rewrite <- Ei, <- Ek. rewrite index_nth by lia. cbn [bind].
  rewrite Hl. assert (Fin : forall nx, Ok (v_of_t exact (t_fma exact (t_sub exact (t_one exact) k) (t_of_v exact (nth i ch 0)) (t_mul exact k nx))) = Ok ((1 - k) * nth i ch 0 + k * nx)) by (intros nx; reflexivity).
  destruct (Nat.ltb_spec (i + 1) L) as [In|Out].
  { rewrite (nth_error_nth' ch 0) by lia. cbn [bind]. apply Fin. }
  rewrite (proj2 (nth_error_None ch (i + 1))) by lia. unfold Absn_SoundSpec.continues, Absn_SoundSpec.rate_at. rewrite Eq.
  assert (On : l_on lp = true \/ l_on lp = false) by (destruct (l_on lp); [left|right]; reflexivity). destruct On as [On|On]; rewrite On.
  - destruct (Hls On) as [-> ->]. destruct (Hok On) as (Hb & H0 & H1 & H2). unfold t_zero. cbn [exact t_le t_of_Z]. unfold R_le, is_le.
    assert (Tr : forall y, 0 <= y -> R_to_Z y = Zfloor y). { intros y Hy. unfold R_to_Z. rewrite Ztrunc_floor by exact Hy. rewrite Z.max_r; [reflexivity|apply Zfloor_lub; exact Hy]. }
    destruct (Rle_dec 0 prate) as [Cp|Cp]; destruct (Rle_dec 0 (rate q)) as [Cr|Cr]; [|exfalso; apply Cr; apply Hsg; exact Cp|exfalso; apply Cp; apply Hsg; exact Cr|].
    + cbn [exact t_mul t_of_v t_eq t_floor t_to_Z]. rewrite <- Hb. set (y := l_start lp * brate) in *. assert (Y0 : 0 <= y) by (apply Rmult_le_pos; lra). rewrite Tr by exact Y0. unfold R_eq.
      assert (F0 : (0 <= Zfloor y)%Z) by (apply Zfloor_lub; exact Y0). assert (Hc : (Zceil y <= Z.of_nat L - 1)%Z) by (apply Zceil_glb; rewrite minus_IZR, <- INR_IZR_INZ; exact H1).
      assert (Ej : (if if Req_EM_T (IZR (Zfloor y)) y then true else false then Zfloor y else (Zfloor y + 1)%Z) = Zceil y).
      { destruct (Req_EM_T _ _) as [e|e]; [rewrite <- e at 2; rewrite Zceil_IZR; reflexivity|rewrite (Zceil_floor_neq y) by exact e; reflexivity]. }
      rewrite Ej. assert (0 <= Zceil y)%Z by (rewrite <- Ej; destruct (Req_EM_T _ _); lia). rewrite index_Z_nth by lia. cbn [bind]. apply Fin.
    + cbn [exact t_mul t_of_v t_to_Z]. rewrite <- Hb. destruct H2 as [H2 H3]; [lra|]. set (y := l_end lp * brate) in *. assert (Y0 : 0 <= y) by (apply Rmult_le_pos; lra). rewrite Tr by exact Y0. assert (F0 : (0 <= Zfloor y)%Z) by (apply Zfloor_lub; exact Y0).
      rewrite index_Z_nth by (split; [exact F0|]; apply lt_IZR; rewrite Hl, <- INR_IZR_INZ; pose proof (Zfloor_lb y); lra). cbn [bind]. apply Fin.
  - replace (almost_equal k (t_one exact)) with false by (symmetry; destruct (almost_equal k (t_one exact)) eqn:A; [apply Heq in A; unfold t_one in A; cbn [exact t_of_Z] in A; lra|reflexivity]). cbn [orb].
    destruct (Nat.eqb_spec i 0); [cbn [bind]; apply Fin|]. rewrite index_nth by lia. cbn [bind]. apply Fin.
Qed.

(** ** The slow track *)
Variable chs : list (list R).
Hypothesis Hchs : chs <> [] /\ Forall (fun ch => length ch = L) chs.
Variables rls rle : R.
Hypothesis Hraw : l_on lp = true -> if Rle_dec 0 rls then if Rlt_dec 0 rle then if Rlt_dec rls rle then l_start lp = rls /\ l_end lp = rle else l_start lp = 0 /\ l_end lp = D else l_start lp = 0 /\ l_end lp = D else l_start lp = 0 /\ l_end lp = D.
Let b := mk_buffer chs brate.
Lemma b_len : b_length b = L.
Proof. unfold b_length, b. cbn [b_channels]. destruct chs as [|c l]; [destruct Hchs; contradiction|]. destruct Hchs as [_ H]. apply Forall_cons_iff in H. apply H. Qed.
Lemma b_dur : b_duration exact b = D.
Proof. unfold b_duration. rewrite b_len. cbn [exact t_div t_of_Z t_of_v b b_rate]. rewrite <- INR_IZR_INZ. reflexivity. Qed.

Definition state (q : nat) (al : bool) (p : @playback R) : @absn R R := mk_absn p (stop q) d (Some b) (l_on lp) rls rle al false.
Definition outs (q : nat) : list (list R) := map (fun ch => map (fun i => sample ch (128 * q + i)) (seq 0 128)) chs.

Lemma good_enter : forall q n p, good q n p -> l_on lp = false -> good q n (p_enter p false).
Proof.
  intros q n p [(H & st & -> & Hst)|[[H (P1 & P2 & P3 & P4 & P5 & P6)]|H]] Off.
  - left. split; [exact H|]. exists st. split; [reflexivity|exact Hst].
  - right. left. split; [exact H|]. unfold playing. cbn [p_enter p_started p_start p_offset p_elapsed p_entered p_time]. repeat (split; [assumption|]). unfold loop_rel in *. rewrite Off in *. exact P6.
  - right. right. exact H.
Qed.

Lemma slow_track_sound : forall q al p prate, (c_quanta call <= q)%nat -> alive q = true -> good q (128 * q) p -> (0 <= prate <-> 0 <= rate q) -> loop_ok q ->
  exists p', ends (fun fuel => slow_track exact sr almost_equal almost_zero fuel (state q al p) b (time (128 * q)) (rate q) prate (brate / sr)) (state q al p', outs q) /\ good q (128 * (q + 1)) p'.
Proof.
  intros q al p prate Hcq Hal Hg Hsg Hok. unfold slow_track, state. cbn [a_loop a_stop a_duration a_play a_lstart a_lend]. rewrite b_len, b_dur.
  set (default := negb _). set (ls := if l_on lp then if default then t_zero exact else rls else t_zero exact). set (le := if l_on lp then if default then D else rle else t_zero exact).
  assert (Hl : l_on lp = true -> ls = l_start lp /\ le = l_end lp).
  { intros On. specialize (Hraw On). unfold ls, le, default, t_zero. rewrite On. cbn [exact t_le t_lt t_of_Z]. unfold R_le, R_lt. destruct (Rle_dec 0 rls); [|cbn [andb negb]; split; symmetry; apply Hraw]. destruct (Rlt_dec 0 rle); [|cbn [andb negb]; split; symmetry; apply Hraw].
    destruct (Rlt_dec rls rle); cbn [andb negb]; split; symmetry; apply Hraw. }
  clearbody ls le. clear default. cbv zeta.
  assert (Hg' : good q (128 * q + 0) (if l_on lp then p else p_enter p false)). { rewrite Nat.add_0_r. assert (On : l_on lp = true \/ l_on lp = false) by (destruct (l_on lp); [left|right]; reflexivity). destruct On as [On|On]; rewrite On; [exact Hg|apply good_enter; assumption]. }
  destruct (frames_run q ls le (brate / sr) Hcq Hal Hl ltac:(field; lra) 128 0 _ (Nat.le_refl _) Hg') as (p' & E & G). exists p'. split; [|replace (128 * (q + 1))%nat with (128 * q + (0 + 128))%nat by lia; exact G].
  eapply ends_bind; [exact E|]. cbn [fst snd]. destruct Hchs as [_ HF]. rewrite Forall_forall in HF.
  rewrite (map_res_ok _ _ _ (fun ch => map (fun i => sample ch (128 * q + i)) (seq 0 128))).
  - cbn [bind]. apply ends_ok.
  - intros ch Hin. specialize (HF ch Hin).
    assert (M : forall l, (forall i, In i l -> (i < 128)%nat) -> map_res (interpolate exact sr almost_equal (l_on lp) ls le prate ch) (map (fun k => info (128 * q + k)) l) = Ok (map (fun i => sample ch (128 * q + i)) l)).
    { induction l as [|i l IH]; intros Hlt; [reflexivity|]. cbn [map map_res]. rewrite (interpolate_sound q) by first [assumption | apply quantum_of; specialize (Hlt i (or_introl eq_refl)); lia]. cbn [bind]. rewrite IH by (intros j Hj; apply Hlt; right; exact Hj). reflexivity. }
    apply M. intros i Hi. apply in_seq in Hi. lia.
Qed.

(** ** The fast track *)
(** the source has been playing at unit rate from the beginning of the buffer, from the beginning of a quantum on *)
Definition lined (n : nat) (p : @playback R) : Prop :=
  p_started p = true /\ p_start p <= time first /\ p_offset p = 0 /\ p_entered p = false /\ (first <= n)%nat /\ p_elapsed p = played n /\ c_offset call = 0 /\ origin = 0 /\ lead = 0 /\
  brate = sr /\ rls = 0 /\ rle = D /\ played n = time (n - first) /\ unlooped n = time (n - first) /\
  exists j, p_time p = time j /\ if l_on lp then (j <= L)%nat /\ exists k, (n - first = j + k * L)%nat else j = (n - first)%nat.

Lemma lined_loop : forall n p, lined n p -> l_on lp = true -> l_start lp = 0 /\ l_end lp = D.
Proof.
  intros n p (_ & _ & _ & _ & _ & _ & _ & _ & _ & _ & E1 & E2 & _) On. pose proof D_pos. specialize (Hraw On). rewrite E1, E2 in Hraw. destruct (Rle_dec 0 0); [|lra]. destruct (Rlt_dec 0 D); [|lra]. exact Hraw.
Qed.
Lemma time_0 : time 0 = 0.
Proof. unfold Absn_SoundSpec.time. cbn [INR]. lra. Qed.
Lemma time_plus : forall m n, time (m + n) = time m + time n.
Proof. intros. unfold Absn_SoundSpec.time. rewrite plus_INR. lra. Qed.
Lemma time_inj : forall m n, time m = time n -> m = n.
Proof. intros m n H. destruct (Nat.lt_trichotomy m n) as [C|[C|C]]; [|exact C|]; apply time_lt in C; lra. Qed.
Lemma D_time : brate = sr -> D = time L.
Proof. intros E. unfold length_s. rewrite E. reflexivity. Qed.

Lemma lined_running : forall n p, lined n p -> (first < n)%nat -> running n p.
Proof.
  intros n p H Hn. pose proof (lined_loop n p H) as HLp. destruct H as (S1 & S2 & S3 & S4 & S5 & S6 & _ & S7 & S8 & S9 & _ & _ & S10 & S11 & j & Hj & S12). split; [exact Hn|]. split; [exact S1|]. split; [exact S2|]. split; [rewrite S3, S7; reflexivity|]. split; [exact S5|].
  split; [rewrite S6; symmetry; apply played_S; exact Hn|]. unfold loop_rel. rewrite S4, Hj. assert (On : l_on lp = true \/ l_on lp = false) by (destruct (l_on lp); [left|right]; reflexivity). destruct On as [On|On]; rewrite On in *.
  - destruct (HLp eq_refl) as [E1 E2]. pose proof D_pos. right. right. split; [reflexivity|]. split; [|split; [|split]].
    + unfold before. apply existsb_exists. exists first. split; [apply in_seq; lia|]. unfold Absn_SoundSpec.enters, Absn_SoundSpec.unlooped. rewrite Nat.sub_diag. cbn [travelled]. rewrite S7, E1, E2. rewrite is_lt_true by lra. rewrite is_le_true by lra. reflexivity.
    + rewrite S7, E2. lra.
    + rewrite E1. rewrite <- time_0. apply time_le. lia.
    + destruct S12 as [_ [k Hk]]. exists (- Z.of_nat k)%Z. rewrite S11, Hk. unfold len. rewrite E1, E2, (D_time S9). rewrite opp_IZR, <- INR_IZR_INZ. unfold Absn_SoundSpec.time. rewrite plus_INR, mult_INR. field. lra.
  - rewrite S12, S11. reflexivity.
Qed.

Lemma unit_rates : forall q i, (first <= 128 * q)%nat -> rate q = 1 -> lead = 0 -> played (128 * q) = time (128 * q - first) -> unlooped (128 * q) = time (128 * q - first) -> (i <= 128)%nat ->
  played (128 * q + i) = time (128 * q + i - first) /\ unlooped (128 * q + i) = time (128 * q + i - first).
Proof.
  intros q i Hf Hr Hlead Hp Hu. induction i as [|i IH]; intros Hi; [rewrite Nat.add_0_r; split; assumption|]. destruct IH as [I1 I2]; [lia|]. replace (128 * q + S i)%nat with (S (128 * q + i)) by lia. set (n := (128 * q + i)%nat) in *.
  assert (Er : rate_at n = 1) by (unfold Absn_SoundSpec.rate_at; rewrite (quantum_of q) by (unfold n; lia); exact Hr). assert (0 < / sr) by (apply Rinv_0_lt_compat; exact Hsr).
  replace (S n - first)%nat with (S (n - first)) by (unfold n; lia). rewrite time_S. split.
  - destruct (Nat.eq_dec n first) as [E|E].
    + rewrite E, played_first, Hlead, <- E, Er, Nat.sub_diag, time_0, Rmult_0_l, Rabs_R0. rewrite Rabs_pos_eq by lra. lra.
    + rewrite played_S by (unfold n in *; lia). rewrite I1, Er, Rabs_pos_eq by lra. lra.
  - rewrite unlooped_S by (unfold n; lia). rewrite I2, Er. lra.
Qed.

Lemma read_whole : forall ch w m, (m < length ch)%nat -> read ch w (INR m) = nth m ch 0.
Proof. intros ch w m H. unfold read. rewrite INR_IZR_INZ, Zfloor_IZR, Nat2Z.id. cbv zeta. rewrite Rminus_eq_0. lra. Qed.

Lemma wrap_mod : forall m, brate = sr -> l_start lp = 0 -> l_end lp = D -> wrap lp (time m) = time (m mod L).
Proof.
  intros m Hb E1 E2. pose proof D_pos. change (wrap lp (time m)) with (wrapped (l_start lp) (l_end lp) (time m)). rewrite E1, E2, (D_time Hb) in *. rewrite (Nat.div_mod m L) at 1 by lia. rewrite Nat.add_comm, time_plus.
  replace (time (L * (m / L))) with (IZR (Z.of_nat (m / L)) * (time L - 0)) by (rewrite <- INR_IZR_INZ; unfold Absn_SoundSpec.time; rewrite mult_INR; field; lra).
  rewrite wrapped_plus by lra. apply wrapped_id; [lra|]. split; [rewrite <- time_0; apply time_le; lia|apply time_lt; apply Nat.mod_upper_bound; lia].
Qed.

(** the samples of a quantum on the fast track *)
Lemma fast_sample : forall q i p ch, lined (128 * q) p -> rate q = 1 -> alive q = true -> (i < 128)%nat -> length ch = L -> time (128 * q + 128) <= stop q -> (forall k, (k < 128)%nat -> time (128 * q + k - first) < d) ->
  sample ch (128 * q + i) = if l_on lp then nth ((128 * q + i - first) mod L) ch 0 else if (128 * q + i - first <? L)%nat then nth (128 * q + i - first) ch 0 else 0.
Proof.
  intros q i p ch H Hr Hal Hi Hl Hst Hd. pose proof (lined_loop _ p H) as HLp. destruct H as (S1 & S2 & S3 & S4 & S5 & S6 & _ & S7 & S8 & S9 & _ & _ & S10 & S11 & _). destruct (unit_rates q i S5 Hr S8 S10 S11 ltac:(lia)) as [I1 I2]. set (n := (128 * q + i)%nat) in *.
  assert (Eq : (n / 128 = q)%nat) by (apply quantum_of; unfold n; lia). unfold Absn_SoundSpec.sample.
  assert (Snd : sounding n = true). { unfold Absn_SoundSpec.sounding. rewrite Eq, Hal, I1. rewrite (is_lt_true (time (n - first))) by (apply Hd; exact Hi). rewrite is_lt_true by (eapply Rlt_le_trans; [|exact Hst]; apply time_lt; unfold n; lia). destruct (Nat.leb_spec first n); [reflexivity|unfold n in *; lia]. }
  rewrite Snd. cbn [andb]. assert (T : forall m, time m * brate = INR m) by (intros m; rewrite S9; unfold Absn_SoundSpec.time; field; lra).
  assert (Go : forall m, position n = time m -> (if is_le 0 (position n) && is_lt (position n) D then read ch (continues n) (position n * brate) else 0) = if (m <? L)%nat then nth m ch 0 else 0).
  { intros m ->. rewrite is_le_true by (rewrite <- time_0; apply time_le; lia). cbn [andb]. rewrite (D_time S9). destruct (Nat.ltb_spec m L) as [C|C]; [rewrite is_lt_true by (apply time_lt; exact C)|rewrite is_lt_false by (apply time_le; exact C); reflexivity]. rewrite T. apply read_whole. lia. }
  assert (On : l_on lp = true \/ l_on lp = false) by (destruct (l_on lp); [left|right]; reflexivity). destruct On as [On|On]; rewrite On.
  - destruct (HLp On) as [E1 E2]. rewrite (Go ((n - first) mod L)%nat); [pose proof (Nat.mod_upper_bound (n - first) L ltac:(lia)); destruct (Nat.ltb_spec ((n - first) mod L) L); [reflexivity|lia]|].
    unfold Absn_SoundSpec.position. rewrite On. pose proof D_pos.
    replace (entered n) with true; [cbn [andb]; rewrite I2; apply wrap_mod; assumption|]. symmetry. unfold Absn_SoundSpec.entered. apply existsb_exists. exists first. split; [apply in_seq; unfold n in *; lia|]. unfold Absn_SoundSpec.enters, Absn_SoundSpec.unlooped. rewrite Nat.sub_diag. cbn [travelled]. rewrite S7, E1, E2. rewrite is_lt_true by lra. rewrite is_le_true by lra. reflexivity.
  - apply Go. rewrite position_off by exact On. exact I2.
Qed.

Lemma fast_loop_samples : forall ch n index start offset lpt, length ch = L -> (offset <= start + index)%nat -> (start + index - offset <= L)%nat ->
  exists lpt', fast_samples exact true ch L n index start offset lpt = Ok (map (fun k => nth ((start + index - offset + k) mod L) ch 0) (seq 0 n), lpt') /\
    (lpt' = lpt /\ (start + index - offset + n <= L)%nat \/ exists x, lpt' = Some x /\ (index <= x < index + n)%nat /\ ((start + index - offset + (x - index)) mod L = 0)%nat).
Proof.
  intros ch n. induction n as [|n IH]; intros index start offset lpt Hl Ho Hi; cbn [fast_samples seq map].
  - exists lpt. split; [reflexivity|]. left. split; [reflexivity|]. rewrite Nat.add_0_r. exact Hi.
  - destruct (Nat.ltb_spec (start + index - offset) L) as [C|C].
    + rewrite index_nth by lia. cbn [bind]. destruct (IH (S index) start offset lpt Hl) as (l' & E & Hx); [lia|lia|]. rewrite E. cbn [bind fst snd]. exists l'. split.
      * rewrite Nat.add_0_r, Nat.mod_small by exact C. do 3 f_equal. rewrite <- seq_shift, map_map. apply map_ext. intros k. do 2 f_equal. lia.
      * destruct Hx as [[-> Hx]|(x & -> & Hx & Hm)]; [left; split; [reflexivity|lia]|right]. exists x. split; [reflexivity|]. split; [lia|]. replace (start + index - offset + (x - index))%nat with (start + S index - offset + (x - S index))%nat by lia. exact Hm.
    + assert (El : (start + index - offset = L)%nat) by lia. rewrite index_nth by lia. cbn [bind]. destruct (IH (S index) 0%nat index (Some index) Hl) as (l' & E & Hx); [lia|lia|]. rewrite E. cbn [bind fst snd]. exists l'. split.
      * rewrite El, Nat.add_0_r, Nat.mod_same by lia. do 3 f_equal. rewrite <- seq_shift, map_map. apply map_ext. intros k. replace (0 + S index - index + k)%nat with (S k) by lia. rewrite <- (Nat.add_mod_idemp_l L) by lia. rewrite Nat.mod_same by lia. reflexivity.
      * right. destruct Hx as [[-> Hx]|(x & -> & Hx & Hm)].
        { exists index. split; [reflexivity|]. split; [lia|]. rewrite El, Nat.sub_diag, Nat.add_0_r. apply Nat.mod_same. lia. }
        exists x. split; [reflexivity|]. split; [lia|]. rewrite El. rewrite <- (Nat.add_mod_idemp_l L), Nat.mod_same by lia. replace (0 + (x - index))%nat with (0 + S index - index + (x - S index))%nat by lia. exact Hm.
Qed.
Lemma fast_loop_channels : forall l start lpt, Forall (fun ch => length ch = L) l -> (start <= L)%nat -> (L < start + 128)%nat -> (l <> [] \/ exists x, lpt = Some x /\ (x < 128)%nat /\ ((start + x) mod L = 0)%nat) ->
  exists x, fast_channels exact true L start l lpt = Ok (map (fun ch => map (fun k => nth ((start + k) mod L) ch 0) (seq 0 128)) l, Some x) /\ (x < 128)%nat /\ ((start + x) mod L = 0)%nat.
Proof.
  induction l as [|ch l IH]; intros start lpt HF Hs Hs2 Hx; cbn [fast_channels map].
  - destruct Hx as [Hx|(x & -> & Hx)]; [contradiction|]. exists x. split; [reflexivity|exact Hx].
  - apply Forall_cons_iff in HF. destruct HF as [H1 H2]. destruct (fast_loop_samples ch 128 0 start 0 lpt H1) as (l' & E & Hy); [lia|lia|]. change RQ with 128%nat. rewrite E. cbn [bind fst snd].
    rewrite Nat.add_0_r, Nat.sub_0_r in *. destruct Hy as [[_ Hy]|(y & -> & Hy & Hm)]; [lia|]. rewrite Nat.sub_0_r in Hm.
    destruct (IH start (Some y) H2 Hs Hs2) as (x & E2 & Hx2); [right; exists y; split; [reflexivity|split; [lia|exact Hm]]|]. rewrite E2. cbn [bind fst snd]. exists x. split; [reflexivity|exact Hx2].
Qed.
Lemma fast_plain_samples : forall ch n i j, length ch = L -> fast_samples exact false ch L n i j 0 None =
  Ok (map (fun k => if (j + k <? L)%nat then nth (j + k) ch 0 else 0) (seq i n), None).
Proof.
  intros ch n. induction n as [|n IH]; intros i j Hl; [reflexivity|]. cbn [fast_samples seq map]. rewrite Nat.sub_0_r. destruct (Nat.ltb_spec (j + i) L) as [C|C].
  - rewrite index_nth by lia. cbn [bind]. rewrite IH by exact Hl. reflexivity.
  - rewrite IH by exact Hl. reflexivity.
Qed.
Lemma fast_plain_channels : forall l j, Forall (fun ch => length ch = L) l -> fast_channels exact false L j l None =
  Ok (map (fun ch => map (fun k => if (j + k <? L)%nat then nth (j + k) ch 0 else 0) (seq 0 128)) l, None).
Proof.
  induction l as [|ch l IH]; intros j H; [reflexivity|]. apply Forall_cons_iff in H. destruct H as [H1 H2]. cbn [fast_channels map]. rewrite fast_plain_samples by exact H1. cbn [bind fst snd]. rewrite IH by exact H2. reflexivity.
Qed.
Lemma time_rem : forall m, brate = sr -> time m - D * IZR (Ztrunc (time m / D)) = time (m mod L).
Proof.
  intros m Hb. pose proof D_pos. rewrite (D_time Hb) in *. assert (Hq : time m / time L = INR m / INR L) by (unfold Absn_SoundSpec.time; field; split; [apply not_0_INR; lia|lra]).
  assert (HLr : 0 < INR L) by (apply lt_0_INR; exact HL). assert (Hm : INR m = INR L * INR (m / L) + INR (m mod L)) by (rewrite <- mult_INR, <- plus_INR; f_equal; apply Nat.div_mod; lia).
  pose proof (Nat.mod_upper_bound m L ltac:(lia)) as Hu. apply lt_INR in Hu. pose proof (pos_INR (m mod L)). pose proof (pos_INR (m / L)).
  assert (Eq : INR m / INR L = INR (m / L) + INR (m mod L) / INR L) by (rewrite Hm; field; lra). assert (0 <= INR (m mod L) / INR L < 1). { split; [apply Rmult_le_pos; [lra|apply Rlt_le, Rinv_0_lt_compat; lra]|]. apply Rmult_lt_reg_r with (INR L); [lra|]. unfold Rdiv. rewrite Rmult_assoc, Rinv_l by lra. lra. }
  rewrite Hq, Eq. rewrite Ztrunc_floor by lra. replace (Zfloor _) with (Z.of_nat (m / L)) by (symmetry; apply Zfloor_imp; rewrite plus_IZR, <- INR_IZR_INZ; lra). rewrite <- INR_IZR_INZ. unfold Absn_SoundSpec.time. rewrite Hm at 1. field. lra.
Qed.

Definition span := time 128.
Lemma fast_track_sound : forall q p, lined (128 * q) (if R_eq (p_start p) (time (128 * q)) then p_begin p else p) -> rate q = 1 -> alive q = true -> time (128 * q + 128) <= stop q -> p_time p + span <= d -> (l_on lp = true -> time (128 * q + 128) <= d) ->
  exists p', fast_track exact sr (state q true p) b (time (128 * q)) span = Ok (state q true p', outs q) /\ lined (128 * (q + 1)) p'.
Proof.
  intros q p H Hr Hal Hst Hd Hdl. unfold fast_track, state. cbn [a_play a_loop]. rewrite b_len, b_dur. cbn [exact t_eq t_mul t_of_v t_round t_to_Z t_lt t_add t_div t_of_Z t_rem].
  assert (Tp : p_time (if R_eq (p_start p) (time (128 * q)) then p_begin p else p) = p_time p) by (destruct (R_eq (p_start p) (time (128 * q))); reflexivity).
  set (p1 := if R_eq (p_start p) (time (128 * q)) then p_begin p else p) in *. clearbody p1. rewrite <- Tp in Hd. clear Tp. cbv zeta. pose proof H as H'.
  destruct H as (S1 & S2 & S3 & S4 & S5 & S6 & S6b & S7 & S8 & S9 & S9b & S9c & S10 & S11 & j & Hj & Sj). rewrite Hj in *.
  assert (Es : Z.to_nat (R_to_Z (R_round (time j * sr))) = j).
  { replace (time j * sr) with (IZR (Z.of_nat j)) by (rewrite <- INR_IZR_INZ; unfold Absn_SoundSpec.time; field; lra). unfold R_round. assert (0 <= IZR (Z.of_nat j)) by (apply (IZR_le 0); lia). destruct (Rle_dec 0 (IZR (Z.of_nat j))); [|lra].
    replace (Zfloor (IZR (Z.of_nat j) + / 2)) with (Z.of_nat j) by (symmetry; apply Zfloor_imp; rewrite plus_IZR; lra). unfold R_to_Z. rewrite Ztrunc_IZR. lia. }
  rewrite Es. unfold span in *. rewrite <- time_plus in *. rewrite (D_time S9). destruct Hchs as [Hne HF].
  destruct (unit_rates q 128 S5 Hr S8 S10 S11 (Nat.le_refl _)) as [I1 I2].
  assert (Hd' : forall k, (k < 128)%nat -> time (128 * q + k - first) < d).
  { intros k Hk. assert (On : l_on lp = true \/ l_on lp = false) by (destruct (l_on lp); [left|right]; reflexivity). destruct On as [On|On]; rewrite On in Sj.
    - eapply Rlt_le_trans; [apply time_lt with (n := (128 * q + 128)%nat); lia|apply Hdl; exact On].
    - eapply Rlt_le_trans; [|exact Hd]. apply time_lt. lia. }
  assert (Out : forall g, (forall ch i, In ch chs -> (i < 128)%nat -> g ch i = if l_on lp then nth ((128 * q + i - first) mod L) ch 0 else if (128 * q + i - first <? L)%nat then nth (128 * q + i - first) ch 0 else 0) -> map (fun ch => map (g ch) (seq 0 128)) chs = outs q).
  { intros g Hg. unfold outs. apply map_ext_in. intros ch Hin. apply map_ext_in. intros i Hi. apply in_seq in Hi. rewrite Hg by (try exact Hin; lia). symmetry. rewrite Forall_forall in HF. apply (fast_sample q i p1); try assumption; [lia|apply HF; exact Hin]. }
  assert (Next : forall j', (if l_on lp then (j' <= L)%nat /\ exists k, (128 * (q + 1) - first = j' + k * L)%nat else j' = (128 * (q + 1) - first)%nat) -> lined (128 * (q + 1)) (p_elapse (p_move p1 (time j')) (p_elapsed p1 + time 128))).
  { intros j' Hj'. replace (128 * (q + 1))%nat with (128 * q + 128)%nat in * by lia. unfold lined. cbn [p_elapse p_move p_started p_start p_offset p_entered p_elapsed p_time].
    split; [exact S1|]. split; [exact S2|]. split; [exact S3|]. split; [exact S4|]. split; [lia|]. split; [rewrite I1, S6, S10, <- time_plus; f_equal; lia|]. split; [exact S6b|]. split; [exact S7|]. split; [exact S8|]. split; [exact S9|]. split; [exact S9b|]. split; [exact S9c|]. split; [exact I1|]. split; [exact I2|]. exists j'. split; [reflexivity|exact Hj']. }
  assert (On : l_on lp = true \/ l_on lp = false) by (destruct (l_on lp); [left|right]; reflexivity).
  unfold R_lt. destruct (Rlt_dec (time L) (time (j + 128))) as [C|C].
  - assert (Cj : (L < j + 128)%nat) by (destruct (Nat.lt_ge_cases L (j + 128)) as [X|X]; [exact X|apply time_le in X; lra]). destruct On as [On|On]; rewrite On in Sj; rewrite On.
    + destruct Sj as [Sj [k Hk]]. destruct (fast_loop_channels chs j None HF Sj Cj (or_introl Hne)) as (x & E & Hx & Hm). cbn [b b_channels]. rewrite E. cbn [bind fst snd]. change RQ with 128%nat.
      rewrite <- INR_IZR_INZ. change (INR (128 - x) / sr) with (time (128 - x)). rewrite <- (D_time S9), time_rem by exact S9.
      eexists. split.
      * unfold with_play. cbn [a_stop a_duration a_buffer a_loop a_lstart a_lend a_aligned a_ended]. f_equal. f_equal. apply (Out (fun ch i => nth ((j + i) mod L) ch 0)). intros ch i Hin Hi. rewrite On. f_equal. replace (128 * q + i - first)%nat with (j + i + k * L)%nat by lia. rewrite Nat.mod_add by lia. reflexivity.
      * apply Next. rewrite On. split; [apply Nat.lt_le_incl, Nat.mod_upper_bound; lia|].
        exists (k + (j + x) / L + (128 - x) / L)%nat. pose proof (Nat.div_mod (128 - x) L ltac:(lia)) as E1. pose proof (Nat.div_mod (j + x) L ltac:(lia)) as E2. rewrite Hm in E2. rewrite !Nat.mul_add_distr_r. rewrite (Nat.mul_comm ((j + x) / L)), (Nat.mul_comm ((128 - x) / L)). lia.
    + rewrite fast_plain_channels by exact HF. cbn [bind fst snd]. eexists. split.
      * unfold with_play. cbn [a_stop a_duration a_buffer a_loop a_lstart a_lend a_aligned a_ended]. f_equal. f_equal. apply (Out (fun ch i => if (j + i <? L)%nat then nth (j + i) ch 0 else 0)). intros ch i Hin Hi. rewrite On. replace (128 * q + i - first)%nat with (j + i)%nat by lia. reflexivity.
      * apply Next. rewrite On. lia.
  - assert (Cj : (j + 128 <= L)%nat) by (destruct (Nat.lt_ge_cases L (j + 128)) as [X|X]; [apply time_lt in X; lra|exact X]).
    cbn [b b_channels]. rewrite (map_res_ok _ _ _ (fun ch => map (fun i => nth (j + i) ch 0) (seq 0 128))).
    + cbn [bind fst snd]. eexists. split.
      * unfold with_play. cbn [a_stop a_duration a_buffer a_loop a_lstart a_lend a_aligned a_ended]. f_equal. f_equal. apply (Out (fun ch i => nth (j + i) ch 0)). intros ch i Hin Hi. destruct On as [On|On]; rewrite On in Sj; rewrite On.
        -- destruct Sj as [_ [k Hk]]. f_equal. replace (128 * q + i - first)%nat with (j + i + k * L)%nat by lia. rewrite Nat.mod_add, Nat.mod_small by lia. reflexivity.
        -- replace (128 * q + i - first)%nat with (j + i)%nat by lia. destruct (Nat.ltb_spec (j + i) L); [reflexivity|lia].
      * apply Next. destruct On as [On|On]; rewrite On in Sj; rewrite On; [|lia]. destruct Sj as [_ [k Hk]]. split; [exact Cj|]. exists k. lia.
    + intros ch Hin. rewrite Forall_forall in HF. specialize (HF ch Hin). unfold slice. change RQ with 128%nat. replace (j <=? j + 128)%nat with true by (symmetry; apply Nat.leb_le; lia).
      replace (j + 128 <=? length ch)%nat with true by (symmetry; apply Nat.leb_le; lia). cbn [andb]. f_equal. replace (j + 128 - j)%nat with 128%nat by lia.
      rewrite (firstn_nth_map _ 128 _ 0) by (rewrite skipn_length; lia). apply map_ext. intros i. apply nth_skipn'.
Qed.

(** ** A quantum *)
Hypothesis Hdur : l_on lp = true -> t_MAX exact <= d \/ c_offset call <> 0 \/ rls <> 0 \/ rle <> D.
Definition entry (q : nat) (al : bool) (p : @playback R) : Prop :=
  if al then lined (128 * q) p /\ (first < 128 * q)%nat
  else running (128 * q) p \/ (128 * q <= first)%nat /\ p = mk_playback when (c_offset call) 0 false false 0.

Lemma silent_sample : forall c i, sample_at 0 (absn_silence exact) c i = 0.
Proof. intros c i. unfold sample_at, absn_silence, silence. destruct c as [|[|c]]; cbn [nth]; [|destruct i; reflexivity|destruct i; reflexivity]. unfold v_zero. cbn [exact v_of_Z]. destruct (Nat.lt_ge_cases i RQ) as [C|C]; [apply nth_repeat|apply nth_overflow; rewrite repeat_length; exact C]. Qed.
Lemma outs_sample : forall q c i, (c < length chs)%nat -> (i < 128)%nat -> sample_at 0 (outs q) c i = sample (nth c chs []) (128 * q + i).
Proof.
  intros q c i Hc Hi. unfold sample_at, outs. rewrite (nth_indep _ [] (map (fun i => sample [] (128 * q + i)) (seq 0 128))) by (rewrite map_length; exact Hc). rewrite (map_nth (fun ch => map (fun i => sample ch (128 * q + i)) (seq 0 128))). apply (nth_map_seq _ (fun i => sample (nth c chs []) (128 * q + i))). exact Hi.
Qed.

(** the end of the quantum *)
Definition code_over (q : nat) (p : @playback R) : bool :=
  R_le (stop q) (time (128 * (q + 1))) || R_le d (p_elapsed p) || (negb (l_on lp) && (R_lt 0 (rate q) && R_le D (p_time p) || R_lt (rate q) 0 && R_lt (p_time p) 0)).
Lemma over_sound : forall q p, good q (128 * (q + 1)) p -> when < time (128 * (q + 1)) -> (unborn q (128 * (q + 1)) p -> p_start p = when) ->
  code_over q p = over q /\ (over q = false -> entry (q + 1) false p).
Proof.
  intros q p Hg Hw Hst. unfold code_over, Absn_SoundSpec.over, Absn_SoundSpec.left. change R_le with is_le; change R_lt with is_lt. rewrite (is_lt_true when) by exact Hw. cbn [andb]. pose proof D_pos.
  destruct Hg as [U|[Rn|Dd]].
  - pose proof (Hst U) as Hst'. destruct U as (Hf & st & -> & _). cbn [p_start p_elapsed p_time] in *. subst st. unfold Absn_SoundSpec.played. destruct (Nat.leb_spec (128 * (q + 1)) first); [|lia]. destruct (Nat.ltb_spec first (128 * (q + 1))); [lia|].
    rewrite (is_le_false D 0) by lra. rewrite (is_lt_false 0 0) by lra. split; [destruct (is_le (stop q) (time (128 * (q + 1)))), (is_le d 0), (negb (l_on lp)), (is_lt 0 (rate q)), (is_lt (rate q) 0); reflexivity|]. intros _. right. split; [exact Hf|reflexivity].
  - rewrite (running_elapsed _ _ Rn). split; [|intros _; left; exact Rn]. destruct Rn as [Hf (_ & _ & _ & _ & _ & Hr)]. destruct (Nat.ltb_spec first (128 * (q + 1))); [|lia]. rewrite andb_true_r. unfold loop_rel in Hr.
    destruct (l_on lp); cbn [negb andb]; [rewrite !orb_assoc; reflexivity|rewrite Hr, !orb_assoc; reflexivity].
  - destruct Dd as [Hf Dd]. assert (T : is_le (stop q) (time (128 * (q + 1))) || is_le d (p_elapsed p) = true /\ is_le (stop q) (time (128 * (q + 1))) || is_le d (played (128 * (q + 1))) = true).
    { destruct Dd as [Dd|[D1 D2]]; [rewrite (is_le_true _ _ Dd); split; reflexivity|]. rewrite (is_le_true _ _ D1), (is_le_true _ _ D2). rewrite !orb_true_r. split; reflexivity. }
    destruct T as [T1 T2]. rewrite T1, orb_assoc, T2. split; [reflexivity|discriminate].
Qed.

Lemma process_sound : forall q al p pr de, (c_quanta call <= q)%nat -> alive q = true -> entry q al p -> rate q = pr * Rpower 2 (de / 1200) -> loop_ok q -> time (128 * (q + 1)) <= t_MAX exact ->
  exists s' o, ends (fun fuel => absn_process exact sr almost_equal almost_zero fuel (state q al p) (Z.of_nat (128 * q)) pr de) (s', o) /\ o_event o = over q /\
    (forall c i, (c < length chs)%nat -> (i < 128)%nat -> sample_at 0 (o_output o) c i = sample (nth c chs []) (128 * q + i)) /\
    if over q then a_ended s' = true else exists al' p', s' = state q al' p' /\ entry (q + 1) al' p'.
Proof.
  intros q al p pr de Hcq Hal He Hrate Hok Hmax. unfold absn_process. change (a_ended (state q al p)) with false. change (a_buffer (state q al p)) with (Some b). change (a_play (state q al p)) with p. change (a_stop (state q al p)) with (stop q). cbv iota zeta. cbn [andb].
  assert (Eblock : block_time exact sr (Z.of_nat (128 * q)) = time (128 * q)). { unfold block_time. cbn [exact t_div t_of_Z t_of_v]. rewrite <- INR_IZR_INZ. reflexivity. }
  assert (Espan : t_mul exact (dt exact sr) (t_of_Z exact (Z.of_nat RQ)) = span). { unfold dt, t_one, span, Absn_SoundSpec.time. cbn [exact t_mul t_div t_of_Z t_of_v]. change (IZR (Z.of_nat RQ)) with 128. change (INR 128) with (INR (Z.to_nat 128)). rewrite INR_IZR_INZ, Z2Nat.id by lia. lra. }
  assert (Enext : t_add exact (time (128 * q)) span = time (128 * (q + 1))). { cbn [exact t_add]. unfold span. rewrite <- time_plus. f_equal. lia. }
  rewrite Eblock, Espan, Enext. cbn [exact t_le].
  assert (Hp : (first < 128 * q)%nat /\ p_started p = true /\ p_start p <= time first \/ (128 * q <= first)%nat /\ al = false /\ p = mk_playback when (c_offset call) 0 false false 0).
  { unfold entry in He. destruct al; [left|destruct He as [He|[H1 H2]]; [left|right; auto]].
    - destruct He as [(A & B & _) C]. auto.
    - destruct He as [C (A & B & _)]. auto. }
  destruct (R_le (time (128 * (q + 1))) (p_start p)) eqn:Early.
  { (* before the start *)
    assert (Ew : time (128 * (q + 1)) <= p_start p) by (unfold R_le in Early; destruct (Rle_dec (time (128 * (q + 1))) (p_start p)); [assumption|discriminate]).
    destruct Hp as [(Hf & _ & Hs)|(Hf & -> & ->)]; [exfalso; pose proof (time_lt first (128 * (q + 1)) ltac:(lia)); lra|]. cbn [p_start] in *.
    assert (Hlate : (128 * (q + 1) <= first)%nat). { destruct (Nat.lt_ge_cases first (128 * (q + 1))) as [C|C]; [|exact C]. exfalso. pose proof (from_first first (Nat.le_refl _)). apply time_lt in C. lra. }
    assert (Sil : forall c i, (i < 128)%nat -> sample_at 0 (absn_silence exact) c i = sample (nth c chs []) (128 * q + i)).
    { intros c i Hi. rewrite silent_sample. unfold Absn_SoundSpec.sample, Absn_SoundSpec.sounding. destruct (Nat.leb_spec first (128 * q + i)); [lia|reflexivity]. }
    assert (Eo : over q = is_le (stop q) (time (128 * (q + 1)))). { unfold Absn_SoundSpec.over. rewrite (is_lt_false when) by exact Ew. cbn [andb]. apply orb_false_r. }
    change R_le with is_le. rewrite <- Eo. destruct (over q).
    - do 2 eexists. split; [apply ends_ok|]. split; [reflexivity|]. split; [intros c i _ Hi; apply Sil; exact Hi|reflexivity].
    - do 2 eexists. split; [apply ends_ok|]. split; [reflexivity|]. split; [intros c i _ Hi; apply Sil; exact Hi|]. do 2 eexists. split; [reflexivity|]. right. split; [exact Hlate|reflexivity]. }
  assert (Ew : p_start p < time (128 * (q + 1))) by (unfold R_le in Early; destruct (Rle_dec (time (128 * (q + 1))) (p_start p)); [discriminate|lra]).
  assert (Hw : when < time (128 * (q + 1))). { destruct Hp as [(Hf & _ & _)|(_ & _ & ->)]; [|exact Ew]. pose proof (from_first first (Nat.le_refl _)). pose proof (time_lt first (128 * (q + 1)) ltac:(lia)). lra. }
  set (p0 := if negb (p_started p) && t_lt exact (p_start p) (time (128 * q)) then p_at p (time (128 * q)) else p).
  replace (if negb (p_started p) && t_lt exact (p_start p) (time (128 * q)) then with_play (state q al p) (p_at p (time (128 * q))) else state q al p) with (state q al p0) by (unfold p0; destruct (_ && _); reflexivity).
  assert (Hp0 : (first < 128 * q)%nat /\ p0 = p \/ al = false /\ unborn q (128 * q) p0).
  { destruct Hp as [(Hf & Hs & _)|(Hf & Ha & ->)]; [left; split; [exact Hf|unfold p0; rewrite Hs; reflexivity]|right]. split; [exact Ha|]. split; [exact Hf|]. unfold p0. cbn [p_started negb andb p_start exact t_lt]. unfold R_lt. destruct (Rlt_dec when (time (128 * q))) as [C|C].
    - exists (time (128 * q)). split; [reflexivity|]. right. split; [reflexivity|]. apply late_first in C; [lia|exact Hcq].
    - exists when. split; [reflexivity|]. left. split; [reflexivity|lra]. }
  assert (Erate : t_mul exact (t_of_v exact pr) (t_exp2 exact (t_div exact (t_of_v exact de) (t_of_Z exact 1200))) = rate q) by (rewrite Hrate; reflexivity).
  rewrite Erate. cbn [exact t_of_v]. change (b_rate b) with brate. change (t_div exact brate sr) with (brate / sr).
  assert (Sgn : 0 <= pr <-> 0 <= rate q). { rewrite Hrate. assert (0 < Rpower 2 (de / 1200)) by (apply exp_pos). split; intros; nra. }
  set (al' := decide exact (state q al p0) b (time (128 * q)) span (rate q) (brate / sr)).
  assert (Hal' : al' = true -> lined (128 * q) (if R_eq (p_start p0) (time (128 * q)) then p_begin p0 else p0) /\ rate q = 1 /\ time (128 * q + 128) <= stop q /\ p_time p0 + span <= d).
  { unfold al', decide, state. cbn [a_play a_aligned a_lstart a_lend a_duration a_stop]. rewrite b_dur. unfold t_one, t_zero. cbn [exact t_eq t_lt t_add t_of_Z]. intros E.
    apply andb_true_iff in E. destruct E as [E E4]. apply andb_true_iff in E. destruct E as [E E3]. apply andb_true_iff in E. destruct E as [E1 E2].
    apply negb_true_iff in E2. apply orb_false_iff in E2. destruct E2 as [E2 E2']. apply negb_false_iff in E2. apply negb_false_iff in E2'. apply negb_true_iff in E3. apply orb_false_iff in E3. destruct E3 as [E3 E3']. apply negb_false_iff in E3. apply negb_false_iff in E3'. apply negb_true_iff in E4. apply orb_false_iff in E4. destruct E4 as [E4 E4'].
    assert (Req : forall x y, R_eq x y = true -> x = y) by (intros x y; unfold R_eq; destruct (Req_EM_T x y); [auto|discriminate]). apply Req in E2, E2', E3, E3'.
    change R_lt with is_lt in *. apply is_lt_niff in E4, E4'. assert (Hb : brate = sr) by (apply Rmult_eq_reg_r with (/ sr); [|apply Rinv_neq_0_compat; lra]; rewrite Rinv_r by lra; exact E2).
    split; [|split; [exact E2'|split; [replace (time (128 * q + 128)) with (time (128 * q) + span) by (unfold span; rewrite <- time_plus; reflexivity); exact E4'|exact E4]]].
    destruct Hp0 as [[Hf Ep0]|[Ha Un]].
    - rewrite Ep0 in *. destruct Hp as [(_ & Hs & Hs2)|(Hf2 & _)]; [|lia]. pose proof (time_lt first (128 * q) Hf). rewrite (R_eq_false (p_start p)) in * by lra. cbn [andb] in E1. subst al. unfold entry in He. apply He.
    - subst al. pose proof Un as (Hf & st & Est & Hst). rewrite Est in *. cbn [p_start p_offset] in *. destruct (R_eq st (time (128 * q))) eqn:Es; [|discriminate]. apply Req in Es. cbn [andb] in E1. destruct (R_eq (c_offset call) 0) eqn:Eo; [|discriminate]. apply Req in Eo.
      assert (Ff : first = (128 * q)%nat). { destruct Hst as [[H1 H2]|[_ H2]]; [|exact H2]. destruct (Nat.eq_dec first (128 * q)) as [X|X]; [exact X|]. exfalso. assert (time (128 * q) < when) by (apply before_first; lia). lra. }
      assert (Ld : lead = 0). { unfold Absn_SoundSpec.lead. replace (first mod 128)%nat with 0%nat by (rewrite Ff, Nat.mul_comm, Nat.mod_mul by discriminate; reflexivity). reflexivity. }
      pose proof D_pos. assert (Or : origin = 0).
      { unfold Absn_SoundSpec.origin, Absn_SoundSpec.rate_at. rewrite Ld, Eo. replace (0 + 0 * rate (first / 128)) with 0 by lra. rewrite Rmax_left by lra. cbv zeta. rewrite (Rmin_left 0 D) by lra. rewrite (quantum_of q) by lia. rewrite E2'. rewrite is_le_true by lra.
        assert (On : l_on lp = true \/ l_on lp = false) by (destruct (l_on lp); [left|right]; reflexivity). destruct On as [On|On]; rewrite On; [|reflexivity]. pose proof (Hraw On) as Hraw'. rewrite E3, E3' in Hraw'. destruct (Rle_dec 0 0); [|lra]. destruct (Rlt_dec 0 D); [|lra]. destruct Hraw' as [_ ->]. rewrite Rmin_left by lra. reflexivity. }
      unfold lined. cbn [p_begin p_started p_start p_offset p_entered p_elapsed p_time]. split; [reflexivity|]. split; [rewrite Ff; lra|]. split; [exact Eo|]. split; [reflexivity|]. split; [lia|].
      assert (P0 : played (128 * q) = 0) by (unfold Absn_SoundSpec.played; destruct (Nat.leb_spec (128 * q) first); [reflexivity|lia]). rewrite P0. replace (128 * q - first)%nat with 0%nat by lia. rewrite time_0.
      split; [reflexivity|]. split; [exact Eo|]. split; [exact Or|]. split; [exact Ld|]. split; [exact Hb|]. split; [exact E3|]. split; [exact E3'|]. split; [reflexivity|]. split; [unfold Absn_SoundSpec.unlooped; replace (128 * q - first)%nat with 0%nat by lia; cbn [travelled]; rewrite Or; lra|].
      exists 0%nat. split; [symmetry; apply time_0|]. destruct (l_on lp); [split; [lia|exists 0%nat; reflexivity]|reflexivity]. }
  change (with_aligned (state q al p0) al') with (state q al' p0). change (a_aligned (state q al' p0)) with al'.
  clearbody al'.
  assert (Fin : forall p1, good q (128 * (q + 1)) p1 -> (unborn q (128 * (q + 1)) p1 -> p_start p1 = when) -> (al' = true -> lined (128 * (q + 1)) p1) ->
     exists s' o, ends (fun _ : nat => Ok (let s := state q al' p1 in let ov := t_le exact (a_stop s) (time (128 * (q + 1))) || t_le exact (a_duration s) (p_elapsed (a_play s)) || (negb (a_loop s) && (t_lt exact (t_zero exact) (rate q) && t_le exact (b_duration exact b) (p_time (a_play s)) || t_lt exact (rate q) (t_zero exact) && t_lt exact (p_time (a_play s)) (t_zero exact))) in
         (if ov then finished s else s, mk_outcome (outs q) true ov))) (s', o) /\ o_event o = over q /\
       (forall c i, (c < length chs)%nat -> (i < 128)%nat -> sample_at 0 (o_output o) c i = sample (nth c chs []) (128 * q + i)) /\
       if over q then a_ended s' = true else exists al' p', s' = state q al' p' /\ entry (q + 1) al' p').
  { intros p1 G1 U1 A1. destruct (over_sound q p1 G1 Hw U1) as [Ov En]. cbv zeta. unfold state. cbn [a_stop a_duration a_play a_loop]. rewrite b_dur. unfold t_zero. cbn [exact t_le t_lt t_of_Z]. fold (code_over q p1). rewrite Ov.
    do 2 eexists. split; [apply ends_ok|]. split; [reflexivity|]. split; [intros c i Hc Hi; cbn [o_output]; apply outs_sample; assumption|].
    destruct (over q); [reflexivity|]. exists al', p1. split; [reflexivity|]. specialize (En eq_refl). destruct al'; [|exact En]. split; [exact (A1 eq_refl)|]. replace (128 * (q + 1))%nat with (128 * q + 128)%nat in * by lia. destruct (A1 eq_refl) as (_ & _ & _ & _ & Hfi & _).
    destruct En as [[En _]|[En Ep]]; [|]. - replace (128 * (q + 1))%nat with (128 * q + 128)%nat in En by lia. exact En. - exfalso. destruct (A1 eq_refl) as (Sx & _). rewrite Ep in Sx. discriminate. }
  destruct al'.
  - destruct (Hal' eq_refl) as (Ln & R1 & Hst & Hd). 
    assert (Hdl : l_on lp = true -> time (128 * q + 128) <= d).
    { intros On. destruct Ln as (_ & _ & _ & _ & _ & _ & A1 & _ & _ & _ & A2 & A3 & _). destruct (Hdur On) as [H|[H|[H|H]]]; try contradiction. replace (128 * (q + 1))%nat with (128 * q + 128)%nat in Hmax by lia. lra. }
    assert (Hfq : (first <= 128 * q)%nat) by (destruct Ln as (_ & _ & _ & _ & X & _); exact X).
    destruct (fast_track_sound q p0 Ln R1 Hal Hst Hd Hdl) as (p1 & E1 & L1).
    destruct (Fin p1) as (s' & o & E & Rest); [right; left; apply lined_running; [exact L1|lia]|intros [X _]; lia|intros _; exact L1|].
    exists s', o. split; [|exact Rest]. rewrite E1. cbn [bind fst snd]. exact E.
  - assert (G0 : good q (128 * q) p0).
    { destruct Hp0 as [[Hf ->]|[_ Un]]; [|left; exact Un]. right. left. unfold entry in He. destruct al; [apply lined_running; apply He|]. destruct He as [He|[He _]]; [exact He|lia]. }
    destruct (slow_track_sound q false p0 pr Hcq Hal G0 Sgn Hok) as (p1 & E1 & G1).
    destruct (Fin p1) as (s' & o & E & Rest); [exact G1| |discriminate|].
    { intros (X & st & -> & [[-> _]|[_ Hst]]); [reflexivity|lia]. }
    exists s', o. split; [|exact Rest]. eapply ends_bind; [exact E1|]. cbn [fst snd]. exact E.
Qed.

(** ** A sequence of quanta *)
Hypothesis Hclamp : 0 <= rls <= D /\ 0 < rle <= D.
Lemma clamp_id : forall p st al, clamp exact (mk_absn p st d (Some b) (l_on lp) rls rle al false) = mk_absn p st d (Some b) (l_on lp) rls rle al false.
Proof.
  intros p st al. unfold clamp. cbn [a_buffer a_lstart a_lend a_play a_stop a_duration a_loop a_aligned a_ended]. rewrite b_dur. unfold t_zero. cbn [exact t_lt t_le t_of_Z]. destruct Hclamp as [H1 H2]. rewrite R_lt_false by lra. rewrite R_lt_false by lra. rewrite R_le_false by lra. rewrite R_lt_false by lra. reflexivity.
Qed.
Lemma alive_S : forall q, (c_quanta call <= q)%nat -> alive (q + 1) = alive q && negb (over q).
Proof. intros q H. unfold Absn_SoundSpec.alive. replace (q + 1 - c_quanta call)%nat with (q - c_quanta call + 1)%nat by lia. rewrite seq_app, forallb_app. cbn [seq forallb]. rewrite andb_true_r. replace (c_quanta call + (q - c_quanta call))%nat with q by lia. reflexivity. Qed.
Lemma alive_mono : forall q k, (c_quanta call <= q)%nat -> alive q = false -> alive (q + k) = false.
Proof. intros q k H E. induction k as [|k IH]; [rewrite Nat.add_0_r; exact E|]. replace (q + S k)%nat with (q + k + 1)%nat by lia. rewrite alive_S by lia. rewrite IH. reflexivity. Qed.

Lemma stops_run : forall l s f fuel rest, absn_run exact sr almost_equal almost_zero fuel s f (map A_stop l ++ rest) = absn_run exact sr almost_equal almost_zero fuel (fold_left (absn_message exact) (map A_stop l) s) f rest.
Proof. induction l as [|t l IH]; intros s f fuel rest; [reflexivity|]. cbn [map app absn_run fold_left]. apply IH. Qed.
Lemma stops_fold : forall l p st al, fold_left (absn_message exact) (map A_stop l) (mk_absn p st d (Some b) (l_on lp) rls rle al false) = mk_absn p (last l st) d (Some b) (l_on lp) rls rle al false.
Proof.
  induction l as [|t l IH]; intros p st al; [reflexivity|]. cbn [map fold_left absn_message a_play a_stop a_duration a_buffer a_loop a_lstart a_lend a_aligned a_ended]. rewrite clamp_id, IH. f_equal. destruct l; [reflexivity|]. cbn [last]. destruct l; [reflexivity|]. clear. revert r0. induction l; intros x; [reflexivity|]. cbn [last]. apply IHl.
Qed.
Lemma stops_ended : forall l (s : @absn R R), a_ended s = true -> a_ended (fold_left (absn_message exact) (map A_stop l) s) = true.
Proof. induction l as [|t l IH]; intros s H; [exact H|]. cbn [map fold_left]. apply IH. cbn [absn_message]. unfold clamp. cbn. destruct (a_buffer s); exact H. Qed.

Lemma ended_run : forall l (s : @absn R R) f, a_ended s = true -> exists s' os, (forall fuel, absn_run exact sr almost_equal almost_zero fuel s f (steps_actions l) = Ok (s', (f + 128 * Z.of_nat (length l))%Z, os)) /\ length os = length l /\
  forall k o, nth_error os k = Some o -> o_event o = false /\ o_output o = absn_silence exact.
Proof.
  induction l as [|g l IH]; intros s f H.
  - exists s, []. split; [intros fuel; cbn; rewrite Z.add_0_r; reflexivity|]. split; [reflexivity|]. intros [|k] o E; discriminate.
  - set (s1 := fold_left (absn_message exact) (map A_stop (s_stops g)) s). assert (H1 : a_ended s1 = true) by (apply stops_ended; exact H). destruct (IH s1 (f + 128)%Z H1) as (s' & os & E & Hl & Ho).
    exists s', (mk_outcome (absn_silence exact) false false :: os). split; [|split; [cbn [length]; rewrite Hl; reflexivity|]].
    + intros fuel. unfold steps_actions. cbn [flat_map]. rewrite <- app_assoc, stops_run. fold s1. cbn [app absn_run]. unfold absn_process at 1. rewrite H1. cbn [bind fst snd]. change (Z.of_nat RQ) with 128%Z. fold (steps_actions l). rewrite E. cbn [bind fst snd]. do 3 f_equal. cbn [length]. lia.
    + intros [|k] o Eo; [injection Eo as <-; split; reflexivity|exact (Ho k o Eo)].
Qed.

Lemma last_app_default : forall (X : Type) (a c : list X) e, last (a ++ c) e = last c (last a e).
Proof.
  intros X a c e. destruct c as [|x c]; [rewrite app_nil_r; reflexivity|]. destruct (exists_last (l := x :: c) ltac:(discriminate)) as (c' & y & ->). rewrite app_assoc, !last_last. reflexivity.
Qed.

Lemma run_steps : forall l q st al p, (c_quanta call <= q)%nat -> alive q = true -> entry q al p ->
  (forall k g, nth_error l k = Some g -> rate (q + k)%nat = step_rate g /\ stop (q + k)%nat = last (concat (map s_stops (firstn (k + 1) l))) st /\ loop_ok (q + k)) ->
  time (128 * (q + length l)) <= t_MAX exact ->
  exists s os, ends (fun fuel => absn_run exact sr almost_equal almost_zero fuel (mk_absn p st d (Some b) (l_on lp) rls rle al false) (Z.of_nat (128 * q)) (steps_actions l)) (s, Z.of_nat (128 * (q + length l)), os) /\ length os = length l /\
    forall k o, nth_error os k = Some o -> o_event o = alive (q + k) && over (q + k) /\ forall c i, (c < length chs)%nat -> (i < 128)%nat -> sample_at 0 (o_output o) c i = sample (nth c chs []) (128 * (q + k) + i).
Proof.
  induction l as [|g l IH]; intros q st al p Hq Hal He Hset Hmax.
  - exists (mk_absn p st d (Some b) (l_on lp) rls rle al false), []. rewrite Nat.add_0_r. split; [apply ends_ok|]. split; [reflexivity|]. intros [|k] o E; discriminate.
  - destruct (Hset 0%nat g eq_refl) as (Hr & Hs & Hok). rewrite Nat.add_0_r in Hr, Hs, Hok. cbn [firstn Nat.add map concat] in Hs. rewrite app_nil_r in Hs.
    assert (Hm1 : time (128 * (q + 1)) <= t_MAX exact) by (eapply Rle_trans; [apply time_le|exact Hmax]; cbn [length]; lia).
    destruct (process_sound q al p (s_rate g) (s_detune g) Hq Hal He Hr Hok Hm1) as (s1 & o1 & E1 & Ev1 & Sm1 & N1).
    assert (Start : forall s os, ends (fun fuel => absn_run exact sr almost_equal almost_zero fuel s1 (Z.of_nat (128 * (q + 1))) (steps_actions l)) (s, Z.of_nat (128 * (q + 1 + length l)), os) ->
      ends (fun fuel => absn_run exact sr almost_equal almost_zero fuel (mk_absn p st d (Some b) (l_on lp) rls rle al false) (Z.of_nat (128 * q)) (steps_actions (g :: l))) (s, Z.of_nat (128 * (q + length (g :: l))), o1 :: os)).
    { intros s os E. unfold steps_actions. cbn [flat_map]. fold (steps_actions l).
      assert (Eq : forall fuel, absn_run exact sr almost_equal almost_zero fuel (mk_absn p st d (Some b) (l_on lp) rls rle al false) (Z.of_nat (128 * q)) ((map A_stop (s_stops g) ++ [A_quantum (s_rate g) (s_detune g)]) ++ steps_actions l)
        = do x <- absn_process exact sr almost_equal almost_zero fuel (state q al p) (Z.of_nat (128 * q)) (s_rate g) (s_detune g); do y <- absn_run exact sr almost_equal almost_zero fuel (fst x) (Z.of_nat (128 * (q + 1))) (steps_actions l); Ok (fst y, snd x :: snd y)).
      { intros fuel. rewrite <- app_assoc, stops_run, stops_fold, <- Hs. cbn [app absn_run]. replace (Z.of_nat (128 * q) + Z.of_nat RQ)%Z with (Z.of_nat (128 * (q + 1))) by (change RQ with 128%nat; lia). reflexivity. }
      destruct (ends_bind _ _ (fun fuel => absn_process exact sr almost_equal almost_zero fuel (state q al p) (Z.of_nat (128 * q)) (s_rate g) (s_detune g))
        (fun fuel x => do y <- absn_run exact sr almost_equal almost_zero fuel (fst x) (Z.of_nat (128 * (q + 1))) (steps_actions l); Ok (fst y, snd x :: snd y)) (s1, o1) (s, Z.of_nat (128 * (q + length (g :: l))), o1 :: os) E1) as [n0 Hn0].
      - cbn [fst snd]. eapply (ends_bind _ _ (fun fuel => absn_run exact sr almost_equal almost_zero fuel s1 (Z.of_nat (128 * (q + 1))) (steps_actions l)) (fun _ y => Ok (fst y, o1 :: snd y))); [exact E|]. cbn [fst snd]. replace (q + length (g :: l))%nat with (q + 1 + length l)%nat by (cbn [length]; lia). apply ends_ok.
      - exists n0. intros n Hn. rewrite Eq. apply Hn0. exact Hn. }
    assert (First : o_event o1 = alive (q + 0) && over (q + 0) /\ forall c i, (c < length chs)%nat -> (i < 128)%nat -> sample_at 0 (o_output o1) c i = sample (nth c chs []) (128 * (q + 0) + i)) by (rewrite Nat.add_0_r, Hal, Ev1; split; [reflexivity|exact Sm1]).
    destruct (over q) eqn:Ov.
    + destruct (ended_run l s1 (Z.of_nat (128 * (q + 1))) N1) as (s & os & E & Hl & Ho). exists s, (o1 :: os). split; [|split; [cbn [length]; rewrite Hl; reflexivity|]].
      * apply Start. exists 0%nat. intros n _. rewrite E. do 3 f_equal. lia.
      * intros [|k] o Eo; [injection Eo as <-; exact First|]. cbn [nth_error] in Eo. destruct (Ho k o Eo) as [Ev Out].
        assert (Dd : alive (q + S k) = false). { replace (q + S k)%nat with (q + 1 + k)%nat by lia. apply alive_mono; [lia|]. rewrite alive_S, Hal, Ov by exact Hq. reflexivity. }
        rewrite Dd, Ev. split; [reflexivity|]. intros c i _ Hi. rewrite Out, silent_sample. unfold Absn_SoundSpec.sample, Absn_SoundSpec.sounding. rewrite (quantum_of (q + S k)) by lia. rewrite Dd, andb_false_r. reflexivity.
    + destruct N1 as (al' & p' & Es & He'). destruct (IH (q + 1)%nat (stop q) al' p') as (s & os & E & Hl & Ho).
      * lia.
      * rewrite alive_S, Hal, Ov by exact Hq. reflexivity.
      * exact He'.
      * intros k g' Hk. destruct (Hset (S k) g' Hk) as (A1 & A2 & A3). replace (q + 1 + k)%nat with (q + S k)%nat by lia. split; [exact A1|]. split; [|exact A3]. rewrite A2. cbn [Nat.add firstn map concat]. rewrite last_app_default, <- Hs. reflexivity.
      * replace (q + 1 + length l)%nat with (q + length (g :: l))%nat by (cbn [length]; lia). exact Hmax.
      * exists s, (o1 :: os). split; [apply Start; rewrite Es; exact E|]. split; [cbn [length]; rewrite Hl; reflexivity|]. intros [|k] o Eo; [injection Eo as <-; exact First|]. cbn [nth_error] in Eo. replace (q + S k)%nat with (q + 1 + k)%nat by lia. exact (Ho k o Eo).
Qed.
End Frames.

(** ** Settings before the quanta *)
Section Setup.
Variable sr : R.
Hypothesis Hsr : 0 < sr.
Variable almost_equal : R -> R -> bool.
Variable almost_zero : R -> bool.
Notation max := (t_MAX exact).
Variable bf : @buffer R.
Hypothesis Hbf : 0 < b_duration exact bf.
Notation D := (b_duration exact bf).
Definition cs (buf : bool) (x : R) : R := if buf then if R_lt x 0 then 0 else if R_lt D x then D else x else x.
Definition ce (buf : bool) (x : R) : R := if buf then if R_le x 0 || R_lt D x then D else x else x.
Lemma cs_cs : forall buf x, cs buf (cs buf x) = cs buf x.
Proof.
  intros [] x; [|reflexivity]. unfold cs, R_lt. destruct (Rlt_dec x 0); [destruct (Rlt_dec 0 0); [lra|destruct (Rlt_dec D 0); [lra|reflexivity]]|]. destruct (Rlt_dec D x); [destruct (Rlt_dec D 0); [lra|destruct (Rlt_dec D D); [lra|reflexivity]]|]. destruct (Rlt_dec x 0); [lra|]. destruct (Rlt_dec D x); [lra|reflexivity].
Qed.
Lemma ce_ce : forall buf x, ce buf (ce buf x) = ce buf x.
Proof.
  intros [] x; [|reflexivity]. unfold ce, R_lt, R_le. destruct (Rle_dec x 0); cbn [orb]; [destruct (Rle_dec D 0); [lra|]; destruct (Rlt_dec D D); [lra|reflexivity]|]. destruct (Rlt_dec D x); cbn [orb]; [destruct (Rle_dec D 0); [lra|]; destruct (Rlt_dec D D); [lra|reflexivity]|].
  destruct (Rle_dec x 0); [lra|]. destruct (Rlt_dec D x); [lra|reflexivity].
Qed.
Definition waiting (p : @playback R) (dd : R) (buf on : bool) (a c : R) : @absn R R := mk_absn p max dd (if buf then Some bf else None) on (cs buf a) (ce buf c) false false.
Lemma clamp_waiting : forall p dd (buf on : bool) x y, clamp exact (mk_absn p max dd (if buf then Some bf else None) on x y false false) = waiting p dd buf on x y.
Proof. intros p dd [] on x y; reflexivity. Qed.
Lemma cs_again : forall p dd buf on x y, waiting p dd buf on (cs buf x) y = waiting p dd buf on x y.
Proof. intros. unfold waiting. rewrite cs_cs. reflexivity. Qed.
Lemma ce_again : forall p dd buf on x y, waiting p dd buf on x (ce buf y) = waiting p dd buf on x y.
Proof. intros. unfold waiting. rewrite ce_ce. reflexivity. Qed.

Lemma setting_message : forall p dd buf on x y a, is_setting a = true -> (buf = true -> buffers [a] = []) -> (buf = false -> buffers [a] = [] \/ buffers [a] = [bf]) ->
  absn_message exact (waiting p dd buf on x y) a = waiting p dd (buf || negb (length (buffers [a]) =? 0)%nat) (last_of set_loop [a] on) (last_of set_lstart [a] x) (last_of set_lend [a] y).
Proof.
  intros p dd buf on x y a Ha H1 H2. destruct a; try discriminate; cbn [buffers flat_map app length Nat.eqb negb last_of set_loop set_lstart set_lend]; rewrite ?orb_false_r.
  - change (clamp exact (mk_absn p max dd (if buf then Some bf else None) b (cs buf x) (ce buf y) false false) = waiting p dd buf b x y). rewrite clamp_waiting, cs_again, ce_again. reflexivity.
  - change (clamp exact (mk_absn p max dd (if buf then Some bf else None) on t (ce buf y) false false) = waiting p dd buf on t y). rewrite clamp_waiting, ce_again. reflexivity.
  - change (clamp exact (mk_absn p max dd (if buf then Some bf else None) on (cs buf x) t false false) = waiting p dd buf on x t). rewrite clamp_waiting, cs_again. reflexivity.
  - cbn [buffers flat_map app] in H1, H2. destruct buf; [specialize (H1 eq_refl); discriminate|]. destruct (H2 eq_refl) as [H|H]; [discriminate|]. injection H as ->. reflexivity.
Qed.

Lemma last_of_cons : forall (X Y : Type) (f : X -> option Y) a l e, last_of f (a :: l) e = last_of f l (last_of f [a] e).
Proof. intros. reflexivity. Qed.
Lemma buffers_cons : forall a l, buffers (a :: l) = buffers [a] ++ buffers l.
Proof. intros. unfold buffers. cbn [flat_map]. rewrite app_nil_r. reflexivity. Qed.

Lemma one_buffer : forall buf a l, (buf = true -> buffers (a :: l) = []) -> (buf = false -> buffers (a :: l) = [] \/ buffers (a :: l) = [bf]) ->
  (buf = true -> buffers [a] = []) /\ (buf = false -> buffers [a] = [] \/ buffers [a] = [bf]) /\
  let buf' := buf || negb (length (buffers [a]) =? 0)%nat in (buf' = true -> buffers l = []) /\ (buf' = false -> buffers l = [] \/ buffers l = [bf]) /\
  buf || negb (length (buffers (a :: l)) =? 0)%nat = buf' || negb (length (buffers l) =? 0)%nat.
Proof.
  intros buf a l H1 H2. rewrite (buffers_cons a l) in *. destruct buf; cbn [orb] in *.
  - specialize (H1 eq_refl). apply app_eq_nil in H1. destruct H1 as [E1 E2]. rewrite E1, E2. cbn. repeat split; intros; first [match goal with H : _ = _ |- _ => discriminate H end | reflexivity | assumption | left; reflexivity | right; reflexivity | idtac].
  - specialize (H2 eq_refl). destruct (buffers [a]) as [|x r] eqn:E; cbn [app length Nat.eqb negb] in *; [repeat split; intros; first [match goal with H : _ = _ |- _ => discriminate H end | reflexivity | assumption | left; reflexivity | right; reflexivity | idtac]|]. destruct H2 as [H2|H2]; [discriminate H2|]. injection H2 as -> H2. apply app_eq_nil in H2. destruct H2 as [-> ->]. repeat split; intros; first [match goal with H : _ = _ |- _ => discriminate H end | reflexivity | assumption | left; reflexivity | right; reflexivity | idtac].
Qed.

Lemma settings_run : forall l p dd buf on x y f fuel rest, forallb is_setting l = true -> (buf = true -> buffers l = []) -> (buf = false -> buffers l = [] \/ buffers l = [bf]) ->
  absn_run exact sr almost_equal almost_zero fuel (waiting p dd buf on x y) f (l ++ rest) =
  absn_run exact sr almost_equal almost_zero fuel (waiting p dd (buf || negb (length (buffers l) =? 0)%nat) (last_of set_loop l on) (last_of set_lstart l x) (last_of set_lend l y)) f rest.
Proof.
  induction l as [|a l IH]; intros p dd buf on x y f fuel rest Hs H1 H2.
  - cbn [app buffers flat_map length Nat.eqb negb last_of]. rewrite orb_false_r. reflexivity.
  - cbn [forallb] in Hs. apply andb_true_iff in Hs. destruct Hs as [Ha Hs]. destruct (one_buffer buf a l H1 H2) as (B1 & B2 & B3 & B4 & B5).
    assert (E : absn_run exact sr almost_equal almost_zero fuel (waiting p dd buf on x y) f ((a :: l) ++ rest) = absn_run exact sr almost_equal almost_zero fuel (absn_message exact (waiting p dd buf on x y) a) f (l ++ rest)) by (destruct a; (discriminate || reflexivity)).
    rewrite E, setting_message by assumption. rewrite IH by assumption. rewrite !(last_of_cons _ _ _ a l), B5. reflexivity.
Qed.

Lemma waiting_run : forall l buf on x y q fuel rest, forallb is_waiting l = true -> (buf = true -> buffers l = []) -> (buf = false -> buffers l = [] \/ buffers l = [bf]) -> INR (128 * (q + quanta_in l)) / sr < max ->
  let p := mk_playback max 0 0 false false 0 in
  absn_run exact sr almost_equal almost_zero fuel (waiting p max buf on x y) (Z.of_nat (128 * q)) (l ++ rest) =
  do r <- absn_run exact sr almost_equal almost_zero fuel (waiting p max (buf || negb (length (buffers l) =? 0)%nat) (last_of set_loop l on) (last_of set_lstart l x) (last_of set_lend l y)) (Z.of_nat (128 * (q + quanta_in l))) rest;
  Ok (fst r, repeat (mk_outcome (absn_silence exact) false false) (quanta_in l) ++ snd r).
Proof.
  induction l as [|a l IH]; intros buf on x y q fuel rest Hs H1 H2 Hm p.
  - cbn [app buffers flat_map length Nat.eqb negb last_of quanta_in filter repeat]. rewrite orb_false_r, Nat.add_0_r. destruct (absn_run _ _ _ _ _ _ _ _) as [[r os]| |]; reflexivity.
  - cbn [forallb] in Hs. apply andb_true_iff in Hs. destruct Hs as [Ha Hs]. destruct (one_buffer buf a l H1 H2) as (B1 & B2 & B3 & B4 & B5).
    destruct (is_setting a) eqn:Hset.
    + assert (E : absn_run exact sr almost_equal almost_zero fuel (waiting p max buf on x y) (Z.of_nat (128 * q)) ((a :: l) ++ rest) = absn_run exact sr almost_equal almost_zero fuel (absn_message exact (waiting p max buf on x y) a) (Z.of_nat (128 * q)) (l ++ rest)) by (destruct a; (discriminate || reflexivity)).
      assert (Q : quanta_in (a :: l) = quanta_in l) by (destruct a; (discriminate || reflexivity)). rewrite E, setting_message by assumption. rewrite Q in *. rewrite (IH _ _ _ _ q) by assumption. rewrite !(last_of_cons _ _ _ a l), B5. reflexivity.
    + destruct a as [| | | | | |r de]; try discriminate. assert (Q : quanta_in (A_quantum r de :: l) = S (quanta_in l)) by reflexivity. rewrite Q in *. cbn [app absn_run].
      assert (Lt : forall n m, (n <= m)%nat -> INR n / sr <= INR m / sr) by (intros; apply Rmult_le_compat_r; [apply Rlt_le, Rinv_0_lt_compat; exact Hsr|apply le_INR; assumption]).
      assert (Ep : absn_process exact sr almost_equal almost_zero fuel (waiting p max buf on x y) (Z.of_nat (128 * q)) r de = Ok (waiting p max buf on x y, mk_outcome (absn_silence exact) false false)).
      { unfold absn_process, waiting. cbn [a_ended a_buffer a_play a_stop p p_start]. cbv zeta. replace (t_eq exact max max) with true by (cbn [exact t_eq]; symmetry; apply R_eq_true; reflexivity). cbn [negb]. rewrite andb_false_r.
        assert (Nx : t_add exact (block_time exact sr (Z.of_nat (128 * q))) (t_mul exact (dt exact sr) (t_of_Z exact (Z.of_nat RQ))) < max).
        { unfold block_time, dt, t_one. cbn [exact t_add t_mul t_div t_of_Z t_of_v]. rewrite <- !INR_IZR_INZ. change RQ with 128%nat. apply Rle_lt_trans with (2 := Hm). replace (INR (128 * q) / sr + 1 / sr * INR 128) with (INR (128 * (q + 1)) / sr) by (rewrite (Nat.mul_add_distr_l 128 q 1), plus_INR, Nat.mul_1_r; field; lra). apply Lt. lia. }
        set (nx := t_add exact _ _) in *. change (t_le exact nx max) with (R_le nx max). rewrite R_le_true by lra. change (t_le exact max nx) with (R_le max nx). rewrite R_le_false by exact Nx. reflexivity. }
      rewrite Ep. cbn [bind fst snd]. replace (Z.of_nat (128 * q) + Z.of_nat RQ)%Z with (Z.of_nat (128 * (q + 1))) by (change RQ with 128%nat; lia). cbn [buffers flat_map app length Nat.eqb negb] in B3, B4, B5. rewrite orb_false_r in B3, B4, B5.
      fold (buffers l). pose proof (IH buf on x y (q + 1)%nat fuel rest Hs B3 B4) as X. cbv zeta in X. fold p in X. rewrite X by (replace (q + 1 + quanta_in l)%nat with (q + S (quanta_in l))%nat by lia; exact Hm). replace (q + 1 + quanta_in l)%nat with (q + S (quanta_in l))%nat by lia.
      cbn [last_of set_loop set_lstart set_lend]. change (buffers (A_quantum r de :: l)) with (buffers l). match goal with |- context [absn_run _ _ _ _ ?fu ?st ?z rest] => destruct (absn_run exact sr almost_equal almost_zero fu st z rest) as [[[r1 r2] os]| |] end; reflexivity.
Qed.
End Setup.

(** ** The whole run *)
Section Whole.
Variables (sr brate : R) (L : nat).
Hypothesis Hsr : 0 < sr.
Hypothesis Hbr : 0 < brate.
Hypothesis HL : (0 < L)%nat.
Variable almost_equal : R -> R -> bool.
Variable almost_zero : R -> bool.
Hypothesis Heq : forall x y, almost_equal x y = true -> x = y.
Hypothesis Hzero : forall x, almost_zero x = true -> x = 0.
Variable chs : list (list R).
Hypothesis Hchs : chs <> [] /\ Forall (fun ch => length ch = L) chs.
Notation max := (t_MAX exact).
Notation D := (length_s brate L).

Lemma source_sound : forall looping ls le before after w o d steps,
  forallb is_waiting before = true -> forallb is_setting after = true -> buffers (before ++ after) = [mk_buffer chs brate] ->
  let m := quanta_in before in let call := mk_start m w o d in let sets := before ++ after in
  let lp := loop_within D (last_of set_loop sets looping) (last_of set_lstart sets ls) (last_of set_lend sets le) in
  let rate := rates m steps in let stop := stops max m steps in
  (l_on lp = true -> brate = sr /\ l_start lp * brate <= INR L - 1 /\ (max <= d \/ o <> 0 \/ l_start lp <> 0 \/ l_end lp <> D) /\ forall g, In g steps -> step_rate g < 0 -> l_end lp * brate < INR L) ->
  INR (128 * (m + length steps)) / sr < max ->
  exists n0 s os, (forall n, (n0 <= n)%nat -> absn_run exact sr almost_equal almost_zero n (absn_new exact looping ls le) 0 (before ++ A_start w o d :: after ++ steps_actions steps) = Ok (s, Z.of_nat (128 * (m + length steps)), os)) /\
    length os = (m + length steps)%nat /\
    forall k out, nth_error os k = Some out -> o_event out = ends_with sr brate L call lp rate stop k /\
      forall c i, (c < length chs)%nat -> (i < 128)%nat -> sample_at 0 (o_output out) c i = sample sr brate L call lp rate stop (nth c chs []) (128 * k + i).
Proof.
  intros looping ls le before0 after w o d steps Hb Ha Hbuf m call sets lp rate stop Hlp Hmax.
  assert (Edur : b_duration exact (mk_buffer chs brate) = D) by (apply b_dur; assumption).
  assert (HD : 0 < D) by (apply D_pos; assumption). set (bf := mk_buffer chs brate) in *. assert (Hbf : 0 < b_duration exact bf) by (rewrite Edur; exact HD).
  assert (Split : buffers before0 ++ buffers after = [bf]) by (unfold buffers in *; rewrite <- flat_map_app; exact Hbuf).
  assert (Bb : buffers before0 = [] \/ buffers before0 = [bf]). { destruct (buffers before0) as [|x r]; [left; reflexivity|]. injection Split as -> E. apply app_eq_nil in E. destruct E as [-> _]. right. reflexivity. }
  set (on := last_of set_loop sets looping) in *. set (a := last_of set_lstart sets ls) in *. set (c := last_of set_lend sets le) in *.
  assert (Last : forall (Y : Type) (f : action -> option Y) e, last_of f after (last_of f before0 e) = last_of f sets e). { intros Y f. unfold sets. induction before0 as [|x l IH]; intros e; [reflexivity|]. cbn [app last_of]. clear - IH. assert (G : forall l1 l2 e, last_of f l2 (last_of f l1 e) = last_of f (l1 ++ l2) e) by (induction l1 as [|y l1 IH1]; intros; [reflexivity|cbn [app last_of]; apply IH1]). apply G. }
  set (p0 := mk_playback w o 0 false false 0). set (rls := cs bf true a). set (rle := ce bf true c).
  (* the run up to the first step *)
  assert (Run : forall fuel, absn_run exact sr almost_equal almost_zero fuel (absn_new exact looping ls le) 0 (before0 ++ A_start w o d :: after ++ steps_actions steps) =
    do r <- absn_run exact sr almost_equal almost_zero fuel (mk_absn p0 max d (Some bf) on rls rle false false) (Z.of_nat (128 * m)) (steps_actions steps);
    Ok (fst r, repeat (mk_outcome (absn_silence exact) false false) m ++ snd r)).
  { intros fuel. change (absn_new exact looping ls le) with (waiting bf (mk_playback max 0 0 false false 0) max false looping ls le).
    pose proof (waiting_run sr Hsr almost_equal almost_zero bf Hbf before0 false looping ls le 0 fuel (A_start w o d :: after ++ steps_actions steps) Hb ltac:(discriminate) (fun _ => Bb)) as W. cbv zeta in W. cbn [Nat.add Nat.mul Z.of_nat] in W. rewrite W.
    2: { eapply Rle_lt_trans; [|exact Hmax]. apply Rmult_le_compat_r; [apply Rlt_le, Rinv_0_lt_compat; exact Hsr|]. apply le_INR. unfold m. lia. }
    clear W. fold m. cbn [orb]. set (hb := negb (length (buffers before0) =? 0)%nat). set (on1 := last_of set_loop before0 looping). set (a1 := last_of set_lstart before0 ls). set (c1 := last_of set_lend before0 le). cbn [absn_run].
    assert (Es : absn_message exact (waiting bf (mk_playback max 0 0 false false 0) max hb on1 a1 c1) (A_start w o d) = waiting bf p0 d hb on1 a1 c1).
    { change (clamp exact (mk_absn p0 max d (if hb then Some bf else None) on1 (cs bf hb a1) (ce bf hb c1) false false) = waiting bf p0 d hb on1 a1 c1). rewrite clamp_waiting, cs_again, ce_again by exact Hbf. reflexivity. }
    rewrite Es. rewrite (settings_run sr almost_equal almost_zero bf Hbf after p0 d hb on1 a1 c1).
    - assert (Eb : hb || negb (length (buffers after) =? 0)%nat = true). { unfold hb. destruct Bb as [B|B]; rewrite B in *; [cbn [app] in Split; rewrite Split; reflexivity|reflexivity]. }
      rewrite Eb. unfold waiting, on1, a1, c1. rewrite !Last. reflexivity.
    - exact Ha.
    - unfold hb. destruct Bb as [B|B]; rewrite B in *; [discriminate|]. intros _. cbn [app] in Split. injection Split as E. exact E.
    - unfold hb. destruct Bb as [B|B]; rewrite B in *; [|discriminate]. intros _. right. exact Split. }
  assert (Hon : l_on lp = on). { unfold lp, loop_within. cbv zeta. destruct (Rlt_dec (if Rlt_dec a 0 then 0 else Rmin a D) (if Rle_dec c 0 then D else Rmin c D)); reflexivity. }
  assert (Ers : rls = if Rlt_dec a 0 then 0 else Rmin a D). { unfold rls, cs, R_lt. rewrite Edur. destruct (Rlt_dec a 0); [reflexivity|]. destruct (Rlt_dec D a); [rewrite Rmin_right by lra|rewrite Rmin_left by lra]; reflexivity. }
  assert (Ere : rle = if Rle_dec c 0 then D else Rmin c D). { unfold rle, ce, R_lt, R_le. rewrite Edur. destruct (Rle_dec c 0); [reflexivity|]. cbn [orb]. destruct (Rlt_dec D c); [rewrite Rmin_right by lra|rewrite Rmin_left by lra]; reflexivity. }
  assert (Hclamp : 0 <= rls <= D /\ 0 < rle <= D). { rewrite Ers, Ere. split; [destruct (Rlt_dec a 0); [lra|]|destruct (Rle_dec c 0); [lra|]]; [split; [apply Rmin_glb; lra|apply Rmin_r]|split; [apply Rmin_glb_lt; lra|apply Rmin_r]]. }
  assert (Elp : lp = if Rlt_dec rls rle then mk_loop on rls rle else mk_loop on 0 D) by (unfold lp, loop_within; rewrite <- Ers, <- Ere; reflexivity).
  assert (Hloop : l_on lp = true -> l_start lp < l_end lp) by (intros _; rewrite Elp; destruct (Rlt_dec rls rle); cbn [l_start l_end]; lra).
  assert (Hraw : l_on lp = true -> if Rle_dec 0 rls then if Rlt_dec 0 rle then if Rlt_dec rls rle then l_start lp = rls /\ l_end lp = rle else l_start lp = 0 /\ l_end lp = D else l_start lp = 0 /\ l_end lp = D else l_start lp = 0 /\ l_end lp = D).
  { intros _. rewrite Elp. destruct (Rle_dec 0 rls); [|lra]. destruct (Rlt_dec 0 rle); [|lra]. destruct (Rlt_dec rls rle); split; reflexivity. }
  assert (Hdur : l_on lp = true -> max <= c_duration call \/ c_offset call <> 0 \/ rls <> 0 \/ rle <> D).
  { intros On. destruct (Hlp On) as (_ & _ & H & _). cbn [call c_duration c_offset]. rewrite Elp in H. destruct (Rlt_dec rls rle); cbn [l_start l_end] in H; [exact H|]. destruct H as [H|[H|[H|H]]]; [left; exact H|right; left; exact H|contradiction|contradiction]. }
  assert (Ent : entry sr brate L call lp rate rls rle m false p0) by (right; split; [apply (first_call sr L HL call)|reflexivity]).
  assert (Lk : forall k g, nth_error steps k = Some g -> loop_ok sr brate L lp rate (m + k)).
  { intros k g Hk On. destruct (Hlp On) as (H1 & H2 & _ & H3). split; [exact H1|]. assert (0 <= l_start lp) by (rewrite Elp; destruct (Rlt_dec rls rle); cbn [l_start]; lra). split; [assumption|]. split; [exact H2|]. intros Hneg. assert (0 <= l_end lp) by (rewrite Elp; destruct (Rlt_dec rls rle); cbn [l_end]; lra). split; [|assumption].
    apply (H3 g); [eapply nth_error_In; exact Hk|]. unfold rate, rates in Hneg. replace (m + k - m)%nat with k in Hneg by lia. rewrite (nth_error_nth (map step_rate steps) k 0 (x := step_rate g)) in Hneg by (apply map_nth_error; exact Hk). exact Hneg. }
  destruct (run_steps sr brate L Hsr Hbr HL almost_equal almost_zero Heq Hzero call lp Hloop rate stop chs Hchs rls rle Hraw Hdur Hclamp steps m max false p0) as (s & os & [n0 E] & Hl & Ho).
  - cbn [call c_quanta]. lia.
  - unfold alive. cbn [call c_quanta]. rewrite Nat.sub_diag. reflexivity.
  - exact Ent.
  - intros k g Hk. split; [|split; [|exact (Lk k g Hk)]].
    + unfold rate, rates. replace (m + k - m)%nat with k by lia. apply nth_error_nth. apply map_nth_error. exact Hk.
    + unfold stop, stops. replace (m + k - m)%nat with k by lia. reflexivity.
  - apply Rlt_le. exact Hmax.
  - cbn [call c_quanta] in *. exists n0, s, (repeat (mk_outcome (absn_silence exact) false false) m ++ os). split; [|split].
    + intros n Hn. rewrite Run. specialize (E n Hn). rewrite Hon in E. change (c_duration call) with d in E. fold bf in E. rewrite E. reflexivity.
    + rewrite app_length, repeat_length, Hl. reflexivity.
    + intros k out Hk. destruct (Nat.lt_ge_cases k m) as [C|C].
      * rewrite nth_error_app1 in Hk by (rewrite repeat_length; exact C). apply nth_error_In in Hk. apply repeat_spec in Hk. subst out. cbn [o_event o_output]. split.
        { unfold ends_with. cbn [call c_quanta]. destruct (Nat.leb_spec m k); [lia|reflexivity]. }
        intros c0 i _ Hi. rewrite silent_sample. unfold sample, sounding. pose proof (first_call sr L HL call) as F. cbn [call c_quanta] in F. destruct (Nat.leb_spec (first sr call) (128 * k + i)); [unfold call in *; lia|reflexivity].
      * rewrite nth_error_app2, repeat_length in Hk by (rewrite repeat_length; exact C). destruct (Ho _ _ Hk) as [O1 O2]. replace (m + (k - m))%nat with k in * by lia. split; [|exact O2]. rewrite O1. unfold ends_with. cbn [call c_quanta]. destruct (Nat.leb_spec m k); [reflexivity|lia].
Qed.
End Whole.
