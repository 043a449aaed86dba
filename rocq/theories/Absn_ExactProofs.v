(** The buffer source at unit rate, in exact arithmetic. *)
From Coq Require Import List Arith Bool ZArith Reals Lra Lia.
From Flocq Require Import Core.
From Verif Require Import Common_Model Arith_Model Arith_Real Source_Model Absn_Model Absn_Spec.
Import ListNotations.
Local Open Scope R_scope.

Lemma map_res_ok : forall (X Y : Type) (f : X -> res Y) (g : X -> Y) l, (forall x, In x l -> f x = Ok (g x)) -> map_res f l = Ok (map g l).
Proof.
  induction l as [|x l IH]; intros H; [reflexivity|]. cbn [map_res map]. rewrite (H x) by (left; reflexivity). cbn [bind]. rewrite IH by (intros y Hy; apply H; right; exact Hy). reflexivity.
Qed.
Lemma firstn_nth_map : forall (X : Type) n (l : list X) d, (n <= length l)%nat -> firstn n l = map (fun i => nth i l d) (seq 0 n).
Proof.
  induction n as [|n IH]; intros l d H; [reflexivity|]. destruct l as [|x l]; [cbn in H; lia|]. cbn [firstn seq map nth]. f_equal. rewrite (IH l d) by (cbn in H; lia).
  rewrite <- seq_shift, map_map. reflexivity.
Qed.
Lemma nth_skipn' : forall (X : Type) j i (l : list X) d, nth i (skipn j l) d = nth (j + i) l d.
Proof. induction j as [|j IH]; intros i l d; [reflexivity|]. destruct l; [destruct i; reflexivity|]. cbn. apply IH. Qed.

Section Exact.
Variable sr : R.
Hypothesis Hsr : 0 < sr.
Variable almost_equal : R -> R -> bool.
Variable almost_zero : R -> bool.
Variable tol : R.
Hypothesis Htol : 0 <= tol <= / 2.
(** almost::equal has a relative tolerance, almost::zero an absolute one that is less than the duration of a frame *)
Hypothesis Heq : forall x y, almost_equal x y = true -> Rabs (x - y) <= tol * Rmax (Rabs x) (Rabs y).
Hypothesis Hzero : forall x, almost_zero x = true -> Rabs x < / sr.
Variable fuel : nat.
Notation A := exact.
Notation max := (t_MAX exact).

(** the buffer *)
Variable chs : list (list R).
Variable L : nat.
Hypothesis HL : (0 < L)%nat.
Hypothesis Hchs : chs <> [] /\ Forall (fun ch => length ch = L) chs.
Let b := mk_buffer chs sr.
(** the first frame *)
Variable F : Z.
Hypothesis HF : (0 <= F)%Z.
Hypothesis HtolF : tol * IZR F < 1.

Lemma len_b : b_length b = L.
Proof. unfold b_length, b. cbn [b_channels]. destruct chs as [|c l]; [destruct Hchs; contradiction|]. destruct Hchs as [_ H]. apply Forall_cons_iff in H. apply H. Qed.
Lemma dur_b : b_duration A b = INR L / sr.
Proof. unfold b_duration. rewrite len_b. cbn [exact t_div t_of_Z t_of_v b b_rate]. rewrite <- INR_IZR_INZ. reflexivity. Qed.

Definition frame_at (n : Z) : R := IZR n / sr.
Lemma frame_lt : forall a c, (a < c)%Z <-> frame_at a < frame_at c.
Proof using Hsr.
  intros a c. unfold frame_at. split; intros H.
  - apply Rmult_lt_compat_r; [apply Rinv_0_lt_compat; exact Hsr|apply IZR_lt; exact H].
  - apply lt_IZR. apply Rmult_lt_reg_r with (/ sr); [apply Rinv_0_lt_compat; exact Hsr|exact H].
Qed.
Lemma frame_le : forall a c, (a <= c)%Z <-> frame_at a <= frame_at c.
Proof using Hsr. intros a c. rewrite <- Z.nlt_ge, frame_lt. split; lra. Qed.
Lemma frame_eq : forall a c, frame_at a = frame_at c -> a = c.
Proof using Hsr. intros a c H. destruct (Z.lt_trichotomy a c) as [C|[C|C]]; [|exact C|]; apply frame_lt in C; clear - C H; exfalso; lra. Qed.

(** the state at frame [n] *)
Definition play_at (n : Z) : @playback R := mk_playback (frame_at F) 0 (frame_at (Z.max 0 (n - F))) (F <? n)%Z false (frame_at (Z.max 0 (n - F))).
Definition info_at (n : Z) : option (nat * R) := if ((F <=? n) && (n <? F + Z.of_nat L))%Z then Some (Z.to_nat (n - F), 0) else None.

Ltac arith := unfold t_zero, t_one; cbn [exact t_add t_sub t_mul t_div t_of_Z t_of_v t_le t_lt t_eq t_abs t_max t_min t_floor t_to_Z v_of_Z v_of_t t_fma t_round t_rem].

Lemma dt_exact' : dt A sr = / sr.
Proof using Type. unfold dt. arith. lra. Qed.

Lemma frame_0 : frame_at 0 = 0.
Proof using Type. unfold frame_at. lra. Qed.
Lemma frame_plus : forall a c, frame_at (a + c) = frame_at a + frame_at c.
Proof using Type. intros. unfold frame_at. rewrite plus_IZR. lra. Qed.
Lemma frame_1 : frame_at 1 = / sr.
Proof using Type. unfold frame_at. lra. Qed.

Lemma not_equal_before : forall n, (n < F)%Z -> (0 <= n)%Z -> almost_equal (frame_at n) (frame_at F) = false.
Proof.
  intros n H Hn. destruct (almost_equal _ _) eqn:E; [|reflexivity]. exfalso. apply Heq in E. pose proof (proj1 (frame_lt n F) H) as L1. pose proof (proj1 (frame_le 0 n) Hn) as L0. rewrite frame_0 in L0.
  rewrite Rmax_right in E by (rewrite !Rabs_pos_eq; lra). rewrite <- Rabs_Ropp in E. rewrite (Rabs_pos_eq (frame_at F)) in E by lra. rewrite Rabs_pos_eq in E by lra.
  assert (frame_at 1 <= frame_at F - frame_at n). { assert (n + 1 <= F)%Z by lia. apply frame_le in H0. rewrite frame_plus in H0. lra. }
  rewrite frame_1 in H0. assert (tol * frame_at F < / sr). { unfold frame_at, Rdiv. rewrite <- Rmult_assoc. rewrite <- (Rmult_1_l (/ sr)) at 2. apply Rmult_lt_compat_r; [apply Rinv_0_lt_compat; exact Hsr|exact HtolF]. }
  lra.
Qed.

Lemma not_equal_max : forall x, 0 <= x -> x * 2 < max -> almost_equal x max = false.
Proof.
  intros x H0 H. destruct (almost_equal _ _) eqn:E; [|reflexivity]. exfalso. apply Heq in E. rewrite Rmax_right in E by (rewrite !Rabs_pos_eq; lra). rewrite <- Rabs_Ropp in E. rewrite (Rabs_pos_eq max) in E by lra. rewrite Rabs_pos_eq in E by lra. nra.
Qed.

(** the clock is far from f64::MAX *)
Definition in_range (n : Z) : Prop := (0 <= n)%Z /\ frame_at n * 2 < max.

Lemma R_le_true : forall x y, x <= y -> R_le x y = true.
Proof using Type. intros. unfold R_le. destruct (Rle_dec _ _); [reflexivity|lra]. Qed.
Lemma R_le_false : forall x y, y < x -> R_le x y = false.
Proof using Type. intros. unfold R_le. destruct (Rle_dec _ _); [lra|reflexivity]. Qed.
Lemma R_lt_true : forall x y, x < y -> R_lt x y = true.
Proof using Type. intros. unfold R_lt. destruct (Rlt_dec _ _); [reflexivity|lra]. Qed.
Lemma R_lt_false : forall x y, y <= x -> R_lt x y = false.
Proof using Type. intros. unfold R_lt. destruct (Rlt_dec _ _); [lra|reflexivity]. Qed.
Lemma R_eq_true : forall x y, x = y -> R_eq x y = true.
Proof using Type. intros. unfold R_eq. destruct (Req_EM_T _ _); [reflexivity|contradiction]. Qed.
Lemma R_eq_false : forall x y, x <> y -> R_eq x y = false.
Proof using Type. intros. unfold R_eq. destruct (Req_EM_T _ _); [contradiction|reflexivity]. Qed.

Lemma playhead_at : forall j, frame_at j * (sr / sr) * sr = IZR j.
Proof using Hsr. intros. unfold frame_at. field. lra. Qed.

Lemma slow_sample_exact : forall n, in_range (n + 1) -> (0 <= n)%Z -> in_range F ->
  slow_sample A sr almost_equal almost_zero fuel max max false 0 0 1 (INR L / sr) (sr / sr) L (play_at n) (frame_at n) = Ok (play_at (n + 1), info_at n).
Proof.
  intros n [R0 R1] Hn RF. unfold slow_sample, play_at. cbn [p_started p_start]. arith.
  assert (P1 : 0 <= frame_at n) by (rewrite <- frame_0; apply frame_le; exact Hn). assert (P2 : frame_at n * 2 < max) by (assert (frame_at n <= frame_at (n + 1)) by (apply frame_le; lia); lra).
  assert (PL : 0 < INR L / sr) by (apply Rmult_lt_0_compat; [apply (lt_INR 0); exact HL|apply Rinv_0_lt_compat; exact Hsr]).
  destruct (Z.lt_trichotomy n F) as [C|[C|C]].
  - (* before the start *)
    replace (F <? n)%Z with false by (symmetry; apply Z.ltb_ge; lia). replace (Z.max 0 (n - F)) with 0%Z by lia. replace (Z.max 0 (n + 1 - F)) with 0%Z by lia. replace (F <? n + 1)%Z with false by (symmetry; apply Z.ltb_ge; lia).
    rewrite not_equal_before by assumption. cbn [negb andb p_elapsed]. rewrite frame_0. rewrite not_equal_max by lra. cbn [p_start p_elapsed].
    rewrite (R_lt_true (frame_at n)) by (apply frame_lt; exact C). cbn [orb]. unfold info_at. replace (F <=? n)%Z with false by (symmetry; apply Z.leb_gt; lia). reflexivity.
  - (* the first frame *)
    subst n. rewrite Z.ltb_irrefl. cbn [negb andb]. replace (Z.max 0 (F - F)) with 0%Z by lia.
    set (p0 := mk_playback (frame_at F) 0 (frame_at 0) false false (frame_at 0)).
    replace (if almost_equal (frame_at F) (frame_at F) then p_at p0 (frame_at F) else p0) with p0 by (destruct (almost_equal _ _); reflexivity).
    unfold p0. cbn [p_elapsed p_start p_started]. rewrite frame_0. rewrite not_equal_max by lra. cbn [p_elapsed p_start p_started].
    rewrite R_lt_false by lra. rewrite R_le_false by lra. rewrite R_le_false by lra. cbn [orb].
    unfold begin. cbn [p_start p_offset p_entered andb]. arith. cbn [exact t_add t_sub t_mul t_min t_max t_abs].
    replace (frame_at F - frame_at F) with 0 by lra. replace (0 + 0 * 1) with 0 by lra. replace (0 * 1) with 0 by lra. rewrite Rabs_R0. rewrite Rmax_left by lra. rewrite Rmin_left by lra. cbn [bind].
    match goal with |- context [if almost_zero ?t then ?x else ?y] => replace (if almost_zero t then x else y) with y by (destruct (almost_zero t); reflexivity) end. cbn [p_time p_elapsed].
    rewrite R_le_true by lra. rewrite R_lt_true by exact PL. cbn [andb]. replace (0 * (sr / sr) * sr) with 0 by (field; lra).
    change 0 with (IZR 0) at 1 2. rewrite Zfloor_IZR. unfold R_to_Z. rewrite Ztrunc_IZR. change (Z.max 0 0) with 0%Z. replace (0 <? Z.of_nat L)%Z with true by (symmetry; apply Z.ltb_lt; lia).
    unfold p_elapse, p_move. cbn [p_start p_offset p_started p_entered p_time p_elapsed]. rewrite dt_exact'. replace (Z.max 0 (F + 1 - F)) with 1%Z by lia. rewrite frame_1. replace (F <? F + 1)%Z with true by (symmetry; apply Z.ltb_lt; lia).
    assert (0 < / sr) by (apply Rinv_0_lt_compat; exact Hsr). replace (0 + / sr * 1) with (/ sr) by lra. replace (/ sr * 1) with (/ sr) by lra. rewrite Rabs_pos_eq by lra. rewrite Rplus_0_l.
    unfold info_at. rewrite Z.leb_refl. replace (F <? F + Z.of_nat L)%Z with true by (symmetry; apply Z.ltb_lt; lia). cbn [andb]. rewrite Z.sub_diag. cbn [Z.to_nat]. do 3 f_equal. f_equal. lra.
  - (* later *)
    replace (F <? n)%Z with true by (symmetry; apply Z.ltb_lt; lia). replace (F <? n + 1)%Z with true by (symmetry; apply Z.ltb_lt; lia). cbn [negb andb p_elapsed].
    replace (Z.max 0 (n - F)) with (n - F)%Z by lia. replace (Z.max 0 (n + 1 - F)) with (n - F + 1)%Z by lia. assert (Pj : / sr <= frame_at (n - F)) by (rewrite <- frame_1; apply frame_le; lia).
    assert (0 < / sr) by (apply Rinv_0_lt_compat; exact Hsr). assert (Bj : frame_at (n - F) <= frame_at n) by (apply frame_le; lia).
    rewrite not_equal_max by lra. cbn [p_start p_elapsed p_started]. rewrite R_lt_false by (apply frame_le; lia). rewrite R_le_false by lra. rewrite R_le_false by lra. cbn [orb bind p_time].
    replace (almost_zero (frame_at (n - F))) with false by (symmetry; destruct (almost_zero _) eqn:E; [apply Hzero in E; rewrite Rabs_pos_eq in E by lra; lra|reflexivity]). cbn [p_time p_elapsed].
    rewrite R_le_true by lra. cbn [andb]. rewrite playhead_at, Zfloor_IZR. unfold R_to_Z. rewrite Ztrunc_IZR. rewrite Z.max_r by lia.
    unfold p_elapse, p_move. cbn [p_start p_offset p_started p_entered p_time p_elapsed]. rewrite dt_exact'. rewrite frame_plus, frame_1. replace (/ sr * 1) with (/ sr) by lra. rewrite (Rabs_pos_eq (/ sr)) by lra.
    f_equal. f_equal. unfold info_at. replace (F <=? n)%Z with true by (symmetry; apply Z.leb_le; lia). cbn [andb].
    destruct (Z.ltb_spec n (F + Z.of_nat L)) as [C2|C2].
    + rewrite R_lt_true. * replace (n - F <? Z.of_nat L)%Z with true by (symmetry; apply Z.ltb_lt; lia). do 2 f_equal. lra.
      * rewrite INR_IZR_INZ. apply (proj1 (frame_lt (n - F) (Z.of_nat L))). lia.
    + rewrite R_lt_false; [reflexivity|]. rewrite INR_IZR_INZ. apply (proj1 (frame_le (Z.of_nat L) (n - F))). lia.
Qed.

Lemma time_at : forall f i, frame_at f + IZR (Z.of_nat i) * / sr = frame_at (f + Z.of_nat i).
Proof using Type. intros. rewrite frame_plus. unfold frame_at. lra. Qed.

Lemma slow_samples_exact : forall n i f, (0 <= f)%Z -> in_range (f + Z.of_nat (i + n)) -> in_range F ->
  slow_samples A sr almost_equal almost_zero fuel max max false 0 0 1 (INR L / sr) (sr / sr) L n i (play_at (f + Z.of_nat i)) (frame_at f)
  = Ok (play_at (f + Z.of_nat (i + n)), map (fun k => info_at (f + Z.of_nat k)) (seq i n)).
Proof.
  induction n as [|n IH]; intros i f Hf R RF; cbn [slow_samples seq map]; [rewrite Nat.add_0_r; reflexivity|]. rewrite dt_exact'. cbn [exact t_add t_mul t_of_Z]. rewrite time_at.
  assert (R' : in_range (f + Z.of_nat i + 1)). { destruct R as [R0 R1]. split; [lia|]. eapply Rle_lt_trans; [|exact R1]. apply Rmult_le_compat_r; [lra|]. apply frame_le. lia. }
  rewrite slow_sample_exact by (try assumption; lia). cbn [bind fst snd]. replace (f + Z.of_nat i + 1)%Z with (f + Z.of_nat (S i))%Z by lia.
  rewrite IH; [|exact Hf|replace (S i + n)%nat with (i + S n)%nat by lia; exact R|exact RF]. cbn [bind fst snd]. replace (S i + n)%nat with (i + S n)%nat by lia. reflexivity.
Qed.

Lemma interpolate_exact : forall ch n prate, length ch = L -> interpolate A sr almost_equal false 0 0 prate ch (info_at n) = Ok (play 0 F ch n).
Proof.
  intros ch n prate Hl. unfold interpolate, info_at, play. rewrite Hl. destruct ((F <=? n) && (n <? F + Z.of_nat L))%Z eqn:C; [|reflexivity].
  apply andb_true_iff in C. destruct C as [C1 C2]. apply Z.leb_le in C1. apply Z.ltb_lt in C2. set (j := Z.to_nat (n - F)). assert (Hj : (j < L)%nat) by (unfold j; lia).
  unfold index. rewrite (nth_error_nth' ch 0) by lia. cbn [from_option bind].
  match goal with |- context [bind ?e _] => assert (E : exists x, e = Ok x) end.
  { destruct (nth_error ch (j + 1)); [eexists; reflexivity|]. destruct (almost_equal 0 (t_one A) || (j =? 0)%nat) eqn:E; [eexists; reflexivity|].
    rewrite (nth_error_nth' ch 0) by lia. eexists; reflexivity. }
  destruct E as (x & ->). cbn [bind]. unfold t_one. cbn [exact v_of_t t_fma t_sub t_of_Z t_of_v t_mul]. f_equal. lra.
Qed.

Definition state (n : Z) (aligned ended : bool) : @absn R R := mk_absn (play_at n) max max (Some b) false 0 (INR L / sr) aligned ended.
Definition outs (f : Z) : list (list R) := map (fun ch => map (fun i => play 0 F ch (f + Z.of_nat i)) (seq 0 128)) chs.

Lemma slow_track_exact : forall f aligned prate, (0 <= f)%Z -> in_range (f + 128) -> in_range F ->
  slow_track A sr almost_equal almost_zero fuel (state f aligned false) b (frame_at f) 1 prate (sr / sr) = Ok (state (f + 128) aligned false, outs f).
Proof.
  intros f aligned prate Hf R RF. unfold slow_track, state. cbn [a_loop a_stop a_duration a_play a_lstart a_lend]. rewrite len_b, dur_b. unfold t_zero. cbn [exact t_of_Z].
  replace (p_enter (play_at f) false) with (play_at f) by reflexivity. pose proof (slow_samples_exact RQ 0 f Hf) as S. cbn [Nat.add] in S. rewrite Z.add_0_r in S. change (Z.of_nat RQ) with 128%Z in S. rewrite (S R RF). clear S. cbn [bind fst snd].
  rewrite (map_res_ok _ _ _ (fun ch => map (fun i => play 0 F ch (f + Z.of_nat i)) (seq 0 128))).
  - reflexivity.
  - intros ch Hin. change RQ with 128%nat. rewrite (map_res_ok _ _ _ (fun o => match o with None => 0 | Some (j, k) => nth j ch 0 end)).
    + rewrite map_map. f_equal. apply map_ext. intros i. unfold info_at, play. destruct Hchs as [_ H]. rewrite Forall_forall in H. rewrite (H ch Hin). destruct (_ && _); reflexivity.
    + intros o Ho. apply in_map_iff in Ho. destruct Ho as (i & <- & _). destruct Hchs as [_ H]. rewrite Forall_forall in H. rewrite interpolate_exact by (apply H; exact Hin).
      unfold info_at, play. rewrite (H ch Hin). destruct (_ && _); reflexivity.
Qed.

Lemma fast_samples_exact : forall ch n i j, length ch = L -> fast_samples A false ch L n i j 0 None =
  Ok (map (fun k => if (j + k <? L)%nat then nth (j + k) ch 0 else 0) (seq i n), None).
Proof.
  intros ch n. induction n as [|n IH]; intros i j Hl; [reflexivity|]. cbn [fast_samples seq map]. rewrite Nat.sub_0_r. destruct (Nat.ltb_spec (j + i) L) as [C|C].
  - unfold index. rewrite (nth_error_nth' ch 0) by lia. cbn [from_option bind]. rewrite IH by exact Hl. reflexivity.
  - rewrite IH by exact Hl. reflexivity.
Qed.
Lemma fast_channels_exact : forall l j, Forall (fun ch => length ch = L) l -> fast_channels A false L j l None =
  Ok (map (fun ch => map (fun k => if (j + k <? L)%nat then nth (j + k) ch 0 else 0) (seq 0 128)) l, None).
Proof.
  induction l as [|ch l IH]; intros j H; [reflexivity|]. apply Forall_cons_iff in H. destruct H as [H1 H2]. cbn [fast_channels map]. rewrite fast_samples_exact by exact H1. cbn [bind fst snd]. rewrite IH by exact H2. reflexivity.
Qed.

Lemma play_nth : forall ch f i, length ch = L -> (F <= f)%Z -> play 0 F ch (f + Z.of_nat i) = if (Z.to_nat (f - F) + i <? L)%nat then nth (Z.to_nat (f - F) + i) ch 0 else 0.
Proof.
  intros ch f i Hl Hf. unfold play. rewrite Hl. replace (F <=? f + Z.of_nat i)%Z with true by (symmetry; apply Z.leb_le; lia). cbn [andb].
  destruct (Z.ltb_spec (f + Z.of_nat i) (F + Z.of_nat L)); destruct (Nat.ltb_spec (Z.to_nat (f - F) + i) L); try lia; try reflexivity. f_equal. lia.
Qed.

Lemma span_exact : dt A sr * IZR (Z.of_nat RQ) = frame_at 128.
Proof using Type. rewrite dt_exact'. unfold frame_at. change (IZR (Z.of_nat RQ)) with 128. lra. Qed.

Lemma fast_track_exact : forall f, (F <= f)%Z ->
  fast_track A sr (state f true false) b (frame_at f) (frame_at 128) = Ok (state (f + 128) true false, outs f).
Proof.
  intros f Hf. unfold fast_track, state. cbn [a_play a_loop]. rewrite len_b, dur_b.
  assert (Eb : (if t_eq A (p_start (play_at f)) (frame_at f) then p_begin (play_at f) else play_at f) = mk_playback (frame_at F) 0 (frame_at (f - F)) true false (frame_at (f - F))).
  { unfold play_at. replace (Z.max 0 (f - F)) with (f - F)%Z by lia. cbn [p_start exact t_eq]. unfold R_eq. destruct (Req_EM_T _ _) as [E|E]; [reflexivity|].
    replace (F <? f)%Z with true; [reflexivity|]. symmetry. apply Z.ltb_lt. assert (F <> f) by (intros ->; apply E; reflexivity). lia. }
  rewrite Eb. cbn [p_time p_elapsed]. cbn [exact t_mul t_of_v t_round t_to_Z t_lt t_add].
  assert (Es : Z.to_nat (R_to_Z (R_round (frame_at (f - F) * sr))) = Z.to_nat (f - F)).
  { replace (frame_at (f - F) * sr) with (IZR (f - F)) by (unfold frame_at; field; lra). unfold R_round. assert (0 <= IZR (f - F)) by (apply (IZR_le 0); lia). destruct (Rle_dec _ _); [|lra].
    replace (Zfloor (IZR (f - F) + / 2)) with (f - F)%Z by (symmetry; apply Zfloor_imp; rewrite plus_IZR; lra). unfold R_to_Z. rewrite Ztrunc_IZR. f_equal. lia. }
  rewrite Es. rewrite <- frame_plus.
  assert (St : with_play (mk_absn (play_at f) max max (Some b) false 0 (INR L / sr) true false)
                 (p_elapse (p_move (mk_playback (frame_at F) 0 (frame_at (f - F)) true false (frame_at (f - F))) (frame_at (f - F + 128))) (frame_at (f - F + 128)))
               = mk_absn (play_at (f + 128)) max max (Some b) false 0 (INR L / sr) true false).
  { unfold with_play, p_elapse, p_move, play_at. cbn. replace (Z.max 0 (f + 128 - F)) with (f - F + 128)%Z by lia. replace (F <? f + 128)%Z with true by (symmetry; apply Z.ltb_lt; lia). reflexivity. }
  destruct Hchs as [_ HchsF].
  assert (Out : forall g, (forall ch i, In ch chs -> (i < 128)%nat -> g ch i = play 0 F ch (f + Z.of_nat i)) -> map (fun ch => map (g ch) (seq 0 128)) chs = outs f).
  { intros g Hg. unfold outs. apply map_ext_in. intros ch Hin. apply map_ext_in. intros i Hi. apply in_seq in Hi. apply Hg; [exact Hin|lia]. }
  unfold R_lt. destruct (Rlt_dec _ _) as [C|C].
  - cbn [b b_channels]. rewrite fast_channels_exact by exact HchsF. cbn [bind fst snd]. rewrite St. f_equal. f_equal. apply (Out (fun ch i => if (Z.to_nat (f - F) + i <? L)%nat then nth (Z.to_nat (f - F) + i) ch 0 else 0)). intros ch i Hin Hi. rewrite Forall_forall in HchsF. symmetry. apply play_nth; [apply HchsF; exact Hin|exact Hf].
  - assert (C2 : (f - F + 128 <= Z.of_nat L)%Z). { apply frame_le. unfold frame_at at 2. rewrite <- INR_IZR_INZ. lra. }
    cbn [b b_channels]. rewrite (map_res_ok _ _ _ (fun ch => map (fun i => nth (Z.to_nat (f - F) + i) ch 0) (seq 0 128))).
    + cbn [bind fst snd]. rewrite St. f_equal. f_equal. apply (Out (fun ch i => nth (Z.to_nat (f - F) + i) ch 0)). intros ch i Hin Hi. rewrite Forall_forall in HchsF. rewrite play_nth by (try (apply HchsF; exact Hin); exact Hf).
      replace (Z.to_nat (f - F) + i <? L)%nat with true by (symmetry; apply Nat.ltb_lt; lia). reflexivity.
    + intros ch Hin. rewrite Forall_forall in HchsF. specialize (HchsF ch Hin). unfold slice, RQ. replace (Z.to_nat (f - F) <=? Z.to_nat (f - F) + 128)%nat with true by (symmetry; apply Nat.leb_le; lia).
      replace (Z.to_nat (f - F) + 128 <=? length ch)%nat with true by (symmetry; apply Nat.leb_le; lia). cbn [andb]. f_equal. replace (Z.to_nat (f - F) + 128 - Z.to_nat (f - F))%nat with 128%nat by lia.
      rewrite (firstn_nth_map _ 128 _ 0) by (rewrite skipn_length; lia). apply map_ext. intros i. apply nth_skipn'.
Qed.

Lemma exp2_0 : R_exp2 (0 / 1200) = 1.
Proof using Type. unfold R_exp2. replace (0 / 1200) with 0 by lra. apply Rpower_O. lra. Qed.

Lemma in_range_mono : forall a c, (0 <= a <= c)%Z -> in_range c -> in_range a.
Proof using Hsr. clear HL HF. intros a c H [R0 R1]. split; [lia|]. eapply Rle_lt_trans; [|exact R1]. apply Rmult_le_compat_r; [lra|]. apply frame_le. lia. Qed.

Lemma silent_out : forall f c i, (f + 128 <= F \/ F + Z.of_nat L <= f)%Z -> (i < 128)%nat -> (c < length chs)%nat -> sample_at 0 (absn_silence A) c i = play 0 F (nth c chs []) (f + Z.of_nat i).
Proof using Hchs.
  clear HL HF.
  intros f c i H Hi Hc. destruct Hchs as [_ HF2]. rewrite Forall_forall in HF2. unfold play. rewrite (HF2 (nth c chs [])) by (apply nth_In; exact Hc).
  replace ((F <=? f + Z.of_nat i) && (f + Z.of_nat i <? F + Z.of_nat L))%Z with false by (symmetry; apply andb_false_iff; destruct H; [left; apply Z.leb_gt; lia|right; apply Z.ltb_ge; lia]).
  unfold sample_at, absn_silence, silence. destruct c as [|[|c]]; cbn [nth]; [|destruct i; reflexivity|destruct i; reflexivity]. unfold v_zero. cbn [exact v_of_Z]. apply nth_repeat.
Qed.

Lemma nth_map_seq : forall (X : Type) (g : nat -> X) n i d, (i < n)%nat -> nth i (map g (seq 0 n)) d = g i.
Proof using Type. intros X g n i d H. rewrite nth_indep with (d' := g 0%nat) by (rewrite map_length, seq_length; exact H). rewrite map_nth, seq_nth by exact H. reflexivity. Qed.
Lemma outs_sample : forall f c i, (i < 128)%nat -> (c < length chs)%nat -> sample_at 0 (outs f) c i = play 0 F (nth c chs []) (f + Z.of_nat i).
Proof using Type.
  intros f c i Hi Hc. unfold sample_at, outs. rewrite nth_indep with (d' := map (fun i => play 0 F [] (f + Z.of_nat i)) (seq 0 128)) by (rewrite map_length; exact Hc).
  rewrite (map_nth (fun ch => map (fun i => play 0 F ch (f + Z.of_nat i)) (seq 0 128))). apply (nth_map_seq R (fun i => play 0 F (nth c chs []) (f + Z.of_nat i))). exact Hi.
Qed.

(** one quantum, before the end *)
Lemma process_exact : forall f aligned, (0 <= f)%Z -> in_range (f + 128) -> in_range F -> (f < F + Z.of_nat L)%Z -> (f <= F -> aligned = false)%Z ->
  exists al o, absn_process A sr almost_equal almost_zero fuel (state f aligned false) f 1 0 = Ok (state (f + 128) al (o_event o), o) /\
    (f + 128 <= F -> al = false)%Z /\ o_event o = ends_in F L f /\
    forall c i, (c < length chs)%nat -> (i < 128)%nat -> sample_at 0 (o_output o) c i = play 0 F (nth c chs []) (f + Z.of_nat i).
Proof.
  intros f aligned Hf R RF HfL Hal. unfold absn_process. cbn [state a_ended a_buffer a_play andb a_stop p_start play_at]. unfold block_time. cbn [exact t_mul t_add t_of_Z t_div t_of_v t_le t_eq t_exp2].
  fold (frame_at f). rewrite span_exact, <- frame_plus. assert (Rn : frame_at (f + 128) < max) by (destruct R as [R0 R1]; assert (0 <= frame_at (f + 128)) by (rewrite <- frame_0; apply frame_le; lia); lra).
  destruct (Z.le_gt_cases (f + 128) F) as [C|C].
  - rewrite R_le_true by (apply frame_le; exact C). rewrite R_le_false by exact Rn. exists aligned, (mk_outcome (absn_silence A) (negb (R_eq (frame_at F) max)) false). split; [|split; [intros _; apply Hal; lia|split; [|intros c i Hc Hi; apply silent_out; auto]]].
    + cbn [o_event]. f_equal. unfold state. rewrite (Hal ltac:(lia)). unfold play_at. replace (Z.max 0 (f + 128 - F)) with (Z.max 0 (f - F)) by lia. replace (F <? f + 128)%Z with (F <? f)%Z; [reflexivity|]. transitivity false; [apply Z.ltb_ge; lia|symmetry; apply Z.ltb_ge; lia].
    + cbn [o_event]. unfold ends_in. symmetry. apply andb_false_iff. right. apply Z.leb_gt. lia.
  - rewrite R_le_false by (apply frame_lt; exact C). rewrite exp2_0, Rmult_1_r.
    match goal with |- context [if ?x then with_play _ _ else _] => replace x with false end.
    2:{ symmetry. unfold play_at. cbn [p_started p_start]. destruct (Z.ltb_spec F f); [reflexivity|]. cbn [negb andb exact t_lt]. apply R_lt_false. apply frame_le. lia. }
    cbn [b b_rate]. fold (state f aligned false). set (dec := decide A (state f aligned false) b (frame_at f) (frame_at 128) 1 (sr / sr)).
    assert (Hdec : (f < F)%Z -> dec = false).
    { intros H. unfold dec, decide. cbn [a_play state play_at p_start p_offset a_aligned exact t_eq]. rewrite R_eq_false by (intros E; apply frame_eq in E; lia). cbn [andb]. rewrite Hal by lia. reflexivity. }
    change (with_aligned (state f aligned false) dec) with (state f dec false). change (a_aligned (state f dec false)) with dec.
    assert (Tr : (if dec then fast_track A sr (state f dec false) b (frame_at f) (frame_at 128) else slow_track A sr almost_equal almost_zero fuel (state f dec false) b (frame_at f) 1 1 (sr / sr))
                 = Ok (state (f + 128) dec false, outs f)).
    { destruct dec eqn:E; [apply fast_track_exact; destruct (Z.lt_ge_cases f F) as [H|H]; [discriminate (Hdec H)|lia]|apply slow_track_exact; assumption]. }
    rewrite Tr. cbn [bind fst snd]. change (a_stop (state (f + 128) dec false)) with max. change (a_duration (state (f + 128) dec false)) with max. change (a_loop (state (f + 128) dec false)) with false.
    change (p_elapsed (a_play (state (f + 128) dec false))) with (frame_at (Z.max 0 (f + 128 - F))). change (p_time (a_play (state (f + 128) dec false))) with (frame_at (Z.max 0 (f + 128 - F))). rewrite dur_b. cbn [negb].
    assert (Em : frame_at (Z.max 0 (f + 128 - F)) < max). { eapply Rle_lt_trans; [|exact Rn]. apply frame_le. lia. }
    cbn [exact t_le t_lt]. rewrite R_le_false by exact Rn. rewrite R_le_false by exact Em. unfold t_zero. cbn [exact t_of_Z orb andb]. rewrite R_lt_true by lra. rewrite (R_lt_false 1 0) by lra. cbn [andb]. rewrite orb_false_r.
    set (over := R_le (INR L / sr) _). assert (Eo : over = ends_in F L f).
    { unfold over, ends_in. replace (f <? F + Z.of_nat L)%Z with true by (symmetry; apply Z.ltb_lt; lia). cbn [andb]. rewrite INR_IZR_INZ. fold (frame_at (Z.of_nat L)).
      destruct (Z.leb_spec (F + Z.of_nat L) (f + 128)); [apply R_le_true; apply frame_le; lia|apply R_le_false; apply frame_lt; lia]. }
    exists dec, (mk_outcome (outs f) true over). split; [|split; [intros H; lia|split; [exact Eo|intros c i Hc Hi; apply outs_sample; assumption]]].
    cbn [o_event]. f_equal. f_equal. destruct over; reflexivity.
Qed.

(** all quanta *)
Fixpoint unit_quanta (n : nat) : list (@absn_action R R) := match n with 0 => [] | S n' => A_quantum 1 0 :: unit_quanta n' end.

Lemma done_exact : forall n f s, a_ended s = true -> absn_run A sr almost_equal almost_zero fuel s f (unit_quanta n) =
  Ok (s, (f + 128 * Z.of_nat n)%Z, repeat (mk_outcome (absn_silence A) false false) n).
Proof.
  induction n as [|n IH]; intros f s H; cbn [unit_quanta absn_run repeat]; [f_equal; f_equal; f_equal; lia|]. unfold absn_process. rewrite H. cbn [bind fst snd]. rewrite IH by exact H. cbn [bind fst snd]. f_equal. f_equal. f_equal. change (Z.of_nat RQ) with 128%Z. lia.
Qed.

Definition as_expected (f : Z) (os : list (@outcome (list R))) : Prop :=
  forall k o, nth_error os k = Some o ->
    o_event o = ends_in F L (f + 128 * Z.of_nat k) /\
    forall c i, (c < length chs)%nat -> (i < 128)%nat -> sample_at 0 (o_output o) c i = play 0 F (nth c chs []) (f + 128 * Z.of_nat k + Z.of_nat i).

Lemma run_exact : forall n f aligned, (0 <= f)%Z -> in_range (f + 128 * Z.of_nat n) -> in_range F -> (f < F + Z.of_nat L)%Z -> (f <= F -> aligned = false)%Z ->
  exists s os, absn_run A sr almost_equal almost_zero fuel (state f aligned false) f (unit_quanta n) = Ok (s, (f + 128 * Z.of_nat n)%Z, os) /\ length os = n /\ as_expected f os.
Proof.
  induction n as [|n IH]; intros f aligned Hf R RF HfL Hal; cbn [unit_quanta absn_run].
  - do 2 eexists. split; [f_equal; f_equal; f_equal; lia|]. split; [reflexivity|]. intros [|k] o E; discriminate.
  - destruct (process_exact f aligned Hf) as (al & o & E & Ha & Ev & Out); try assumption; [eapply in_range_mono; [|exact R]; lia|].
    rewrite E. cbn [bind fst snd]. change (Z.of_nat RQ) with 128%Z.
    assert (Cons : forall s2 os, absn_run A sr almost_equal almost_zero fuel (state (f + 128) al (o_event o)) (f + 128) (unit_quanta n) = Ok (s2, (f + 128 * Z.of_nat (S n))%Z, os) -> length os = n -> as_expected (f + 128) os ->
      exists s os, (do y <- absn_run A sr almost_equal almost_zero fuel (state (f + 128) al (o_event o)) (f + 128) (unit_quanta n); Ok (fst y, o :: snd y)) = Ok (s, (f + 128 * Z.of_nat (S n))%Z, os) /\ length os = S n /\ as_expected f os).
    { intros s2 os E2 Len Ex. rewrite E2. cbn [bind fst snd]. do 2 eexists. split; [reflexivity|]. split; [cbn; lia|]. intros [|k] o' E'.
      - injection E' as <-. replace (f + 128 * Z.of_nat 0)%Z with f by lia. split; assumption.
      - cbn [nth_error] in E'. replace (f + 128 * Z.of_nat (S k))%Z with (f + 128 + 128 * Z.of_nat k)%Z by lia. apply Ex. exact E'. }
    destruct (o_event o) eqn:Eo.
    + symmetry in Ev. unfold ends_in in Ev. apply andb_true_iff in Ev. destruct Ev as [_ Ev]. apply Z.leb_le in Ev.
      eapply Cons; [rewrite done_exact by reflexivity; do 3 f_equal; lia|apply repeat_length|]. intros k o' E'. apply nth_error_In in E'. apply repeat_spec in E'. subst o'. cbn [o_event o_output].
      split; [unfold ends_in; symmetry; apply andb_false_iff; left; apply Z.ltb_ge; lia|]. intros c i Hc Hi. apply silent_out; [right; lia|exact Hi|exact Hc].
    + assert (f + 128 < F + Z.of_nat L)%Z. { symmetry in Ev. unfold ends_in in Ev. apply andb_false_iff in Ev. destruct Ev as [Ev|Ev]; [apply Z.ltb_ge in Ev; lia|apply Z.leb_gt in Ev; lia]. }
      destruct (IH (f + 128)%Z al) as (s & os & E2 & Len & Ex); try assumption; [lia|replace (f + 128 + 128 * Z.of_nat n)%Z with (f + 128 * Z.of_nat (S n))%Z by lia; exact R|].
      eapply Cons; [rewrite E2; do 3 f_equal; lia|exact Len|exact Ex].
Qed.
End Exact.

(** ** From the construction of the node *)
Section Start.
Notation A := exact.
Notation max := (t_MAX exact).
Variable sr : R.
Hypothesis Hsr : 0 < sr.
Variable almost_equal : R -> R -> bool.
Variable almost_zero : R -> bool.
Variable tol : R.
Hypothesis Htol : 0 <= tol <= / 2.
Hypothesis Heq : forall x y, almost_equal x y = true -> Rabs (x - y) <= tol * Rmax (Rabs x) (Rabs y).
Hypothesis Hzero : forall x, almost_zero x = true -> Rabs x < / sr.
Variable fuel : nat.
Variable chs : list (list R).
Variable L : nat.
Hypothesis HL : (0 < L)%nat.
Hypothesis Hchs : chs <> [] /\ Forall (fun ch => length ch = L) chs.
Let b := mk_buffer chs sr.

Lemma unstarted : forall n f, (0 <= f)%Z -> in_range sr (f + 128 * Z.of_nat n) -> forall buf le,
  let s := mk_absn (mk_playback max 0 0 false false 0) max max buf false 0 le false false in
  absn_run A sr almost_equal almost_zero fuel s f (unit_quanta n) = Ok (s, (f + 128 * Z.of_nat n)%Z, repeat (mk_outcome (absn_silence A) false false) n).
Proof.
  induction n as [|n IH]; intros f Hf R buf le s; cbn [unit_quanta absn_run repeat]; [f_equal; f_equal; f_equal; lia|].
  assert (E : absn_process A sr almost_equal almost_zero fuel s f 1 0 = Ok (s, mk_outcome (absn_silence A) false false)).
  { unfold absn_process, s. cbn [a_ended a_buffer a_play p_start a_stop]. change (t_MAX A) with max. assert (Em : t_eq A max max = true) by (cbn [exact t_eq]; unfold R_eq; destruct (Req_EM_T max max); [reflexivity|congruence]).
    rewrite Em. cbn [negb]. rewrite andb_false_r. unfold block_time. cbn [exact t_mul t_add t_of_Z t_div t_of_v]. fold (frame_at sr f). rewrite span_exact, <- frame_plus.
    assert (Rn : frame_at sr (f + 128) < max). { destruct (in_range_mono sr Hsr (f + 128) (f + 128 * Z.of_nat (S n)) ltac:(lia) R) as [R0 R1]. assert (0 <= frame_at sr (f + 128)) by (rewrite <- (frame_0 sr); apply (frame_le sr Hsr); lia). lra. }
    cbn [exact t_le]. unfold R_le at 1. destruct (Rle_dec _ _); [|lra]. unfold R_le. destruct (Rle_dec _ _); [lra|reflexivity]. }
  rewrite E. cbn [bind fst snd]. change (Z.of_nat RQ) with 128%Z. unfold s. rewrite IH; [|lia|replace (f + 128 + 128 * Z.of_nat n)%Z with (f + 128 * Z.of_nat (S n))%Z by lia; exact R]. cbn [bind fst snd]. f_equal. f_equal. f_equal. lia.
Qed.

(** a start in the past is a start at the next quantum *)
Lemma late_start : forall F f aligned, (0 <= F < f)%Z -> (in_range sr (f + 128)) ->
  absn_process A sr almost_equal almost_zero fuel (mk_absn (mk_playback (frame_at sr F) 0 0 false false 0) max max (Some b) false 0 (INR L / sr) aligned false) f 1 0 =
  absn_process A sr almost_equal almost_zero fuel (mk_absn (mk_playback (frame_at sr f) 0 0 false false 0) max max (Some b) false 0 (INR L / sr) aligned false) f 1 0.
Proof.
  intros F f aligned H R. unfold absn_process. cbn [a_ended a_buffer a_play p_start a_stop andb negb p_started]. unfold block_time. cbn [exact t_mul t_add t_of_Z t_div t_of_v t_le t_lt]. fold (frame_at sr f). rewrite span_exact, <- frame_plus.
  assert (frame_at sr F < frame_at sr f) by (apply (frame_lt sr Hsr); lia). assert (frame_at sr f < frame_at sr (f + 128)) by (apply (frame_lt sr Hsr); lia).
  rewrite !R_le_false by lra. rewrite (R_lt_true (frame_at sr F)) by lra. rewrite (R_lt_false (frame_at sr f)) by lra. reflexivity.
Qed.

Lemma start_exact : forall m n F swap, (0 <= F)%Z -> let f := (128 * Z.of_nat m)%Z in let G := Z.max F f in
  tol * IZR G < 1 -> in_range sr G -> in_range sr (f + 128 * Z.of_nat n) ->
  let setup := if swap : bool then [A_buffer b; A_start (frame_at sr F) 0 max] else [A_start (frame_at sr F) 0 max; A_buffer b] in
  exists s os, absn_run A sr almost_equal almost_zero fuel (absn_new A false 0 0) 0 (unit_quanta m ++ setup ++ unit_quanta n) = Ok (s, (f + 128 * Z.of_nat n)%Z, os) /\
    length os = (m + n)%nat /\
    forall k o, nth_error os k = Some o ->
      o_event o = ends_in G L (128 * Z.of_nat k) /\
      forall c i, (c < length chs)%nat -> (i < 128)%nat -> sample_at 0 (o_output o) c i = play 0 G (nth c chs []) (128 * Z.of_nat k + Z.of_nat i).
Proof.
  intros m n F swap HF f G HtolG RG Rn setup.
  assert (App : forall l1 l2 s fr s1 f1 o1, absn_run A sr almost_equal almost_zero fuel s fr l1 = Ok (s1, f1, o1) ->
     absn_run A sr almost_equal almost_zero fuel s fr (l1 ++ l2) = do y <- absn_run A sr almost_equal almost_zero fuel s1 f1 l2; Ok (fst y, o1 ++ snd y)).
  { induction l1 as [|a l1 IH]; intros l2 s fr s1 f1 o1 E.
    - cbn [absn_run] in E. injection E as <- <- <-. cbn [app]. destruct (absn_run _ _ _ _ _ _ _ l2) as [[y o]| |]; reflexivity.
    - destruct a; cbn [app absn_run] in E |- *; try (apply IH; exact E). destruct (absn_process _ _ _ _ _ _ _ _ _) as [x| |]; try discriminate. cbn [bind] in E |- *.
      destruct (absn_run _ _ _ _ _ (fst x) _ l1) as [[[s2 f2] o2]| |] eqn:E2; try discriminate. cbn [bind fst snd] in E. injection E as <- <- <-. rewrite (IH l2 _ _ _ _ _ E2).
      destruct (absn_run _ _ _ _ _ _ _ l2) as [[y o]| |]; reflexivity. }
  assert (Hf0 : (0 <= f)%Z) by (unfold f; lia).
  change (absn_new A false 0 0) with (mk_absn (mk_playback max 0 0 false false 0) max max (@None (@buffer R)) false 0 0 false false).
  erewrite App by (apply unstarted; [lia|eapply in_range_mono; [exact Hsr| |exact Rn]; unfold f; lia]).
  assert (Es : forall s0, s0 = mk_absn (mk_playback max 0 0 false false 0) max max (@None (@buffer R)) false 0 0 false false ->
     absn_run A sr almost_equal almost_zero fuel s0 f (setup ++ unit_quanta n) =
     absn_run A sr almost_equal almost_zero fuel (mk_absn (mk_playback (frame_at sr F) 0 0 false false 0) max max (Some b) false 0 (INR L / sr) false false) f (unit_quanta n)).
  { intros s0 ->. assert (Hd : b_duration A b = INR L / sr) by (apply dur_b; assumption). assert (0 < INR L / sr) by (apply Rdiv_lt_0_compat; [apply lt_0_INR; exact HL|exact Hsr]).
    assert (Ec : forall p, clamp A (mk_absn p max max (Some b) false 0 0 false false) = mk_absn p max max (Some b) false 0 (INR L / sr) false false).
    { intros p. unfold clamp. cbn [a_buffer a_lstart a_lend a_play a_stop a_duration a_loop a_aligned a_ended]. rewrite Hd. unfold t_zero. cbn [exact t_lt t_le t_of_Z]. rewrite R_lt_false by lra. rewrite R_lt_false by lra. rewrite R_le_true by lra. reflexivity. }
    assert (Ec2 : forall p, clamp A (mk_absn p max max (Some b) false 0 (INR L / sr) false false) = mk_absn p max max (Some b) false 0 (INR L / sr) false false).
    { intros p. unfold clamp. cbn [a_buffer a_lstart a_lend a_play a_stop a_duration a_loop a_aligned a_ended]. rewrite Hd. unfold t_zero. cbn [exact t_lt t_le t_of_Z]. rewrite R_lt_false by lra. rewrite R_lt_false by lra. rewrite R_le_false by lra. rewrite R_lt_false by lra. reflexivity. }
    unfold setup. destruct swap; cbn [app absn_run absn_message a_play a_stop a_duration a_buffer a_loop a_lstart a_lend a_aligned a_ended p_time p_started p_entered p_elapsed].
    - rewrite Ec. cbn [a_play a_stop a_duration a_buffer a_loop a_lstart a_lend a_aligned a_ended p_time p_started p_entered p_elapsed]. rewrite Ec2. reflexivity.
    - assert (Ec0 : forall p, clamp A (mk_absn p max max (@None (@buffer R)) false 0 0 false false) = mk_absn p max max None false 0 0 false false) by reflexivity. rewrite Ec0. cbn [a_play a_stop a_duration a_buffer a_loop a_lstart a_lend a_aligned a_ended p_time p_started p_entered p_elapsed]. rewrite Ec. reflexivity. }
  replace (0 + 128 * Z.of_nat m)%Z with f by (unfold f; lia). rewrite (Es _ eq_refl).
  assert (Eg : absn_run A sr almost_equal almost_zero fuel (mk_absn (mk_playback (frame_at sr F) 0 0 false false 0) max max (Some b) false 0 (INR L / sr) false false) f (unit_quanta n)
     = absn_run A sr almost_equal almost_zero fuel (state sr chs L G f false false) f (unit_quanta n) \/ n = 0%nat).
  { destruct n as [|n]; [right; reflexivity|left]. assert (Hst : state sr chs L G f false false = mk_absn (mk_playback (frame_at sr G) 0 0 false false 0) max max (Some b) false 0 (INR L / sr) false false).
    { unfold state, play_at. replace (Z.max 0 (f - G)) with 0%Z by (unfold G; lia). rewrite frame_0. replace (G <? f)%Z with false by (symmetry; apply Z.ltb_ge; unfold G; lia). reflexivity. }
    rewrite Hst. unfold G. destruct (Z.lt_ge_cases F f) as [C|C].
    - rewrite Z.max_r by lia. cbn [unit_quanta absn_run]. rewrite late_start; [reflexivity|lia|]. eapply in_range_mono; [exact Hsr| |exact Rn]. lia.
    - rewrite Z.max_l by lia. reflexivity. }
  assert (Sil : forall k c i, (k < m)%nat -> (c < length chs)%nat -> (i < 128)%nat -> sample_at 0 (absn_silence A) c i = play 0 G (nth c chs []) (128 * Z.of_nat k + Z.of_nat i)).
  { intros k c i Hk Hc Hi. apply (silent_out chs L Hchs G (128 * Z.of_nat k)); [left; unfold G, f; lia|exact Hi|exact Hc]. }
  assert (Fin : forall s os, absn_run A sr almost_equal almost_zero fuel (mk_absn (mk_playback (frame_at sr F) 0 0 false false 0) max max (Some b) false 0 (INR L / sr) false false) f (unit_quanta n) = Ok (s, (f + 128 * Z.of_nat n)%Z, os) ->
     length os = n -> as_expected chs L G f os -> exists s os, (do y <- absn_run A sr almost_equal almost_zero fuel (mk_absn (mk_playback (frame_at sr F) 0 0 false false 0) max max (Some b) false 0 (INR L / sr) false false) f (unit_quanta n);
       Ok (fst y, repeat (mk_outcome (absn_silence A) false false) m ++ snd y)) = Ok (s, (f + 128 * Z.of_nat n)%Z, os) /\ length os = (m + n)%nat /\
       forall k o, nth_error os k = Some o -> o_event o = ends_in G L (128 * Z.of_nat k) /\ forall c i, (c < length chs)%nat -> (i < 128)%nat -> sample_at 0 (o_output o) c i = play 0 G (nth c chs []) (128 * Z.of_nat k + Z.of_nat i)).
  { intros s os E Len Ex. rewrite E. cbn [bind fst snd]. do 2 eexists. split; [reflexivity|]. split; [rewrite app_length, repeat_length; lia|]. intros k o Hk.
    destruct (Nat.lt_ge_cases k m) as [C|C].
    - rewrite nth_error_app1 in Hk by (rewrite repeat_length; exact C). apply nth_error_In in Hk. apply repeat_spec in Hk. subst o. cbn [o_event o_output]. split.
      + symmetry. unfold ends_in. apply andb_false_iff. right. apply Z.leb_gt. unfold G, f. lia.
      + intros c i Hc Hi. apply Sil; assumption.
    - rewrite nth_error_app2, repeat_length in Hk by (rewrite repeat_length; exact C). specialize (Ex _ _ Hk). replace (f + 128 * Z.of_nat (k - m))%Z with (128 * Z.of_nat k)%Z in Ex by (unfold f; lia). exact Ex. }
  destruct Eg as [Eg|En]; [|subst n].
  - destruct (run_exact sr Hsr almost_equal almost_zero tol Htol Heq Hzero fuel chs L HL Hchs G ltac:(unfold G; lia) HtolG n f false Hf0 Rn RG ltac:(unfold G; lia) ltac:(reflexivity)) as (s & os & E & Len & Ex).
    eapply Fin; [rewrite Eg; exact E|exact Len|exact Ex].
  - eapply Fin; [cbn [unit_quanta absn_run]; do 3 f_equal; lia|reflexivity|]. intros [|k] o E; discriminate.
Qed.
End Start.
Lemma unit_quanta_repeat : forall n, unit_quanta n = repeat (A_quantum 1 0) n.
Proof. induction n as [|n IH]; cbn [unit_quanta repeat]; [|rewrite IH]; reflexivity. Qed.
