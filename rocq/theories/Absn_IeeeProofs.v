(** Buffer sources at unit rate in floating point: the sample position after n quanta. *)
From Coq Require Import List Arith Bool ZArith Lia Reals Lra Psatz.
From Flocq Require Import Core BinarySingleNaN Relative.
From Verif Require Import Arith_Model Source_Model Absn_Model Absn_Spec Float_Model Float_Proofs Float_BoundProofs Float_ErrorProofs Buffer_ResampleProofs Source_ClockProofs Osc_IeeeProofs Absn_ExactProofs.
Import ListNotations.
Local Open Scope R_scope.

Definition ulp53 : R := bpow radix2 (-53).
Lemma rel_err : forall x, bpow radix2 (-1022) <= Rabs x -> Rabs (round radix2 (SpecFloat.fexp 53 1024) ZnearestE x - x) <= ulp53 * Rabs x.
Proof.
  intros x H. pose proof (relative_error_N_FLT radix2 (-1074) 53 ltac:(lia) (fun z => negb (Z.even z)) x H) as E. eapply Rle_trans; [exact E|]. right.
  f_equal. unfold ulp53. rewrite bpow_plus. change (bpow radix2 1) with 2. change (- (53))%Z with (-53)%Z. lra.
Qed.

Section Clock.
Variable M : libm.
Variable sr : f32.
Hypothesis Hsr : rate_ok sr.
Notation A := (ieee M).
Let S : R := B2R (f64_of_f32 sr).
Let tau : R := 128 / S.
Let span : f64 := t_mul A (dt A sr) (t_of_Z A (Z.of_nat RQ)).

Lemma tau_range : 1 / 6000 <= tau <= 1 / 23.
Proof. pose proof (S_inv sr Hsr) as I. fold S in I. unfold tau, Rdiv. lra. Qed.

Lemma ulp_val : ulp53 = / 9007199254740992.
Proof. reflexivity. Qed.
Lemma tiny : bpow radix2 (-1022) <= / 1048576.
Proof. change (/ 1048576) with (bpow radix2 (-20)). apply bpow_le. lia. Qed.

Lemma span_rel : is_finite span = true /\ Rabs (B2R span - tau) <= 3 * ulp53 * tau.
Proof.
  pose proof (S_range sr Hsr) as R. pose proof (S_inv sr Hsr) as I. fold S in R, I. destruct (dt_ieee M sr Hsr) as (F & Ab & B). destruct (span_ieee M sr Hsr) as (F2 & _). fold span in F2. split; [exact F2|].
  assert (Ed : B2R (dt A sr) = round radix2 (SpecFloat.fexp 53 1024) ZnearestE (/ S)).
  { unfold dt, t_one. cbn [ieee t_div t_of_Z t_of_v]. destruct (f64_of_Z_exact 1) as [E1 F1]; [lia|].
    destruct (f64_div_err (f64_of_Z 1) (f64_of_f32 sr) 0) as (_ & Er & _ & _); [exact F1|fold S; lra|apply eok; lia| |].
    - fold S. rewrite E1. unfold Rdiv. rewrite Rmult_1_l. rewrite Rabs_pos_eq by lra. change (bpow radix2 0) with 1. lra.
    - rewrite Er, E1. fold S. f_equal. unfold Rdiv. lra. }
  assert (D : Rabs (B2R (dt A sr) - / S) <= ulp53 * / S).
  { rewrite Ed. rewrite <- (Rabs_pos_eq (/ S)) at 3 by lra. apply rel_err. rewrite Rabs_pos_eq by lra. pose proof tiny. lra. }
  destruct (f64_of_Z_exact 128) as [E1 F1]; [lia|].
  destruct (f64_mul_err (dt A sr) (f64_of_Z 128) 0) as (_ & Er & _ & _); [exact F|exact F1|apply eok; lia| |].
  { rewrite E1. change (bpow radix2 0) with 1. rewrite Rabs_pos_eq; nra. }
  change (f64_mul (dt A sr) (f64_of_Z 128)) with span in Er. rewrite E1 in Er.
  assert (D2 : Rabs (B2R span - B2R (dt A sr) * 128) <= ulp53 * (B2R (dt A sr) * 128)).
  { rewrite Er. rewrite <- (Rabs_pos_eq (B2R (dt A sr) * 128)) at 3 by lra. apply rel_err. rewrite Rabs_pos_eq by lra. pose proof tiny. apply Rabs_le_inv in D. rewrite ulp_val in D. lra. }
  apply Rabs_le_inv in D. apply Rabs_le_inv in D2. apply Rabs_le. unfold tau, Rdiv. rewrite ulp_val in *. lra.
Qed.

Fixpoint clock (n : nat) : f64 := match n with O => f64_of_Z 0 | Datatypes.S n' => f64_add (clock n') span end.

Definition few (n : nat) : Prop := (Z.of_nat n <= 2 ^ 21)%Z.

Lemma clock_err : forall n, few n -> is_finite (clock n) = true /\ Rabs (B2R (clock n) - INR n * tau) <= 5 * ulp53 * tau * (INR n * INR n).
Proof.
  induction n as [|n IH]; intros H.
  - destruct zero_val as [E0 F0]. split; [exact F0|]. cbn [clock INR]. rewrite E0. rewrite Rabs_pos_eq by lra. lra.
  - destruct IH as [F Ab]; [unfold few in *; lia|]. destruct span_rel as [Fs As]. pose proof tau_range as T. pose proof (pos_INR n) as P0.
    assert (N : INR n <= 2097151). { rewrite INR_IZR_INZ. apply IZR_le. unfold few in H. lia. }
    assert (Sq : INR n * INR n <= 2097151 * 2097151) by (apply Rmult_le_compat; lra).
    assert (Sq0 : 0 <= INR n * INR n) by nra.
    assert (Cs : 5 * ulp53 * tau * (INR n * INR n) <= / 100 * tau).
    { rewrite ulp_val. replace (5 * / 9007199254740992 * tau * (INR n * INR n)) with (tau * (5 * / 9007199254740992 * (INR n * INR n))) by ring. rewrite (Rmult_comm (/ 100)). apply Rmult_le_compat_l; [lra|]. lra. }
    set (c := B2R (clock n)) in *. set (s := B2R span) in *. apply Rabs_le_inv in Ab. apply Rabs_le_inv in As.
    assert (Nt : 0 <= INR n * tau <= 2097151 * tau) by nra.
    assert (Us : 3 * ulp53 * tau <= / 100 * tau). { apply Rmult_le_compat_r; [lra|]. rewrite ulp_val. lra. }
    assert (B1 : / 10000 <= c + s <= 100000) by lra.
    destruct (f64_add_err (clock n) span 17) as (F2 & Er & _ & _); [exact F|exact Fs|apply eok; lia| |].
    { fold c s. rewrite Rabs_pos_eq by lra. change (bpow radix2 17) with 131072. lra. }
    cbn [clock]. split; [exact F2|]. fold c s in Er. assert (D : Rabs (B2R (f64_add (clock n) span) - (c + s)) <= ulp53 * (c + s)).
    { rewrite Er. rewrite <- (Rabs_pos_eq (c + s)) at 3 by lra. apply rel_err. rewrite Rabs_pos_eq by lra. pose proof tiny. lra. }
    apply Rabs_le_inv in D. rewrite S_INR. set (x := B2R (f64_add (clock n) span)) in *.
    assert (Up : c + s <= (INR n + 1) * tau + / 50 * tau) by lra.
    assert (Eq : 5 * ulp53 * tau * ((INR n + 1) * (INR n + 1)) = 5 * ulp53 * tau * (INR n * INR n) + ulp53 * tau * (10 * INR n + 5)) by ring.
    rewrite Eq. assert (U0 : 0 < ulp53) by (unfold ulp53; apply bpow_gt_0).
    assert (Step : ulp53 * (c + s) <= ulp53 * (tau * (INR n + 1 + / 50))). { apply Rmult_le_compat_l; [lra|]. lra. }
    assert (Ut : 0 < ulp53 * tau) by nra. assert (Utn : 0 <= ulp53 * tau * INR n) by (apply Rmult_le_pos; lra).
    replace (ulp53 * (tau * (INR n + 1 + / 50))) with (ulp53 * tau * INR n + ulp53 * tau * (1 + / 50)) in Step by ring.
    replace (ulp53 * tau * (10 * INR n + 5)) with (10 * (ulp53 * tau * INR n) + 5 * (ulp53 * tau)) by ring. replace (3 * ulp53 * tau) with (3 * (ulp53 * tau)) in As by ring.
    apply Rabs_le. lra.
Qed.

(** the position of the clock, in samples *)
Lemma clock_samples : forall n, few n -> is_finite (clock n) = true /\ Rabs (B2R (clock n) * S - INR (128 * n)) <= 1 / 3 /\ 0 <= B2R (clock n) <= 100000.
Proof.
  intros n H. destruct (clock_err n H) as [F Ab]. split; [exact F|]. pose proof (S_range sr Hsr) as R. fold S in R. pose proof tau_range as T. pose proof (pos_INR n) as P0.
  assert (N : INR n <= 2097152). { rewrite INR_IZR_INZ. apply IZR_le. unfold few in H. lia. }
  assert (Sq : INR n * INR n <= 2097152 * 2097152) by (apply Rmult_le_compat; lra). assert (Sq0 : 0 <= INR n * INR n) by nra.
  assert (Cs : 5 * ulp53 * tau * (INR n * INR n) <= tau * (10 / 4096)).
  { rewrite ulp_val. replace (5 * / 9007199254740992 * tau * (INR n * INR n)) with (tau * (5 * / 9007199254740992 * (INR n * INR n))) by ring. apply Rmult_le_compat_l; [lra|]. lra. }
  assert (Ts : tau * S = 128) by (unfold tau; field; lra).
  apply Rabs_le_inv in Ab. split.
  - rewrite mult_INR. change (INR 128) with (IZR (Z.of_nat 128)) || rewrite (INR_IZR_INZ 128). change (IZR (Z.of_nat 128)) with 128. rewrite <- Ts. replace (B2R (clock n) * S - tau * S * INR n) with ((B2R (clock n) - INR n * tau) * S) by ring.
    assert (Rabs (B2R (clock n) - INR n * tau) <= tau * (10 / 4096)) by (apply Rabs_le; lra). rewrite Rabs_mult, (Rabs_pos_eq S) by lra.
    apply Rle_trans with (tau * (10 / 4096) * S); [apply Rmult_le_compat_r; lra|]. replace (tau * (10 / 4096) * S) with (tau * S * (10 / 4096)) by ring. rewrite Ts. lra.
  - split; [|nra]. destruct n as [|n]; [cbn [clock]; destruct zero_val as [-> _]; lra|]. rewrite S_INR in *. pose proof (pos_INR n). nra.
Qed.

Lemma clock_index : forall n, few n -> Z.to_nat (f64_to_usize (f64_round (f64_mul (clock n) (f64_of_f32 sr)))) = (128 * n)%nat.
Proof.
  intros n H. destruct (clock_samples n H) as (F & Ab & B). pose proof (S_range sr Hsr) as R. fold S in R. apply Rabs_le_inv in Ab.
  assert (N : INR (128 * n) <= 268435456). { rewrite INR_IZR_INZ. apply IZR_le. unfold few in H. lia. } pose proof (pos_INR (128 * n)) as P0.
  destruct (f64_mul_err (clock n) (f64_of_f32 sr) 29) as (F2 & _ & Er & _); [exact F|exact (S_finite sr Hsr)|apply eok; lia| |].
  { fold S. change (bpow radix2 29) with 536870912. rewrite Rabs_pos_eq by nra. lra. }
  fold S in Er. apply Rabs_le_inv in Er. change (bpow radix2 (29 - 53)) with (/ 16777216) in Er. set (x := f64_mul (clock n) (f64_of_f32 sr)) in *.
  destruct (Bnearbyint_correct 53 1024 f64_emax mode_NA x) as (E1 & E2 & _). change (Bnearbyint mode_NA x) with (f64_round x) in *. rewrite f64_to_usize_val by (rewrite E2; exact F2).
  rewrite E1. cbn [round_mode]. rewrite round_FIX_IZR. rewrite Ztrunc_IZR. replace (Znearest _ _) with (Z.of_nat (128 * n)) by (symmetry; apply Znearest_imp; apply Rabs_lt; rewrite <- INR_IZR_INZ; lra).
  unfold few in H. lia.
Qed.

(** ** The fast track *)
Lemma map_res_all : forall (X Y : Type) (f : X -> res Y) (g : X -> Y) l, (forall x, In x l -> f x = Ok (g x)) -> map_res f l = Ok (map g l).
Proof.
  induction l as [|x l IH]; intros H; [reflexivity|]. cbn [map_res map]. rewrite (H x (or_introl eq_refl)). cbn [bind]. rewrite IH by (intros y Hy; apply H; right; exact Hy). reflexivity.
Qed.
Lemma fast_samples_value : forall L (ch : list f32) n i j, length ch = L -> fast_samples A false ch L n i j 0 None =
  Ok (map (fun k => if (j + k <? L)%nat then nth (j + k) ch f32_zero else f32_zero) (seq i n), None).
Proof.
  intros L ch n. induction n as [|n IH]; intros i j Hl; [reflexivity|]. cbn [fast_samples seq map]. rewrite Nat.sub_0_r. destruct (Nat.ltb_spec (j + i) L) as [C|C].
  - unfold index. rewrite (nth_error_nth' ch f32_zero) by lia. cbn [from_option bind]. rewrite IH by exact Hl. reflexivity.
  - rewrite IH by exact Hl. reflexivity.
Qed.
Lemma fast_channels_value : forall L (l : list (list f32)) j, Forall (fun ch => length ch = L) l -> fast_channels A false L j l None =
  Ok (map (fun ch => map (fun k => if (j + k <? L)%nat then nth (j + k) ch f32_zero else f32_zero) (seq 0 128)) l, None).
Proof.
  intros L. induction l as [|ch l IH]; intros j H; [reflexivity|]. apply Forall_cons_iff in H. destruct H as [H1 H2]. cbn [fast_channels map]. rewrite (fast_samples_value L) by exact H1. cbn [bind fst snd]. rewrite IH by exact H2. reflexivity.
Qed.

Variable chs : list (list f32).
Variable L : nat.
Hypothesis HL : (0 < L)%nat /\ (Z.of_nat L <= 2 ^ 30)%Z.
Hypothesis Hchs : chs <> [] /\ Forall (fun ch => length ch = L) chs.
Let b := mk_buffer chs sr.
Let dur : f64 := f64_div (f64_of_Z (Z.of_nat L)) (f64_of_f32 sr).
(** exp2(0) = 1 *)
Hypothesis Hexp2 : m64_exp2 M (f64_of_Z 0) = f64_of_Z 1.

Lemma len_b64 : b_length b = L.
Proof. unfold b_length, b. cbn [b_channels]. destruct chs as [|c l]; [destruct Hchs; contradiction|]. destruct Hchs as [_ H]. apply Forall_cons_iff in H. apply H. Qed.
Lemma dur_b64 : b_duration A b = dur.
Proof. unfold b_duration. rewrite len_b64. reflexivity. Qed.

Lemma dur_val : is_finite dur = true /\ Rabs (B2R dur * S - INR L) <= / 3 /\ 0 < B2R dur <= 400000.
Proof.
  destruct HL as [L0 L1]. pose proof (S_range sr Hsr) as R. pose proof (S_inv sr Hsr) as I. fold S in R, I. destruct (f64_of_Z_exact (Z.of_nat L)) as [E1 F1]; [lia|]. rewrite <- INR_IZR_INZ in E1.
  assert (N : 1 <= INR L <= 1073741824). { rewrite INR_IZR_INZ. split; [apply (IZR_le 1); lia|apply (IZR_le _ 1073741824); lia]. }
  assert (Q : / 768000 <= INR L / S <= 357914). { unfold Rdiv. split; [|nra]. rewrite <- (Rmult_1_l (/ 768000)). apply Rmult_le_compat; lra. }
  destruct (f64_div_err (f64_of_Z (Z.of_nat L)) (f64_of_f32 sr) 19) as (F2 & Er & _ & _); [exact F1|fold S; lra|apply eok; lia| |].
  { rewrite E1. fold S. rewrite Rabs_pos_eq by lra. change (bpow radix2 19) with 524288. lra. }
  fold dur in F2, Er. rewrite E1 in Er. fold S in Er. split; [exact F2|].
  assert (D : Rabs (B2R dur - INR L / S) <= ulp53 * (INR L / S)).
  { rewrite Er. rewrite <- (Rabs_pos_eq (INR L / S)) at 3 by lra. apply rel_err. rewrite Rabs_pos_eq by lra. pose proof tiny. lra. }
  apply Rabs_le_inv in D. rewrite ulp_val in D. split; [|lra].
  assert (Es : INR L = INR L / S * S) by (field; lra). set (q := INR L / S) in *. rewrite Es. replace (B2R dur * S - q * S) with ((B2R dur - q) * S) by ring. rewrite Rabs_mult, (Rabs_pos_eq S) by lra.
  apply Rle_trans with (/ 9007199254740992 * q * S); [apply Rmult_le_compat_r; [lra|]; apply Rabs_le; lra|]. rewrite Rmult_assoc, <- Es. lra.
Qed.

(** comparing the clock with the duration *)
Lemma dur_lt_clock : forall n, few n -> f64_lt dur (clock n) = true -> (L <= 128 * n)%nat.
Proof.
  intros n H E. destruct (clock_samples n H) as (F & Ab & B). destruct dur_val as (Fd & Ad & Bd). apply f64_lt_R in E; try assumption. pose proof (S_range sr Hsr) as R. fold S in R.
  assert (B2R dur * S < B2R (clock n) * S) by (apply Rmult_lt_compat_r; lra). apply Rabs_le_inv in Ab. apply Rabs_le_inv in Ad. assert (INR L < INR (128 * n) + 1) by lra. rewrite <- S_INR in H1. apply INR_lt in H1. lia.
Qed.
Lemma dur_ge_clock : forall n, few n -> f64_lt dur (clock n) = false -> (128 * n <= L)%nat.
Proof.
  intros n H E. destruct (clock_samples n H) as (F & Ab & B). destruct dur_val as (Fd & Ad & Bd). pose proof (S_range sr Hsr) as R. fold S in R.
  assert (C : B2R (clock n) <= B2R dur). { destruct (Rle_lt_dec (B2R (clock n)) (B2R dur)) as [C|C]; [exact C|]. apply f64_lt_R in C; try assumption. congruence. }
  assert (B2R (clock n) * S <= B2R dur * S) by (apply Rmult_le_compat_r; lra). apply Rabs_le_inv in Ab. apply Rabs_le_inv in Ad. assert (INR (128 * n) < INR L + 1) by lra. rewrite <- S_INR in H1. apply INR_lt in H1. lia.
Qed.
Lemma dur_le_clock : forall n, few n -> f64_le dur (clock n) = true -> (L <= 128 * n)%nat.
Proof.
  intros n H E. destruct (clock_samples n H) as (F & Ab & B). destruct dur_val as (Fd & Ad & Bd). apply f64_le_R in E; try assumption. pose proof (S_range sr Hsr) as R. fold S in R.
  assert (B2R dur * S <= B2R (clock n) * S) by (apply Rmult_le_compat_r; lra). apply Rabs_le_inv in Ab. apply Rabs_le_inv in Ad. assert (INR L < INR (128 * n) + 1) by lra. rewrite <- S_INR in H1. apply INR_lt in H1. lia.
Qed.
Lemma dur_gt_clock : forall n, few n -> f64_le dur (clock n) = false -> (128 * n <= L)%nat.
Proof.
  intros n H E. apply dur_ge_clock; [exact H|]. destruct (clock_samples n H) as (F & _). destruct dur_val as (Fd & _). destruct (f64_lt dur (clock n)) eqn:C; [|reflexivity].
  apply f64_lt_R in C; try assumption. assert (f64_le dur (clock n) = true) by (apply f64_le_R; try assumption; lra). congruence.
Qed.

Let one32 : f32 := f32_of_Z 1.
Let zero32 : f32 := f32_of_Z 0.
Let zero64 : f64 := f64_of_Z 0.
Definition st (start : f64) (n : nat) (started al : bool) : @absn f64 f32 :=
  mk_absn (mk_playback start zero64 (clock n) started false (clock n)) f64_MAX f64_MAX (Some b) false zero64 dur al false.
Definition out_at (n : nat) : list (list f32) := map (fun ch => map (fun k => if (128 * n + k <? L)%nat then nth (128 * n + k) ch f32_zero else f32_zero) (seq 0 128)) chs.

Lemma eq_refl64 : forall x : f64, is_finite x = true -> f64_eq x x = true.
Proof. intros x F. apply f64_eq_R; [exact F|exact F|reflexivity]. Qed.

Lemma rate_one : t_mul A (t_of_v A one32) (t_exp2 A (t_div A (t_of_v A zero32) (t_of_Z A 1200))) = f64_of_Z 1.
Proof.
  cbn [ieee t_mul t_of_v t_exp2 t_div t_of_Z]. replace (f64_div (f64_of_f32 zero32) (f64_of_Z 1200)) with (f64_of_Z 0) by (vm_compute; reflexivity). rewrite Hexp2. apply B2SF_inj. vm_compute. reflexivity.
Qed.
Lemma ratio_one : f64_eq (f64_div (f64_of_f32 sr) (f64_of_f32 sr)) (f64_of_Z 1) = true.
Proof.
  pose proof (S_range sr Hsr) as R. fold S in R. destruct one_val as [E1 F1]. destruct (f64_div_err (f64_of_f32 sr) (f64_of_f32 sr) 0) as (F & Er & _ & _); [exact (S_finite sr Hsr)|fold S; lra|apply eok; lia| |].
  - fold S. unfold Rdiv. rewrite Rinv_r by lra. rewrite Rabs_pos_eq by lra. change (bpow radix2 0) with 1. lra.
  - apply f64_eq_R; [exact F|exact F1|]. rewrite Er, E1. fold S. unfold Rdiv. rewrite Rinv_r by lra. apply (rnd_int 53 1024 f64_prec f64_emax 1). lia.
Qed.

Lemma fast_value : forall start n started f, few (Datatypes.S n) -> (started = true \/ f64_eq start (block_time A sr f) = true) ->
  fast_track A sr (st start n started true) b (block_time A sr f) span = Ok (st start (Datatypes.S n) true true, out_at n).
Proof.
  intros start n started f H Hs. assert (Hn : few n) by (unfold few in *; lia). unfold fast_track, st. cbn [a_play a_loop p_start]. rewrite dur_b64, len_b64. cbn [ieee t_eq].
  assert (Ep : (if f64_eq start (block_time A sr f) then p_begin (mk_playback start zero64 (clock n) started false (clock n)) else mk_playback start zero64 (clock n) started false (clock n)) = mk_playback start zero64 (clock n) true false (clock n)).
  { destruct Hs as [->|E]; [destruct (f64_eq _ _); reflexivity|rewrite E; reflexivity]. }
  rewrite Ep. cbn [p_time p_elapsed]. cbn [ieee t_mul t_of_v t_round t_to_Z t_lt t_add]. rewrite (clock_index n Hn). change (f64_add (clock n) span) with (clock (Datatypes.S n)).
  destruct Hchs as [_ HF]. destruct (f64_lt dur (clock (Datatypes.S n))) eqn:C.
  - cbn [b b_channels]. rewrite fast_channels_value by exact HF. cbn [bind fst snd]. reflexivity.
  - apply dur_ge_clock in C; [|exact H]. cbn [b b_channels]. rewrite (map_res_all _ _ _ (fun ch => map (fun k => if (128 * n + k <? L)%nat then nth (128 * n + k) ch f32_zero else f32_zero) (seq 0 128))); [reflexivity|].
    intros ch Hin. rewrite Forall_forall in HF. specialize (HF ch Hin). unfold slice, RQ. replace (128 * n <=? 128 * n + 128)%nat with true by (symmetry; apply Nat.leb_le; lia).
    replace (128 * n + 128 <=? length ch)%nat with true by (symmetry; apply Nat.leb_le; lia). cbn [andb]. f_equal. replace (128 * n + 128 - 128 * n)%nat with 128%nat by lia.
    rewrite (firstn_nth_map _ 128 _ f32_zero) by (rewrite skipn_length; lia). apply map_ext_in. intros k Hk. apply in_seq in Hk. rewrite Absn_ExactProofs.nth_skipn'. replace (128 * n + k <? L)%nat with true by (symmetry; apply Nat.ltb_lt; lia). reflexivity.
Qed.

Lemma next_after : forall (start : f64) f, early sr f -> is_finite start = true -> B2R start <= IZR f / S + / 134217728 ->
  f64_le (next_block_time A sr f) start = false /\ f64_le f64_MAX (next_block_time A sr f) = false /\ f64_lt f64_MAX (next_block_time A sr f) = false.
Proof.
  intros start f He Fs Hb. destruct (next_ieee M sr Hsr f He) as (Fn & An). fold S in An. apply Rabs_le_inv in An. change (bpow radix2 (-27)) with (/ 134217728) in An. pose proof (S_inv sr Hsr) as I. fold S in I.
  assert (Es : IZR (f + 128) / S = IZR f / S + 128 * / S) by (rewrite plus_IZR; unfold Rdiv; ring). destruct He as [_ He]. fold S in He.
  split; [|].
  - destruct (f64_le _ _) eqn:E; [|reflexivity]. apply f64_le_R in E; try assumption. lra.
  - destruct (below_max (next_block_time A sr f) Fn) as [B1 B2]; [lra|]. split; [exact B1|]. destruct (f64_lt f64_MAX _) eqn:E; [|reflexivity]. exfalso.
    assert (Fm : is_finite f64_MAX = true) by reflexivity. apply f64_lt_R in E; try assumption. apply f64_lt_R in B2; try assumption. lra.
Qed.

Lemma max_above_clock : forall n, few n -> f64_lt f64_MAX (clock n) = false /\ f64_le f64_MAX (clock n) = false.
Proof.
  intros n H. destruct (clock_samples n H) as (F & _ & B). destruct (below_max (clock n) F) as [B1 B2]; [lra|]. split; [|exact B1]. destruct (f64_lt f64_MAX _) eqn:E; [|reflexivity]. exfalso.
  assert (Fm : is_finite f64_MAX = true) by reflexivity. apply f64_lt_R in E; try assumption. apply f64_lt_R in B2; try assumption. lra.
Qed.

Variable almost_equal : f64 -> f64 -> bool.
Variable almost_zero : f64 -> bool.
Variable fuel : nat.

(** a quantum on the fast track *)
Lemma quantum_value : forall start n started al f, few (Datatypes.S n) -> early sr f -> is_finite start = true -> B2R start <= IZR f / S + / 134217728 ->
  (started = true /\ al = true \/ f64_eq start (block_time A sr f) = true) ->
  absn_process A sr almost_equal almost_zero fuel (st start n started al) f one32 zero32 =
  let over := f64_le dur (clock (Datatypes.S n)) in
  Ok ((if over then finished else fun s => s) (st start (Datatypes.S n) true true), mk_outcome (out_at n) true over).
Proof.
  intros start n started al f Hn He Fs Hb Hst. destruct (next_after start f He Fs Hb) as (N1 & N2 & N3). destruct dur_val as (Fd & _ & Bd). destruct (block_ieee M sr Hsr f He) as (Fb & _ & _).
  assert (Hn0 : few n) by (unfold few in *; lia). destruct (max_above_clock (Datatypes.S n) Hn) as [M1 M2].
  unfold absn_process. cbv zeta. change (a_ended (st start n started al)) with false. change (a_buffer (st start n started al)) with (Some b). change (p_start (a_play (st start n started al))) with start. cbv iota. cbn [andb].
  change (t_add A (block_time A sr f) (t_mul A (dt A sr) (t_of_Z A (Z.of_nat RQ)))) with (next_block_time A sr f). fold span. change (t_le A (next_block_time A sr f) start) with (f64_le (next_block_time A sr f) start). rewrite N1.
  match goal with |- context [if ?x then with_play _ _ else _] => replace x with false end.
  2:{ symmetry. unfold st. cbn [a_play p_started p_start]. destruct Hst as [[-> _]|E]; [reflexivity|]. apply andb_false_iff. right. cbn [t_lt ieee]. destruct (f64_lt start _) eqn:C; [|reflexivity]. apply f64_lt_R in C; try assumption. apply f64_eq_R in E; try assumption. lra. }
  rewrite rate_one.
  assert (Dec : decide A (st start n started al) b (block_time A sr f) span (f64_of_Z 1) (t_div A (t_of_v A (b_rate b)) (t_of_v A sr)) = true).
  { unfold decide, st. cbn [a_play p_start p_offset p_time a_aligned a_lstart a_lend a_duration a_stop b_rate b]. change (t_one A) with (f64_of_Z 1). change (t_zero A) with zero64. change (t_eq A) with f64_eq. change (t_lt A) with f64_lt. change (t_add A) with f64_add. change (t_div A) with f64_div. change (t_of_v A) with f64_of_f32. rewrite ratio_one, dur_b64.
    change (f64_add (block_time A sr f) span) with (next_block_time A sr f). change (f64_add (clock n) span) with (clock (Datatypes.S n)). destruct zero_val as [_ F0]. fold zero64 in F0. rewrite (eq_refl64 zero64 F0), (eq_refl64 dur Fd), (eq_refl64 (f64_of_Z 1) (proj2 one_val)). rewrite M1, N3.
    destruct Hst as [[_ ->]|E]; [destruct (f64_eq start _); reflexivity|]. rewrite E. reflexivity. }
  change (with_aligned (st start n started al) ?d) with (st start n started d).
  rewrite Dec. change (a_aligned (st start n started true)) with true. cbv iota.
  rewrite fast_value; [|exact Hn|destruct Hst as [[-> _]|E]; auto]. cbn [bind fst snd]. set (s' := st start (Datatypes.S n) true true).
  change (a_stop s') with f64_MAX. change (a_duration s') with f64_MAX. change (a_loop s') with false. change (p_elapsed (a_play s')) with (clock (Datatypes.S n)). change (p_time (a_play s')) with (clock (Datatypes.S n)). rewrite dur_b64.
  change (t_le A) with f64_le. change (t_lt A) with f64_lt. rewrite N2, M2. change (t_zero A) with (f64_of_Z 0). cbn [orb andb negb].
  replace (f64_lt (f64_of_Z 0) (f64_of_Z 1)) with true by reflexivity. replace (f64_lt (f64_of_Z 1) (f64_of_Z 0)) with false by reflexivity. cbn [andb]. rewrite orb_false_r.
  destruct (f64_le dur (clock (Datatypes.S n))); reflexivity.
Qed.

Definition out_ok (n : nat) (o : @outcome (list f32)) : Prop :=
  forall c i, (c < length chs)%nat -> (i < 128)%nat -> sample_at f32_zero (o_output o) c i = if (128 * n + i <? L)%nat then nth (128 * n + i) (nth c chs []) f32_zero else f32_zero.

Lemma out_at_ok : forall n t e, out_ok n (mk_outcome (out_at n) t e).
Proof.
  intros n t e c i Hc Hi. cbn [o_output]. unfold sample_at, out_at.
  set (g := fun (ch : list f32) k => if (128 * n + k <? L)%nat then nth (128 * n + k) ch f32_zero else f32_zero).
  rewrite nth_indep with (d' := map (g []) (seq 0 128)) by (rewrite map_length; exact Hc). rewrite (map_nth (fun ch => map (g ch) (seq 0 128))). rewrite (nth_map_seq f32 (g (nth c chs [])) 128 i f32_zero Hi). reflexivity.
Qed.
Lemma silence_ok : forall n t e, (L <= 128 * n)%nat -> out_ok n (mk_outcome (absn_silence A) t e).
Proof.
  intros n t e H c i Hc Hi. replace (128 * n + i <? L)%nat with false by (symmetry; apply Nat.ltb_ge; lia). cbn [o_output]. unfold sample_at, absn_silence, silence. destruct c as [|[|c]]; cbn [nth]; [|destruct i; reflexivity|destruct i; reflexivity]. apply nth_repeat.
Qed.

Fixpoint unit_quanta64 (n : nat) : list (@absn_action f64 f32) := match n with 0 => [] | Datatypes.S n' => A_quantum (f32_of_Z 1) (f32_of_Z 0) :: unit_quanta64 n' end.

Lemma done_value : forall n f s, a_ended s = true -> absn_run A sr almost_equal almost_zero fuel s f (unit_quanta64 n) =
  Ok (s, (f + 128 * Z.of_nat n)%Z, repeat (mk_outcome (absn_silence A) false false) n).
Proof.
  induction n as [|n IH]; intros f s H; cbn [unit_quanta64 absn_run repeat]; [f_equal; f_equal; f_equal; lia|]. unfold absn_process. rewrite H. cbn [bind fst snd]. rewrite IH by exact H. cbn [bind fst snd]. f_equal. f_equal. f_equal. change (Z.of_nat RQ) with 128%Z. lia.
Qed.

Definition played (n : nat) (os : list (@outcome (list f32))) (e : nat) : Prop :=
  forall j o, nth_error os j = Some o -> o_event o = (n + j =? e)%nat /\ out_ok (n + j) o.

Lemma early_less : forall f g, early sr g -> (0 <= f <= g)%Z -> early sr f.
Proof using Hsr.
  clear HL.
  intros f g [H1 H2] H. split; [lia|]. pose proof (S_range sr Hsr) as R. eapply Rle_trans; [|exact H2]. apply Rmult_le_compat_r; [left; apply Rinv_0_lt_compat; lra|]. apply IZR_le. lia.
Qed.

Lemma run_value : forall k start n started al f, few (n + k) -> (128 * n <= L)%nat -> (0 <= f)%Z -> early sr (f + 128 * Z.of_nat k) -> is_finite start = true -> B2R start <= IZR f / S + / 134217728 ->
  (started = true /\ al = true \/ f64_eq start (block_time A sr f) = true) ->
  exists s os e, absn_run A sr almost_equal almost_zero fuel (st start n started al) f (unit_quanta64 k) = Ok (s, (f + 128 * Z.of_nat k)%Z, os) /\ length os = k /\
    (n <= e)%nat /\ (128 * e <= L <= 128 * (e + 1))%nat /\ played n os e.
Proof.
  induction k as [|k IH]; intros start n started al f Hn HnL Hf He Fs Hb Hst; cbn [unit_quanta64 absn_run].
  - exists (st start n started al), [], (L / 128)%nat. split; [do 3 f_equal; lia|]. split; [reflexivity|]. split; [apply Nat.div_le_lower_bound; lia|]. split; [pose proof (Nat.div_mod L 128 ltac:(lia)); pose proof (Nat.mod_upper_bound L 128 ltac:(lia)); lia|]. intros [|j] o E; discriminate.
  - assert (Hn1 : few (Datatypes.S n)) by (unfold few in *; lia).
    rewrite quantum_value; [|exact Hn1|eapply early_less; [exact He|lia]|exact Fs|exact Hb|exact Hst]. cbv zeta. cbn [bind fst snd]. change (Z.of_nat RQ) with 128%Z.
    destruct (f64_le dur (clock (Datatypes.S n))) eqn:Ov.
    + apply dur_le_clock in Ov; [|exact Hn1]. rewrite done_value by reflexivity. cbn [bind fst snd]. do 2 eexists. exists n. split; [do 3 f_equal; lia|]. split; [cbn [length]; rewrite repeat_length; reflexivity|]. split; [lia|]. split; [lia|].
      intros [|j] o E.
      * cbn [nth_error] in E. injection E as <-. rewrite Nat.add_0_r. split; [cbn [o_event]; symmetry; apply Nat.eqb_refl|apply out_at_ok].
      * cbn [nth_error] in E. apply nth_error_In in E. apply repeat_spec in E. subst o. split; [cbn [o_event]; symmetry; apply Nat.eqb_neq; lia|]. apply silence_ok. lia.
    + apply dur_gt_clock in Ov; [|exact Hn1].
      destruct (IH start (Datatypes.S n) true true (f + 128)%Z) as (s & os & e & E & Len & Ne & He2 & Pl); [replace (Datatypes.S n + k)%nat with (n + Datatypes.S k)%nat by lia; exact Hn|exact Ov|lia|replace (f + 128 + 128 * Z.of_nat k)%Z with (f + 128 * Z.of_nat (Datatypes.S k))%Z by lia; exact He|exact Fs| |left; split; reflexivity|].
      { rewrite plus_IZR. pose proof (S_inv sr Hsr) as I. fold S in I. unfold Rdiv in *. lra. }
      rewrite E. cbn [bind fst snd]. do 2 eexists. exists e. split; [do 3 f_equal; lia|]. split; [cbn [length]; rewrite Len; reflexivity|]. split; [lia|]. split; [exact He2|].
      intros [|j] o E2.
      * cbn [nth_error] in E2. injection E2 as <-. rewrite Nat.add_0_r. split; [cbn [o_event]; symmetry; apply Nat.eqb_neq; lia|apply out_at_ok].
      * cbn [nth_error] in E2. destruct (Pl j o E2) as [P1 P2]. replace (n + Datatypes.S j)%nat with (Datatypes.S n + j)%nat by lia. split; assumption.
Qed.

Lemma unstarted64 : forall n f, (0 <= f)%Z -> early sr (f + 128 * Z.of_nat n) -> forall buf le,
  let s := mk_absn (mk_playback f64_MAX zero64 zero64 false false zero64) f64_MAX f64_MAX buf false zero64 le false false in
  absn_run A sr almost_equal almost_zero fuel s f (unit_quanta64 n) = Ok (s, (f + 128 * Z.of_nat n)%Z, repeat (mk_outcome (absn_silence A) false false) n).
Proof.
  induction n as [|n IH]; intros f Hf R buf le s; cbn [unit_quanta64 absn_run repeat]; [f_equal; f_equal; f_equal; lia|].
  assert (E : absn_process A sr almost_equal almost_zero fuel s f (f32_of_Z 1) (f32_of_Z 0) = Ok (s, mk_outcome (absn_silence A) false false)).
  { assert (He : early sr f) by (eapply early_less; [exact R|lia]). destruct (next_after (block_time A sr f) f He) as (N1 & N2 & N3); [apply (block_ieee M sr Hsr f He)| |].
    { destruct (block_ieee M sr Hsr f He) as (_ & Ab & _). fold S in Ab. apply Rabs_le_inv in Ab. change (bpow radix2 (-29)) with (/ 536870912) in Ab. lra. }
    unfold absn_process. cbv zeta. change (a_ended s) with false. change (a_buffer s) with buf. change (p_start (a_play s)) with f64_MAX. change (a_stop s) with f64_MAX. change (t_MAX A) with f64_MAX.
    change (t_eq A f64_MAX f64_MAX) with true. cbn [negb]. rewrite andb_false_r. cbv iota.
    change (t_add A (block_time A sr f) (t_mul A (dt A sr) (t_of_Z A (Z.of_nat RQ)))) with (next_block_time A sr f). change (t_le A) with f64_le. rewrite N2.
    replace (f64_le (next_block_time A sr f) f64_MAX) with true; [reflexivity|]. symmetry. destruct (next_ieee M sr Hsr f He) as (Fn & _). apply f64_le_R; [exact Fn|reflexivity|].
    assert (Fm : is_finite f64_MAX = true) by reflexivity. destruct (Rle_lt_dec (B2R (next_block_time A sr f)) (B2R f64_MAX)) as [C|C]; [exact C|]. apply f64_lt_R in C; try assumption. congruence. }
  rewrite E. cbn [bind fst snd]. change (Z.of_nat RQ) with 128%Z. unfold s. rewrite IH; [|lia|replace (f + 128 + 128 * Z.of_nat n)%Z with (f + 128 * Z.of_nat (Datatypes.S n))%Z by lia; exact R]. cbn [bind fst snd]. f_equal. f_equal. f_equal. lia.
Qed.

Lemma late_start64 : forall (t : f64) f, early sr f -> is_finite t = true -> B2R t < B2R (block_time A sr f) ->
  absn_process A sr almost_equal almost_zero fuel (st t 0 false false) f one32 zero32 = absn_process A sr almost_equal almost_zero fuel (st (block_time A sr f) 0 false false) f one32 zero32.
Proof.
  intros t f He Ft Hlt. destruct (block_ieee M sr Hsr f He) as (Fb & Ab & _). fold S in Ab. apply Rabs_le_inv in Ab. change (bpow radix2 (-29)) with (/ 536870912) in Ab.
  destruct (next_after (block_time A sr f) f He Fb ltac:(lra)) as (N1 & _). destruct (next_after t f He Ft ltac:(lra)) as (N2 & _).
  unfold absn_process. cbv zeta. change (a_ended (st t 0 false false)) with false. change (a_ended (st (block_time A sr f) 0 false false)) with false.
  change (a_buffer (st t 0 false false)) with (Some b). change (a_buffer (st (block_time A sr f) 0 false false)) with (Some b). cbv iota. cbn [andb].
  change (p_start (a_play (st t 0 false false))) with t. change (p_start (a_play (st (block_time A sr f) 0 false false))) with (block_time A sr f).
  change (t_add A (block_time A sr f) (t_mul A (dt A sr) (t_of_Z A (Z.of_nat RQ)))) with (next_block_time A sr f). change (t_le A (next_block_time A sr f)) with (f64_le (next_block_time A sr f)). rewrite N1, N2.
  change (p_started (a_play (st t 0 false false))) with false. change (p_started (a_play (st (block_time A sr f) 0 false false))) with false. cbn [negb andb].
  assert (L1 : t_lt A t (block_time A sr f) = true) by (apply f64_lt_R; assumption). rewrite L1.
  assert (L2 : t_lt A (block_time A sr f) (block_time A sr f) = false). { clear L1. destruct (t_lt A (block_time A sr f) (block_time A sr f)) eqn:C; [|reflexivity]. apply f64_lt_R in C; try assumption. lra. }
  rewrite L2. reflexivity.
Qed.

Lemma app_run : forall l1 l2 s fr s1 f1 o1, absn_run A sr almost_equal almost_zero fuel s fr l1 = Ok (s1, f1, o1) ->
  absn_run A sr almost_equal almost_zero fuel s fr (l1 ++ l2) = do y <- absn_run A sr almost_equal almost_zero fuel s1 f1 l2; Ok (fst y, o1 ++ snd y).
Proof.
  induction l1 as [|a l1 IH]; intros l2 s fr s1 f1 o1 E.
  - cbn [absn_run] in E. injection E as <- <- <-. cbn [app]. destruct (absn_run _ _ _ _ _ _ _ l2) as [[y o]| |]; reflexivity.
  - destruct a; cbn [app absn_run] in E |- *; try (apply IH; exact E). destruct (absn_process _ _ _ _ _ _ _ _ _) as [x| |]; try discriminate. cbn [bind] in E |- *.
    destruct (absn_run _ _ _ _ _ (fst x) _ l1) as [[[s2 f2] o2]| |] eqn:E2; try discriminate. cbn [bind fst snd] in E. injection E as <- <- <-. rewrite (IH l2 _ _ _ _ _ E2).
    destruct (absn_run _ _ _ _ _ _ _ l2) as [[y o]| |]; reflexivity.
Qed.

Lemma setup_value : forall (t : f64) f l swap,
  absn_run A sr almost_equal almost_zero fuel (mk_absn (mk_playback f64_MAX zero64 zero64 false false zero64) f64_MAX f64_MAX None false zero64 zero64 false false) f
    ((if swap : bool then [A_buffer b; A_start t zero64 f64_MAX] else [A_start t zero64 f64_MAX; A_buffer b]) ++ l) =
  absn_run A sr almost_equal almost_zero fuel (st t 0 false false) f l.
Proof.
  intros t f l swap. destruct dur_val as (Fd & _ & Bd). destruct zero_val as [E0 F0].
  assert (Z1 : t_lt A zero64 (t_zero A) = false) by reflexivity. assert (Z2 : t_le A zero64 (t_zero A) = true) by reflexivity.
  assert (D1 : t_lt A dur zero64 = false). { destruct (t_lt A dur zero64) eqn:C; [|reflexivity]. apply f64_lt_R in C; try assumption. unfold zero64 in C. rewrite E0 in C. lra. }
  assert (D2 : t_le A dur (t_zero A) = false). { destruct (t_le A dur (t_zero A)) eqn:C; [|reflexivity]. change (t_zero A) with (f64_of_Z 0) in C. apply f64_le_R in C; try assumption. rewrite E0 in C. lra. }
  assert (D3 : t_lt A dur dur = false). { destruct (t_lt A dur dur) eqn:C; [|reflexivity]. apply f64_lt_R in C; try assumption. lra. }
  assert (Ec : forall p, clamp A (mk_absn p f64_MAX f64_MAX (Some b) false zero64 zero64 false false) = mk_absn p f64_MAX f64_MAX (Some b) false zero64 dur false false).
  { intros p. unfold clamp. cbn [a_buffer a_lstart a_lend a_play a_stop a_duration a_loop a_aligned a_ended]. rewrite dur_b64. rewrite Z1, D1, Z2. reflexivity. }
  assert (Ec2 : forall p, clamp A (mk_absn p f64_MAX f64_MAX (Some b) false zero64 dur false false) = mk_absn p f64_MAX f64_MAX (Some b) false zero64 dur false false).
  { intros p. unfold clamp. cbn [a_buffer a_lstart a_lend a_play a_stop a_duration a_loop a_aligned a_ended]. rewrite dur_b64. rewrite Z1, D1, D2, D3. reflexivity. }
  assert (Ec0 : forall p, clamp A (mk_absn p f64_MAX f64_MAX (@None (@buffer f32)) false zero64 zero64 false false) = mk_absn p f64_MAX f64_MAX None false zero64 zero64 false false) by reflexivity.
  destruct swap; cbn [app absn_run absn_message a_play a_stop a_duration a_buffer a_loop a_lstart a_lend a_aligned a_ended p_time p_started p_entered p_elapsed].
  - rewrite Ec. cbn [a_play a_stop a_duration a_buffer a_loop a_lstart a_lend a_aligned a_ended p_time p_started p_entered p_elapsed]. rewrite Ec2. reflexivity.
  - rewrite Ec0. cbn [a_play a_stop a_duration a_buffer a_loop a_lstart a_lend a_aligned a_ended p_time p_started p_entered p_elapsed]. rewrite Ec. reflexivity.
Qed.

(** a source that is started with a time that has been reached (in particular [start()]) *)
Lemma start_value : forall m n (t : f64) swap, (Z.of_nat n <= 2 ^ 21)%Z -> early sr (128 * Z.of_nat (m + n)) -> is_finite t = true -> f64_le t (block_time A sr (128 * Z.of_nat m)) = true ->
  exists s os e, absn_run A sr almost_equal almost_zero fuel (absn_new A false (f64_of_Z 0) (f64_of_Z 0)) 0
      (unit_quanta64 m ++ (if swap : bool then [A_buffer b; A_start t (f64_of_Z 0) f64_MAX] else [A_start t (f64_of_Z 0) f64_MAX; A_buffer b]) ++ unit_quanta64 n) = Ok (s, (128 * Z.of_nat (m + n))%Z, os) /\
    length os = (m + n)%nat /\ (128 * e <= 128 * m + L <= 128 * (e + 1))%nat /\
    forall k o, nth_error os k = Some o -> o_event o = (k =? e)%nat /\
      forall c i, (c < length chs)%nat -> (i < 128)%nat -> sample_at f32_zero (o_output o) c i = play f32_zero (128 * Z.of_nat m) (nth c chs []) (128 * Z.of_nat k + Z.of_nat i).
Proof.
  intros m n t swap Hn He Ft Hle. set (f := (128 * Z.of_nat m)%Z) in *. assert (Hf : early sr f) by (eapply early_less; [exact He|unfold f; lia]).
  destruct (block_ieee M sr Hsr f Hf) as (Fb & Ab & _). fold S in Ab. apply Rabs_le_inv in Ab. change (bpow radix2 (-29)) with (/ 536870912) in Ab. apply f64_le_R in Hle; try assumption.
  change (absn_new A false (f64_of_Z 0) (f64_of_Z 0)) with (mk_absn (mk_playback f64_MAX zero64 zero64 false false zero64) f64_MAX f64_MAX (@None (@buffer f32)) false zero64 zero64 false false).
  erewrite app_run by (apply unstarted64; [lia|cbn [Z.add]; exact Hf]). change (f64_of_Z 0) with zero64. rewrite setup_value. replace (0 + 128 * Z.of_nat m)%Z with f by (unfold f; lia).
  assert (Run : exists s os e, absn_run A sr almost_equal almost_zero fuel (st t 0 false false) f (unit_quanta64 n) = Ok (s, (f + 128 * Z.of_nat n)%Z, os) /\ length os = n /\ (128 * e <= L <= 128 * (e + 1))%nat /\ played 0 os e).
  { assert (Go : forall start, is_finite start = true -> B2R start <= IZR f / S + / 134217728 -> f64_eq start (block_time A sr f) = true ->
      exists s os e, absn_run A sr almost_equal almost_zero fuel (st start 0 false false) f (unit_quanta64 n) = Ok (s, (f + 128 * Z.of_nat n)%Z, os) /\ length os = n /\ (128 * e <= L <= 128 * (e + 1))%nat /\ played 0 os e).
    { intros start Fs Bs Eq. destruct (run_value n start 0 false false f) as (s & os & e & E & Len & _ & He2 & Pl); [unfold few; cbn [Nat.add]; exact Hn|lia|unfold f; lia|replace (f + 128 * Z.of_nat n)%Z with (128 * Z.of_nat (m + n))%Z by (unfold f; lia); exact He|exact Fs|exact Bs|right; exact Eq|].
      exists s, os, e. auto. }
    destruct (Rle_lt_or_eq_dec _ _ Hle) as [C|C].
    - destruct n as [|n']; [exists (st t 0 false false), [], (L / 128)%nat; split; [cbn [unit_quanta64 absn_run]; do 3 f_equal; lia|]; split; [reflexivity|]; split; [pose proof (Nat.div_mod L 128 ltac:(lia)); pose proof (Nat.mod_upper_bound L 128 ltac:(lia)); lia|]; intros [|j] o E; discriminate|].
      cbn [unit_quanta64 absn_run]. pose proof (late_start64 t f Hf Ft C) as Hlate. unfold one32, zero32 in Hlate. rewrite Hlate. apply (Go (block_time A sr f)); [exact Fb|lra|apply eq_refl64; exact Fb].
    - apply Go; [exact Ft|lra|]. apply f64_eq_R; assumption. }
  destruct Run as (s & os & e & E & Len & He2 & Pl). rewrite E. cbn [bind fst snd]. do 2 eexists. exists (m + e)%nat. split; [do 3 f_equal; unfold f; lia|]. split; [rewrite app_length, repeat_length; lia|]. split; [lia|].
  destruct Hchs as [_ HF]. rewrite Forall_forall in HF.
  intros k o Hk. destruct (Nat.lt_ge_cases k m) as [C|C].
  - rewrite nth_error_app1 in Hk by (rewrite repeat_length; exact C). apply nth_error_In in Hk. apply repeat_spec in Hk. subst o. cbn [o_event o_output]. split; [symmetry; apply Nat.eqb_neq; lia|].
    intros c i Hc Hi. unfold play. replace (f <=? 128 * Z.of_nat k + Z.of_nat i)%Z with false by (symmetry; apply Z.leb_gt; unfold f; lia). cbn [andb]. unfold sample_at, absn_silence, silence. destruct c as [|[|c]]; cbn [nth]; [|destruct i; reflexivity|destruct i; reflexivity]. apply nth_repeat.
  - rewrite nth_error_app2, repeat_length in Hk by (rewrite repeat_length; exact C). destruct (Pl _ _ Hk) as [P1 P2]. cbn [Nat.add] in P1, P2. split; [rewrite P1; apply eq_true_iff_eq; rewrite !Nat.eqb_eq; lia|].
    intros c i Hc Hi. rewrite (P2 c i Hc Hi). unfold play. rewrite (HF (nth c chs [])) by (apply nth_In; exact Hc). replace (f <=? 128 * Z.of_nat k + Z.of_nat i)%Z with true by (symmetry; apply Z.leb_le; unfold f; lia). cbn [andb].
    destruct (Nat.ltb_spec (128 * (k - m) + i) L) as [C1|C1]; destruct (Z.ltb_spec (128 * Z.of_nat k + Z.of_nat i) (f + Z.of_nat L)) as [C2|C2]; try (unfold f in *; lia); [|reflexivity]. f_equal. unfold f. lia.
Qed.
End Clock.
Lemma unit_quanta64_repeat : forall n, unit_quanta64 n = repeat (A_quantum (f32_of_Z 1) (f32_of_Z 0)) n.
Proof. induction n as [|n IH]; cbn [unit_quanta64 repeat]; [|rewrite IH]; reflexivity. Qed.
