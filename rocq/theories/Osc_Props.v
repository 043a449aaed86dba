(** C73: the sound of an oscillator.

    For every history of calls (valid or not, at any time) and rendered quanta, every sample is the waveform in force at the
    phase accumulated since the start.  Arithmetic is exact; the sine table is any table. *)
From Coq Require Import List Arith Bool ZArith Reals Lia Lra.
From Flocq Require Import Core.
From Verif Require Import Common_Model Arith_Model Arith_Real Source_Model Source_Spec Source_Proofs Osc_Proofs Osc_ExactProofs Source_Props Sched_Model Sched_Spec Sched_Proofs Sched_NodeProofs Osc_SoundSpec Osc_SoundProofs Osc_ToneProofs Osc_BoundProofs.
Import ListNotations.
Local Open Scope R_scope.

Notation history := (list (event (@osc_call R R) (list R * list R))).
(** parameters have 1 or 128 values per quantum; periodic waves are not empty *)
Definition history_ok (l : history) : Prop :=
  Forall (fun e => match e with Render (freq, detune) => values_ok freq /\ values_ok detune | Call (O_set_wave w) => w <> [] | _ => True end) l.

Theorem C73_every_history : forall sr sine ty custom (l : history), 0 < sr -> sine <> [] -> match custom with Some w => w <> [] | None => ty <> Custom end -> history_ok l ->
  INR (128 * renders l) / sr < t_MAX exact ->
  exists s f os, osc_run exact sr sine (osc_new exact ty) 0 (snd (osc_session exact ty custom l)) = Ok (s, f, os) /\
    map (@o_output R) os = map (fun k => map (sample sr sine (called ty custom [] l)) (seq (128 * k) 128)) (seq 0 (renders l)).
Proof.
  intros sr sine ty custom l Hsr Hs Hc Hl Hm. set (h := fst (@osc_create R R ty custom)).
  assert (E : snd (osc_session exact ty custom l) = snd (@osc_create R R ty custom) ++ messages (osc_do exact) (@osc_render R R) h l).
  { unfold osc_session, messages, h. destruct (@osc_create R R ty custom) as [h0 m]. cbn [fst snd]. destruct (session _ _ h0 l) as [[h' rs] ms]. reflexivity. }
  destruct (osc_msgs_ok exact (fun w => w <> []) (fun _ _ => True) (fun _ => True) l h) as [K1 K2]; [auto| |].
  { eapply Forall_impl; [|exact Hl]. intros [[c|t|w]|[freq detune]]; auto. intros [X Y]. cbn. auto. }
  set (msgs := messages (osc_do exact) (@osc_render R R) h l) in *.
  assert (Q : osc_quanta (snd (osc_session exact ty custom l)) = renders l) by (rewrite E, <- K2; destruct custom; reflexivity).
  assert (R : exists s f os, osc_run exact sr sine (osc_new exact ty) 0 (snd (osc_session exact ty custom l)) = Ok (s, f, os)).
  { rewrite E. destruct custom as [w|]; cbn [osc_create osc_set_wave snd app].
    - destruct (C24_exact sr sine Sine (O_wave w :: msgs) Hsr Hs) as (s & f & os & R & _); [discriminate|constructor; [exact Hc|exact K1]|]. exists s, f, os. exact R.
    - destruct (C24_exact sr sine ty msgs Hsr Hs Hc K1) as (s & f & os & R & _). exists s, f, os. exact R. }
  destruct R as (s & f & os & R). exists s, f, os. split; [exact R|]. rewrite <- settings_session, <- Q.
  apply (osc_sound sr sine ty (snd (osc_session exact ty custom l)) s f os Hsr); [|rewrite Q; exact Hm|exact R].
  rewrite E. apply Forall_app. split; [destruct custom; repeat constructor|]. eapply Forall_impl; [|exact K1]. intros [t|t|t|w|freq detune]; cbn; tauto.
Qed.

(** A tone of constant frequency [f] from its first sounding frame [n0] on: the phase is [f] times the time since the start, which is the
    time given to start, or the start of the quantum of the first sounding frame if that is later. *)
Theorem C73_constant_tone : forall sr sine plan n0 n f t, 0 < sr -> (n0 <= n)%nat ->
  (forall m, (m < n0)%nat -> sounding sr plan m = false) -> (forall m, (n0 <= m <= n)%nat -> sounding sr plan m = true /\ tone plan m = f) -> Rabs f < sr / 2 -> g_start (setting_at plan n0) = Some t ->
  let t0 := Rmax t (INR (128 * (n0 / 128)) / sr) in
  sample sr sine plan n = wave sine (g_type (setting_at plan n)) (g_wave (setting_at plan n)) (frac (f * (INR n / sr - t0))) (f / sr).
Proof.
  intros sr sine plan n0 n f t Hsr Hn H0 H1 Hf Ht t0. pose proof (constant_phase sr Hsr plan n0 (n - n0) f H0) as P. replace (n0 + (n - n0))%nat with n in P by lia. specialize (P H1). rewrite Ht in P. fold t0 in P.
  unfold sample. destruct (H1 n ltac:(lia)) as [-> ->]. destruct (Rlt_dec _ _); [|contradiction]. rewrite P. reflexivity.
Qed.
(** A sine is accurate: the error of interpolating in a table of 2048 entries is less than 2e-6, plus the error of the entries. *)
Theorem C73_sine : forall sr sine e plan n0 n f t, 0 < sr -> (n0 <= n)%nat ->
  length sine = Z.to_nat 2048 -> (forall k, (k < length sine)%nat -> Rabs (nth k sine 0 - sin (2 * PI * INR k / 2048)) <= e) ->
  (forall m, (m < n0)%nat -> sounding sr plan m = false) -> (forall m, (n0 <= m <= n)%nat -> sounding sr plan m = true /\ tone plan m = f) -> Rabs f < sr / 2 -> g_start (setting_at plan n0) = Some t ->
  g_type (setting_at plan n) = Sine ->
  let t0 := Rmax t (INR (128 * (n0 / 128)) / sr) in
  Rabs (sample sr sine plan n - sin (2 * PI * f * (INR n / sr - t0))) <= 2 / 1000000 + e.
Proof.
  intros sr sine e plan n0 n f t Hsr Hn L He H0 H1 Hf Ht Hty t0. rewrite (C73_constant_tone sr sine plan n0 n f t Hsr Hn H0 H1 Hf Ht). fold t0. rewrite Hty. cbn [wave].
  assert (LR : INR (length sine) = 2048) by (rewrite L, INR_IZR_INZ, Z2Nat.id by lia; reflexivity).
  set (p := f * (INR n / sr - t0)). replace (2 * PI * f * (INR n / sr - t0)) with (2 * PI * p) by (unfold p; ring). rewrite <- sin_frac.
  eapply Rle_trans; [apply (interp_sine sine e)|].
  - intros ->. cbn in LR. lra.
  - intros k Hk. rewrite LR. apply He. exact Hk.
  - apply frac_bounds.
  - rewrite LR. apply Rplus_le_compat_r. unfold Rsqr. pose proof PI_4. pose proof PI_RGT_0. assert (0 <= 2 * PI / 2048 <= 8 / 2048) by lra. set (x := 2 * PI / 2048) in *. clearbody x. nra.
Qed.

(** Nothing is louder than 1, if the tables are not. *)
Theorem C73_bounded : forall sr sine ty custom (l : history) n, 0 < sr -> unit_table sine -> match custom with Some w => unit_table w | None => True end ->
  Forall (fun e => match e with Call (O_set_wave w) => unit_table w | _ => True end) l -> -1 <= sample sr sine (called ty custom [] l) n <= 1.
Proof.
  intros sr sine ty custom l n Hsr Hs Hc Hl. apply sample_bound; try assumption.
  assert (G : forall rest past, Forall (fun e => match e with Call (O_set_wave w) => unit_table w | _ => True end) rest -> match chosen_wave custom past with Some w => unit_table w | None => True end ->
    Forall (fun g => match g_wave g with Some w => unit_table w | None => True end) (called ty custom past rest)).
  { induction rest as [|e rest IH]; intros past Hr Hp; [constructor|]. pose proof (Forall_inv Hr) as H1. apply Forall_inv_tail in Hr. destruct e as [c|[freq detune]]; cbn [called].
    - apply IH; [exact Hr|]. rewrite wave_app. destruct c; [exact Hp|exact Hp|exact H1].
    - constructor; [exact Hp|]. apply IH; [exact Hr|]. rewrite wave_app. exact Hp. }
  apply G; [exact Hl|exact Hc].
Qed.

(** Full statement (refuted): the phase is the frequency times the time since the time given to start.  A start between the last frame of a quantum
    and the first frame of the next one is taken to be in the past, and the phase is 0 at that frame. *)
Definition late : history := [Call (O_sched (S_start_at (255 / 256))); Render ([32], [0]); Render ([32], [0])].
Lemma late_tone : forall n, (n < 256)%nat -> tone (called Triangle None [] late) n = 32 /\ setting_at (called Triangle None [] late) n = mk_setting (Some (255 / 256)) None Triangle None [32] [0].
Proof.
  intros n Hn. assert (V : Osc_SoundSpec.valid_time (255 / 256) = true) by (unfold Osc_SoundSpec.valid_time; destruct (Rle_dec _ _); [reflexivity|lra]).
  assert (S : setting_at (called Triangle None [] late) n = mk_setting (Some (255 / 256)) None Triangle None [32] [0]).
  { unfold setting_at, late. cbn [called app started stopped latest_stop osc_begin osc_end begin_time end_time chosen_type chosen_wave]. rewrite V. assert (n / 128 < 2)%nat as D by (apply Nat.div_lt_upper_bound; lia). destruct (n / 128)%nat as [|[|]]; [reflexivity|reflexivity|lia]. }
  split; [|exact S]. unfold tone. rewrite S. cbn [g_freq g_detune value_at]. unfold Rdiv. rewrite Rmult_0_l, Rpower_O by lra. ring.
Qed.
Theorem C73_subsample_start_refuted :
  sample 128 [0] (called Triangle None [] late) 128 = 0 /\ wave [0] Triangle None (frac (32 * (INR 128 / 128 - 255 / 256))) (32 / 128) = / 2.
Proof.
  assert (I : INR 128 = 128) by (rewrite INR_IZR_INZ; reflexivity). split.
  - rewrite (C73_constant_tone 128 [0] _ 128 128 32 (255 / 256)).
    + rewrite (proj2 (late_tone 128 ltac:(lia))). cbn [g_type g_wave]. replace (128 * (128 / 128))%nat with 128%nat by reflexivity. rewrite I. rewrite Rmax_right by lra. replace (32 * (128 / 128 - 128 / 128)) with 0 by lra. rewrite frac_zero. cbn [wave]. destruct (Rlt_dec _ _); lra.
    + lra.
    + lia.
    + intros m Hm. unfold sounding. rewrite (proj2 (late_tone m ltac:(lia))). cbn [g_start g_stop in_time]. destruct (Rle_dec _ _) as [H|H]; [|reflexivity]. exfalso. rewrite <- INR_IZR_INZ in H. assert (INR m <= 127) by (replace 127 with (INR 127) by (rewrite INR_IZR_INZ; reflexivity); apply le_INR; lia). lra.
    + intros m Hm. assert (m = 128%nat) as -> by lia. split; [|apply late_tone; lia]. unfold sounding. rewrite (proj2 (late_tone 128 ltac:(lia))). cbn [g_start g_stop in_time]. rewrite <- INR_IZR_INZ, I. destruct (Rle_dec _ _) as [H|H]; [reflexivity|lra].
    + rewrite Rabs_pos_eq; lra.
    + rewrite (proj2 (late_tone 128 ltac:(lia))). reflexivity.
  - rewrite I. replace (32 * (128 / 128 - 255 / 256)) with (/ 8) by lra. rewrite (frac_unique (/ 8) 0) by lra. cbn [wave]. destruct (Rlt_dec _ _); lra.
Qed.

(** ** Non-vacuity *)
Example late_ok : 0 < 128 /\ ([0] : list R) <> [] /\ history_ok late /\ INR (128 * renders late) / 128 < t_MAX exact.
Proof.
  split; [lra|]. split; [discriminate|]. split; [repeat apply Forall_cons; try apply Forall_nil; try exact I; split; left; reflexivity|]. change (128 * renders late)%nat with 256%nat. rewrite INR_IZR_INZ. change (IZR (Z.of_nat 256)) with 256.
  cbn [exact t_MAX]. assert (1 <= bpow radix2 971) by (change 1 with (bpow radix2 0); apply bpow_le; lia). change (IZR (2 ^ 53 - 1)) with 9007199254740991. lra.
Qed.
(** a start in the middle of a quantum is kept: at frame 130 of a start at 259/256 the phase is not that of frame 130 nor of the quantum *)
Definition mid : list setting := [mk_setting (Some (3 / 256)) None Triangle None [32] [0]].
Example mid_start : sample 128 [0] mid 2 = / 2 /\ sample 128 [0] mid 1 = 0.
Proof.
  assert (S : forall m, (m < 128)%nat -> setting_at mid m = mk_setting (Some (3 / 256)) None Triangle None [32] [0]) by (intros m Hm; unfold setting_at; rewrite Nat.div_small by exact Hm; reflexivity).
  assert (T : forall m, (m < 128)%nat -> tone mid m = 32) by (intros m Hm; unfold tone; rewrite S by exact Hm; cbn [g_freq g_detune value_at]; unfold Rdiv; rewrite Rmult_0_l, Rpower_O by lra; ring).
  assert (N : forall m, (m < 2)%nat -> sounding 128 mid m = false). { intros m Hm. unfold sounding. rewrite S by lia. cbn [g_start g_stop in_time]. destruct (Rle_dec _ _) as [H|H]; [|reflexivity]. exfalso. rewrite <- INR_IZR_INZ in H. assert (INR m <= INR 1) by (apply le_INR; lia). cbn [INR] in *. lra. }
  split; [|unfold sample; rewrite N by lia; reflexivity].
  rewrite (C73_constant_tone 128 [0] mid 2 2 32 (3 / 256)).
  - rewrite S by lia. cbn [g_type g_wave]. change (128 * (2 / 128))%nat with 0%nat. cbn [INR]. rewrite Rmax_left by lra. rewrite (frac_unique _ 0) by lra. cbn [wave]. destruct (Rlt_dec _ _); lra.
  - lra.
  - lia.
  - exact N.
  - intros m Hm. assert (m = 2%nat) as -> by lia. split; [|apply T; lia]. unfold sounding. rewrite S by lia. cbn [g_start g_stop in_time]. rewrite <- INR_IZR_INZ. cbn [INR]. destruct (Rle_dec _ _) as [H|H]; [reflexivity|lra].
  - rewrite Rabs_pos_eq; lra.
  - rewrite S by lia. reflexivity.
Qed.
(** the sine table without error *)
Example exact_table : let sine := map (fun k => sin (2 * PI * INR k / 2048)) (seq 0 (Z.to_nat 2048)) in
  length sine = Z.to_nat 2048 /\ forall k, (k < length sine)%nat -> Rabs (nth k sine 0 - sin (2 * PI * INR k / 2048)) <= 0.
Proof.
  intros sine. assert (L : length sine = Z.to_nat 2048) by (unfold sine; rewrite map_length, seq_length; reflexivity). split; [exact L|]. intros k Hk. rewrite L in Hk. unfold sine.
  rewrite (nth_indep _ 0 (sin (2 * PI * INR 0 / 2048))) by (rewrite map_length, seq_length; exact Hk). rewrite (map_nth (fun k => sin (2 * PI * INR k / 2048))), seq_nth by exact Hk. cbn [Nat.add]. rewrite Rminus_eq_0, Rabs_R0. lra.
Qed.
Print Assumptions C73_every_history. Print Assumptions C73_constant_tone. Print Assumptions C73_sine. Print Assumptions C73_bounded. Print Assumptions C73_subsample_start_refuted.
