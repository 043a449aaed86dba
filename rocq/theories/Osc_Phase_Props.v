(** C73 in floating point arithmetic: an oscillator started at time 0 whose frequency is automated in any way below half the sample rate.

    The code accumulates the phase in f64, one rounded addition per frame, for as long as the sound lasts.  The error grows by at most
    2^-51 turns per frame: after a day at 48 kHz it is below 2e-6 turns. *)
From Coq Require Import List Arith Bool ZArith Reals Lra Lia.
From Flocq Require Import Core BinarySingleNaN.
From Verif Require Import Float_Model Buffer_Model Buffer_ResampleProofs Common_Model Arith_Model Source_Model Source_Spec Source_ClockProofs Osc_IeeeProofs Osc_PhaseSpec Osc_PhaseProofs Osc_WaveProofs.
Import ListNotations.
Local Open Scope R_scope.

Notation zero32 := (B754_zero false : f32).
Notation zero64 := (B754_zero false : f64).
(** [freq]: the frequency values of each quantum; the detune is 0, and 2^0 = 1 in the maths library *)
Definition tones (sr : f32) (freq : list (list f32)) : Prop :=
  Forall (fun fs => (length fs = 1%nat \/ length fs = 128%nat) /\ Forall (fun f : f32 => is_finite f = true /\ 0 <= B2R f < B2R (f64_of_f32 sr) / 2) fs) freq.
Definition exp2_zero (M : libm) : Prop := is_finite (m64_exp2 M zero64) = true /\ B2R (m64_exp2 M zero64) = 1.
Definition calls (freq : list (list f32)) : list (@osc_action f64 f32) := O_start zero64 :: map (fun fs => O_quantum fs [zero32]) freq.

Lemma tones_below : forall sr freq, tones sr freq -> Forall (fun fs => values_ok fs /\ Forall (below sr) fs) freq.
Proof. intros sr freq H. eapply Forall_impl; [|exact H]. intros fs [V F]. split; [exact V|]. eapply Forall_impl; [|exact F]. intros f (A & B & C). repeat split; assumption. Qed.

(** A sine oscillator plays the sine of 2 pi times the turns, with an error of 2.5e-6, plus the error [e] of the sine table, plus 2^-48 per frame played. *)
Theorem C73_sine_ieee : forall M sr table e freq, rate_ok sr -> exp2_zero M ->
  length table = Z.to_nat 2048 -> Forall (fun v : f32 => is_finite v = true /\ Rabs (B2R v) <= 1) table ->
  (forall k, (k < length table)%nat -> Rabs (B2R (nth k table zero32) - sin (2 * PI * INR k / 2048)) <= e) ->
  tones sr freq -> IZR (128 * Z.of_nat (length freq)) / B2R (f64_of_f32 sr) <= 8388608 ->
  exists s f os, osc_run (ieee M) sr table (osc_new (ieee M) Sine) 0 (calls freq) = Ok (s, f, os) /\ length os = length freq /\ Forall (fun o => length (o_output o) = 128%nat) os /\
    forall k o i v, nth_error os k = Some o -> nth_error (o_output o) i = Some v -> let n := (128 * k + i)%nat in
      Rabs (B2R v - sin (2 * PI * turns (B2R (f64_of_f32 sr)) freq n)) <= 25 / 10000000 + e + INR n * bpow radix2 (-48).
Proof.
  intros M sr table e freq Hsr Hx Hl Hu He Hf Hm. assert (W : wave64 table). { exists 11%Z. split; [lia|]. rewrite Hl, Z2Nat.id by lia. reflexivity. }
  destruct (start_follows M sr Hsr Hx table Sine ltac:(discriminate) W freq (tones_below sr freq Hf) Hm) as (s & f & os & E & _ & L & F & O). exists s, f, os. split; [exact E|]. split; [exact L|]. split; [exact F|].
  intros k o i v Hk Hi n. destruct (O k o i v Hk Hi) as (p & j & Fo & V). fold n in Fo.
  specialize (V (mk_osc Sine p zero64 zero64 true None false) eq_refl eq_refl). unfold waveform_sample in V. cbn [os_type os_phase] in V.
  pose proof (sine_value M table e n _ p v Hl Hu He Fo V) as Q. change (bpow radix2 (-48)) with (/ 281474976710656). change (bpow radix2 (-51)) with (/ 2251799813685248) in Q. lra.
Qed.

(** A triangle oscillator: the error of the triangle is 1.25e-7, plus 2^-49 per frame played. *)
Theorem C73_triangle_ieee : forall M sr table freq, rate_ok sr -> exp2_zero M -> wave64 table ->
  tones sr freq -> IZR (128 * Z.of_nat (length freq)) / B2R (f64_of_f32 sr) <= 8388608 ->
  exists s f os, osc_run (ieee M) sr table (osc_new (ieee M) Triangle) 0 (calls freq) = Ok (s, f, os) /\ length os = length freq /\ Forall (fun o => length (o_output o) = 128%nat) os /\
    forall k o i v, nth_error os k = Some o -> nth_error (o_output o) i = Some v -> let n := (128 * k + i)%nat in let x := turns (B2R (f64_of_f32 sr)) freq n in
      Rabs (B2R v - triangle (x - IZR (Zfloor x))) <= / 8000000 + INR n * bpow radix2 (-49).
Proof.
  intros M sr table freq Hsr Hx W Hf Hm.
  destruct (start_follows M sr Hsr Hx table Triangle ltac:(discriminate) W freq (tones_below sr freq Hf) Hm) as (s & f & os & E & _ & L & F & O). exists s, f, os. split; [exact E|]. split; [exact L|]. split; [exact F|].
  intros k o i v Hk Hi n x. destruct (O k o i v Hk Hi) as (p & j & Fo & V). fold n in Fo. fold x in Fo.
  specialize (V (mk_osc Triangle p zero64 zero64 true None false) eq_refl eq_refl). unfold waveform_sample in V. cbn [os_type os_phase] in V.
  assert (V' : triangle_sample (ieee M) p = v) by congruence. rewrite <- V'.
  pose proof (triangle_value M n x p Fo) as Q. change (bpow radix2 (-49)) with (/ 562949953421312). change (bpow radix2 (-51)) with (/ 2251799813685248) in Q. lra.
Qed.

(** The phase itself, of every type of oscillator: it is in [0,1) and within 2^-51 turns per frame of the exact number of turns, up to whole turns. *)
Theorem C73_phase_ieee : forall M sr table ty freq, rate_ok sr -> exp2_zero M -> wave64 table -> ty <> Custom ->
  tones sr freq -> IZR (128 * Z.of_nat (length freq)) / B2R (f64_of_f32 sr) <= 8388608 ->
  exists s f os, osc_run (ieee M) sr table (osc_new (ieee M) ty) 0 (calls freq) = Ok (s, f, os) /\ is_finite (os_phase s) = true /\ 0 <= B2R (os_phase s) < 1 /\
    exists whole : Z, Rabs (B2R (os_phase s) + IZR whole - turns (B2R (f64_of_f32 sr)) freq (128 * length freq)) <= INR (128 * length freq) * bpow radix2 (-51).
Proof.
  intros M sr table ty freq Hsr Hx W Hty Hf Hm.
  destruct (start_follows M sr Hsr Hx table ty Hty W freq (tones_below sr freq Hf) Hm) as (s & f & os & E & [[F1 F2] F3] & _). exists s, f, os. auto.
Qed.

(** ** Non-vacuity: 440 Hz for a quantum, then a quantum of vibrato, at 48 kHz *)
Definition vibrato : list (list f32) := [[f32_of_Z 440]; map (fun k => f32_of_Z (Z.of_nat k + 380)) (seq 0 128)].
Lemma int_tone : forall z, (0 <= z <= 1000)%Z -> is_finite (f32_of_Z z) = true /\ 0 <= B2R (f32_of_Z z) < B2R (f64_of_f32 (f32_of_Z 48000)) / 2.
Proof.
  intros z Hz. destruct (Float_BoundProofs.of_Z_exact 24 128 f32_prec f32_emax z ltac:(lia)) as [E F]. destruct (Float_BoundProofs.of_Z_exact 24 128 f32_prec f32_emax 48000 ltac:(lia)) as [E2 F2].
  change (binary_normalize 24 128 f32_prec f32_emax mode_NE z 0 false) with (f32_of_Z z) in *. change (binary_normalize 24 128 f32_prec f32_emax mode_NE 48000 0 false) with (f32_of_Z 48000) in *.
  destruct (f64_of_f32_val (f32_of_Z 48000) F2) as [E3 _]. rewrite E3, E2, E. split; [exact F|]. assert (0 <= IZR z <= 1000) by (split; [apply (IZR_le 0)|apply (IZR_le z 1000)]; lia). lra.
Qed.
Example vibrato_ok : rate_ok (f32_of_Z 48000) /\ tones (f32_of_Z 48000) vibrato /\ IZR (128 * Z.of_nat (length vibrato)) / B2R (f64_of_f32 (f32_of_Z 48000)) <= 8388608.
Proof.
  split; [vm_compute; reflexivity|]. split.
  - apply Forall_cons; [split; [left; reflexivity|apply Forall_cons; [apply int_tone; lia|apply Forall_nil]]|]. apply Forall_cons; [|apply Forall_nil]. split; [right; reflexivity|].
    apply Forall_forall. intros f H. apply in_map_iff in H. destruct H as (k & <- & Hk). apply in_seq in Hk. apply int_tone. lia.
  - destruct (int_tone 1 ltac:(lia)) as [_ H]. destruct (Float_BoundProofs.of_Z_exact 24 128 f32_prec f32_emax 48000 ltac:(lia)) as [E2 F2]. change (binary_normalize 24 128 f32_prec f32_emax mode_NE 48000 0 false) with (f32_of_Z 48000) in *.
    destruct (f64_of_f32_val (f32_of_Z 48000) F2) as [E3 _]. rewrite E3, E2. change (IZR (128 * Z.of_nat (length vibrato))) with 256. lra.
Qed.
(** a day at 48 kHz *)
Example C73_a_day : INR (Z.to_nat (24 * 3600 * 48000)) * bpow radix2 (-51) < 2 / 1000000.
Proof. rewrite INR_IZR_INZ, Z2Nat.id by lia. change (bpow radix2 (-51)) with (/ 2251799813685248). change (IZR (24 * 3600 * 48000)) with 4147200000. lra. Qed.
Print Assumptions C73_sine_ieee. Print Assumptions C73_triangle_ieee. Print Assumptions C73_phase_ieee.
