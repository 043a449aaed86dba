(** A mixing desk, end to end: theorems.

    C70 Any number of ConstantSourceNodes, each through its own GainNode to the destination, offsets and gains automated, rendered
    by an OfflineAudioContext: the buffer is the sum of the products at each frame.  Here the models of the control messages, the render
    graph, the AudioParams, the nodes, the mixing of inputs and the offline render thread work together. *)
From Coq Require Import List Arith Bool ZArith Lia Permutation Reals Lra.
From Flocq Require Import Core BinarySingleNaN.
From Verif Require Import Float_Model Common_Model Arith_Model Arith_Real Buffer_Model Buffer_ResampleProofs Quantum_Model Source_Model Source_Spec Source_ClockProofs
  Graph_Model Thread_Model Whole_Model Param_Real Param_EnvelopeSpec
  Desk_Model Desk_Spec Desk_RealSpec Desk_FloatSpec Desk_RealProofs Desk_IeeeProofs Source_Props.
From Verif Require Param_Model Param_Inst.
Import ListNotations.
Local Open Scope R_scope.

(** Exact arithmetic.  [parts] is the program (for each part, the nodes are created and connected, the automation calls are made, the
    source is started and perhaps stopped), [n] the number of channels, [len] the length of the buffer.  Rendering succeeds, and each
    sample on the speakers a mono signal goes to is the mix of the specification, up to the millionth that a GainNode neglects; the other
    channels are silent.  (The last hypothesis: the buffer is not longer than 10^308 seconds.) *)
Theorem C70_mix : forall sr n len (parts : list part),
  0 < sr -> (0 < n <= max_channels)%nat -> Forall (part_legal sr) parts -> INR len / sr <= t_MAX exact ->
  exists t' buf,
    render_audiobuffer (audio_graph (desk_env exact real_ops sr) (samples exact)) 0 128 n len new_thread
      (startup (desk exact real_ops n (map part_calls parts))) [] [] = Some (t', buf, []) /\
    length buf = n /\
    forall c, (c < n)%nat -> exists ch, nth_error buf c = Some ch /\ length ch = len /\
      forall j, (j < len)%nat -> exists y, nth_error ch j = Some y /\
        if speaker n c
        then Rabs (y - mix_at sr parts (Z.of_nat j)) <= / 1000000 * total (map (fun p => Rabs (source_at sr p (Z.of_nat j))) parts)
        else y = 0.
Proof. intros sr n len parts H. exact (desk_real sr H n len parts). Qed.
Print Assumptions C70_mix.

(** Floating point, bit for bit: given the values of the AudioParams ([strip_ok]), each sample is the sum, from left to right in
    some order of the voices, of the products [strip_quantum]; the order is the same for the whole buffer. *)
Theorem C70_floats : forall M PO sr n len (strips : list strip),
  rate_ok sr -> (0 < n <= max_channels)%nat -> Forall (strip_ok M PO sr (div_ceil len 128)) strips -> INR (len + 128) / B2R (f64_of_f32 sr) <= 8388608 ->
  exists order t' buf, Permutation strips order /\
    render_audiobuffer (audio_graph (desk_env (ieee M) PO sr) (samples (ieee M))) f32_zero 128 n len new_thread
      (startup (desk (ieee M) PO n (map fst strips))) [] [] = Some (t', buf, []) /\
    length buf = n /\
    forall c, (c < n)%nat -> exists ch, nth_error buf c = Some ch /\ length ch = len /\
      forall j, (j < len)%nat -> nth_error ch j = Some (
        if speaker n c
        then nth (j mod 128) (match sum f32_add (map (strip_quantum M sr (j / 128)) order) with Some v => v | None => repeat f32_zero 128 end) f32_zero
        else f32_zero).
Proof. intros M PO sr n len strips H. exact (desk_ieee M PO sr H n len strips). Qed.
Print Assumptions C70_floats.

(** ** The hypotheses are met *)

(** 8 frames per second; an offset that rises from 1 to 2 in a second, at half volume, and a second source of 5 between 1/2 and 3/4 s,
    whose volume jumps from 1 to 2 at 5/8 s *)
Definition two_parts : list part :=
  [mk_part 1 [mk_sev (Linear 2) 1] (1 / 2) [] 0 None;
   mk_part 5 [] 1 [mk_sev (Jump 2) (5 / 8)] (1 / 2) (Some (3 / 4))].
Lemma MAX_big : 1000 <= v_MAX exact.
Proof. cbn [exact v_MAX]. change (IZR (2 ^ 24 - 1)) with 16777215. assert (1 <= bpow radix2 104) by (change 1 with (bpow radix2 0); apply bpow_le; lia). lra. Qed.
Lemma in_range x : -1000 <= x <= 1000 -> clamped (- v_MAX exact) (v_MAX exact) x = x.
Proof. intros H. pose proof MAX_big. unfold clamped. rewrite Rmax_left by lra. rewrite Rmin_left by lra. reflexivity. Qed.
Example C70_mix_example :
  Forall (part_legal 8) two_parts /\ mix_at 8 two_parts 2 = (1 + 2 / 8) / 2 /\ mix_at 8 two_parts 4 = (1 + 4 / 8) / 2 + 5 /\
  mix_at 8 two_parts 5 = (1 + 5 / 8) / 2 + 10 /\ mix_at 8 two_parts 6 = (1 + 6 / 8) / 2 /\ mix_at 8 two_parts 100 = 1.
Proof.
  assert (N0 : now (/ 8) 128 0 = 0) by (unfold now, frame_time, first_frame; cbn; lra).
  assert (Nr : forall k x, x = IZR k / 8 -> nearest (/ 8) x = k).
  { intros k x ->. unfold nearest. apply Zfloor_imp. rewrite plus_IZR. unfold Rdiv. rewrite Rinv_inv. lra. }
  split.
  - unfold two_parts. repeat (apply Forall_cons || apply Forall_nil); split; unfold plan_legal; cbn [pt_offset pt_offset_plan pt_gain pt_gain_plan map plans_ok setter app];
      unfold setter_ok, plan_ok, arguments_ok, follows, Param_EnvelopeSpec.in_time; cbn [s_shape s_time after fold_left pass]; rewrite ?N0; repeat split; try (left; reflexivity); try exact I; lra.
  - assert (L : forall f, (0 <= f < 8)%Z -> curve (/ 8) 128 (Hold 0 1) [mk_sev (Linear 2) 1] f = 1 + IZR f / 8).
    { intros f Hf. cbn [curve]. unfold s_end. cbn [s_shape s_time]. rewrite (Nr 8%Z 1) by lra. destruct (Z.leb_spec 8 f); [lia|]. unfold during, frame_time. cbn [start s_shape s_time]. lra. }
    assert (J : forall f, (0 <= f)%Z -> curve (/ 8) 128 (Hold 0 1) [mk_sev (Jump 2) (5 / 8)] f = if Z.leb 5 f then 2 else 1).
    { intros f Hf. cbn [curve]. unfold s_end. cbn [s_shape s_time]. rewrite (Nr 5%Z (5 / 8)) by lra. destruct (Z.leb 5 f); reflexivity. }
    unfold mix_at, two_parts, total, source_at, gain_at, automated, Source_Spec.in_time. cbn [map fold_right pt_offset pt_offset_plan pt_gain pt_gain_plan pt_start pt_stop].
    rewrite !L by lia. rewrite !J by lia. cbn [Z.leb Z.compare Pos.compare Pos.compare_cont curve value].
    assert (L8 : curve (/ 8) 128 (Hold 0 1) [mk_sev (Linear 2) 1] 100 = 2).
    { cbn [curve]. unfold s_end. cbn [s_shape s_time]. rewrite (Nr 8%Z 1) by lra. reflexivity. }
    cbn [curve value] in L8 |- *.
    rewrite L8.
    repeat match goal with |- context [Rle_dec ?a ?b] => destruct (Rle_dec a b); try lra | |- context [Rlt_dec ?a ?b] => destruct (Rlt_dec a b); try lra end.
    all: rewrite !in_range by lra; repeat split; lra.
Qed.

(** Floating point: the values of the parameters exist, and a buffer that is rendered by the model.  An offset of 1 with a linear ramp to 3
    through a gain of 1/2, and a source of 4 from frame 2 to frame 4, whose gain of 10^-7 is set to 2 at frame 3 *)
Definition rate8k : f32 := f32_of_Z 8192.
Definition at_frame8k (i : Z) : f64 := f64_div (f64_of_Z i) (f64_of_Z 8192).
Definition two_voices : list (voice f64 f32) :=
  [mk_voice (f32_of_Z 1) [Param_Model.C_linear_ramp (f32_of_Z 3) (at_frame8k 4)] (f32_div (f32_of_Z 1) (f32_of_Z 2)) [] f64_zero None;
   mk_voice (f32_of_Z 4) [] (f32_div (f32_of_Z 1) (f32_of_Z 10000000)) [Param_Model.C_set_value_at_time (f32_of_Z 2) (at_frame8k 3)] (at_frame8k 2) (Some (at_frame8k 4))].
Definition libm_ops := Param_Inst.ieee_ops (fun _ => f64_one) (fun _ _ => f32_of_Z 1).
Definition quot (a b : Z) : f32 := f32_div (f32_of_Z a) (f32_of_Z b).
Definition computed (x : f32) (calls : list (@Param_Model.call f64 f32)) : option (list (list f32)) :=
  match Param_Model.prun libm_ops 128 (fresh_param (ieee libm_one))
          (map Param_Model.Schedule (Param_Model.C_set_value x :: calls)
           ++ map (fun k => Param_Model.Quantum (block_time (ieee libm_one) rate8k (Z.of_nat (k * 128))) (dt (ieee libm_one) rate8k) (repeat f32_zero 128) true) (seq 0 1)) with
  | Ok (_, values) => Some values
  | _ => None
  end.
Definition lengths_ok (o : option (list (list f32))) : bool :=
  match o with Some l => forallb (fun v => (length v =? 1)%nat || (length v =? 128)%nat) l | None => false end.
Lemma computed_ok x calls : lengths_ok (computed x calls) = true -> exists values, param_values_of libm_one libm_ops rate8k 1 x calls values /\ Forall values_ok values.
Proof.
  unfold computed, param_values_of. destruct (Param_Model.prun _ _ _ _) as [[p values]| |]; cbn [lengths_ok]; intros H; try discriminate. exists values. split; [exists p; reflexivity|].
  rewrite forallb_forall in H. apply Forall_forall. intros v Hv. specialize (H v Hv). apply orb_prop in H. destruct H as [H|H]; apply Nat.eqb_eq in H; [left|right]; exact H.
Qed.
Lemma valid_time_check (x : f64) : (is_finite x && f64_le f64_zero x)%bool = true -> valid_time x.
Proof. intros H. apply andb_prop in H. exact H. Qed.
Example C70_floats_hypotheses : rate_ok rate8k /\ exists strips, map fst strips = two_voices /\ Forall (strip_ok libm_one libm_ops rate8k (div_ceil 6 128)) strips.
Proof.
  split; [vm_compute; reflexivity|].
  assert (X : forall v, In v two_voices -> exists s, fst s = v /\ strip_ok libm_one libm_ops rate8k 1 s).
  { intros v Hv. assert (C : (lengths_ok (computed (v_offset v) (v_offset_calls v)) && lengths_ok (computed (v_gain v) (v_gain_calls v)) &&
      (is_finite (v_start v) && f64_le f64_zero (v_start v)) && match v_stop v with Some t => is_finite t && f64_le f64_zero t | None => true end)%bool = true).
    { destruct Hv as [<-|[<-|[]]]; vm_compute; reflexivity. }
    apply andb_prop in C. destruct C as [C C4]. apply andb_prop in C. destruct C as [C C3]. apply andb_prop in C. destruct C as [C1 C2].
    destruct (computed_ok _ _ C1) as (vo & O1 & O2). destruct (computed_ok _ _ C2) as (vg & G1 & G2). exists (v, (vo, vg)). split; [reflexivity|].
    split; [apply valid_time_check, C3|]. split; [destruct (v_stop v); [apply valid_time_check, C4|exact I]|]. tauto. }
  change (div_ceil 6 128) with 1%nat. induction two_voices as [|v l IH]; [exists []; split; [reflexivity|constructor]|].
  destruct (X v (or_introl eq_refl)) as (s & S1 & S2). destruct IH as (ss & I1 & I2); [intros w Hw; apply X; right; exact Hw|].
  exists (s :: ss). split; [cbn; rewrite S1, I1; reflexivity|constructor; assumption].
Qed.
Example C70_floats_example :
  option_map (fun r => map (map (@B2SF 24 128)) (snd (fst r)))
    (render_audiobuffer (audio_graph (desk_env (ieee libm_one) libm_ops rate8k) (samples (ieee libm_one))) f32_zero 128 3 6 new_thread
      (startup (desk (ieee libm_one) libm_ops 3 two_voices)) [] []) =
  Some (map (map (@B2SF 24 128))
    [[quot 1 2; quot 3 4; f32_add (quot 1 1) (quot 4 10000000); quot 37 4; quot 3 2; quot 3 2]; repeat f32_zero 6; repeat f32_zero 6]).
Proof. vm_compute. reflexivity. Qed.
