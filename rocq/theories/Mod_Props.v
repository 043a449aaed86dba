(** Modulation: theorems.

    C88 The output of a node that is connected to an AudioParam is added to the automated value of the parameter, at each frame.  Here: a
    tremolo, with automation on both sides, rendered by an OfflineAudioContext. *)
From Coq Require Import List Arith Bool ZArith Lia Reals Lra.
From Flocq Require Import Core BinarySingleNaN.
From Verif Require Import Float_Model Common_Model Arith_Model Arith_Real Source_Model Source_Spec Quantum_Model Graph_Model Thread_Model Whole_Model Param_Real Param_EnvelopeSpec
  Desk_Model Desk_Spec Desk_RealSpec Desk_Props Source_Props Mod_Model Mod_Spec Mod_RealProofs.
From Verif Require Param_Model.
Import ListNotations.
Local Open Scope R_scope.

(** [carrier] plays through its gain to the destination; [modulator] plays through its own gain into the parameter of the first gain.
    Each sample on the speakers is the product of the carrier and of the sum of its automated gain and of the modulation, limited to
    the range of the parameter; up to the millionth that a GainNode neglects. *)
Theorem C88_tremolo : forall sr n len (carrier modulator : part),
  0 < sr -> (0 < n <= max_channels)%nat -> part_legal sr carrier -> part_legal sr modulator -> INR len / sr <= t_MAX exact ->
  exists t' buf,
    render_audiobuffer (audio_graph (desk_env exact real_ops sr) (samples exact)) 0 128 n len new_thread
      (startup (tremolo exact real_ops n (part_calls carrier) (part_calls modulator))) [] [] = Some (t', buf, []) /\
    length buf = n /\
    forall c, (c < n)%nat -> exists ch, nth_error buf c = Some ch /\ length ch = len /\
      forall j, (j < len)%nat -> exists y, nth_error ch j = Some y /\
        if speaker n c
        then Rabs (y - tremolo_at sr carrier modulator (Z.of_nat j)) <=
             / 1000000 * Rabs (source_at sr carrier (Z.of_nat j)) * (1 + Rabs (source_at sr modulator (Z.of_nat j)))
        else y = 0.
Proof. intros sr n len carrier modulator H. exact (tremolo_real sr H n len carrier modulator). Qed.
Print Assumptions C88_tremolo.

(** ** The hypotheses are met *)

(** 8 frames per second; a carrier of 3 with a gain that rises from 1 to 2 in a second, and a modulator of 5 between 1/2 and 3/4 s with
    depth 2, 4 from 5/8 s on *)
Definition carrier8 : part := mk_part 3 [] 1 [mk_sev (Linear 2) 1] 0 None.
Definition modulator8 : part := mk_part 5 [] 2 [mk_sev (Jump 4) (5 / 8)] (1 / 2) (Some (3 / 4)).
Example C88_tremolo_example :
  part_legal 8 carrier8 /\ part_legal 8 modulator8 /\ tremolo_at 8 carrier8 modulator8 2 = 3 * (1 + 2 / 8) /\
  tremolo_at 8 carrier8 modulator8 4 = 3 * (1 + 4 / 8 + 10) /\ tremolo_at 8 carrier8 modulator8 5 = 3 * (1 + 5 / 8 + 20) /\
  tremolo_at 8 carrier8 modulator8 6 = 3 * (1 + 6 / 8) /\ tremolo_at 8 carrier8 modulator8 100 = 6.
Proof.
  assert (N0 : now (/ 8) 128 0 = 0) by (unfold now, frame_time, first_frame; cbn; lra).
  assert (Nr : forall k x, x = IZR k / 8 -> nearest (/ 8) x = k).
  { intros k x ->. unfold nearest. apply Zfloor_imp. rewrite plus_IZR. unfold Rdiv. rewrite Rinv_inv. lra. }
  split; [|split].
  1,2: split; unfold plan_legal; cbn [carrier8 modulator8 pt_offset pt_offset_plan pt_gain pt_gain_plan map plans_ok setter app];
      unfold setter_ok, plan_ok, arguments_ok, follows, Param_EnvelopeSpec.in_time; cbn [s_shape s_time after fold_left pass]; rewrite ?N0; repeat split; try (left; reflexivity); try exact I; lra.
  assert (L : forall f, (0 <= f < 8)%Z -> curve (/ 8) 128 (Hold 0 1) [mk_sev (Linear 2) 1] f = 1 + IZR f / 8).
  { intros f Hf. cbn [curve]. unfold s_end. cbn [s_shape s_time]. rewrite (Nr 8%Z 1) by lra. destruct (Z.leb_spec 8 f); [lia|]. unfold during, frame_time. cbn [start s_shape s_time]. lra. }
  assert (J : forall f, (0 <= f)%Z -> curve (/ 8) 128 (Hold 0 2) [mk_sev (Jump 4) (5 / 8)] f = if Z.leb 5 f then 4 else 2).
  { intros f Hf. cbn [curve]. unfold s_end. cbn [s_shape s_time]. rewrite (Nr 5%Z (5 / 8)) by lra. destruct (Z.leb 5 f); reflexivity. }
  assert (L8 : curve (/ 8) 128 (Hold 0 1) [mk_sev (Linear 2) 1] 100 = 2).
  { cbn [curve]. unfold s_end. cbn [s_shape s_time]. rewrite (Nr 8%Z 1) by lra. reflexivity. }
  unfold tremolo_at, modulated, source_at, gain_at, automated, Source_Spec.in_time. cbn [carrier8 modulator8 pt_offset pt_offset_plan pt_gain pt_gain_plan pt_start pt_stop].
  rewrite L8. rewrite !L by lia. rewrite !J by lia. cbn [Z.leb Z.compare Pos.compare Pos.compare_cont curve value].
  repeat match goal with |- context [Rle_dec ?a ?b] => destruct (Rle_dec a b); try lra | |- context [Rlt_dec ?a ?b] => destruct (Rlt_dec a b); try lra end.
  all: rewrite !(in_range 3), !(in_range 5), !(in_range 2), !(in_range 4) by lra; rewrite !in_range by lra; repeat split; lra.
Qed.

(** In floating point: a carrier of 1 with gain 1, a modulator of 4 from frame 2 to frame 4 with depth 1/2 *)
Example C88_floats_example :
  option_map (fun r => map (map (@B2SF 24 128)) (snd (fst r)))
    (render_audiobuffer (audio_graph (desk_env (ieee libm_one) libm_ops rate8k) (samples (ieee libm_one))) f32_zero 128 3 6 new_thread
      (startup (tremolo (ieee libm_one) libm_ops 3 (mk_voice (f32_of_Z 1) [] (f32_of_Z 1) [] f64_zero None)
        (mk_voice (f32_of_Z 4) [] (f32_div (f32_of_Z 1) (f32_of_Z 2)) [] (at_frame8k 2) (Some (at_frame8k 4))))) [] []) =
  Some (map (map (@B2SF 24 128)) [[quot 1 1; quot 1 1; quot 3 1; quot 3 1; quot 1 1; quot 1 1]; repeat f32_zero 6; repeat f32_zero 6]).
Proof. vm_compute. reflexivity. Qed.
