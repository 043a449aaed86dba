From Coq Require Import List Arith Bool ZArith Lia Permutation Reals Lra.
From Flocq Require Import Core BinarySingleNaN.
From Verif Require Import Float_Model Float_Proofs Common_Model Arith_Model Buffer_ResampleProofs Buffer_Model Quantum_Model Route_Model Route_Spec Source_Model Source_Spec Source_Proofs Source_ClockProofs
  Graph_Model Thread_Model Thread_OfflineProofs Whole_Model
  Desk_Model Desk_Spec Desk_FloatSpec Desk_BuildProofs Desk_FlowProofs Desk_Proofs.
From Verif Require Param_Model.
Import ListNotations.
Local Open Scope R_scope.

Section Ieee.
Variable M : libm.
Variable PO : @Param_Model.param_ops f64 f32.
Variable sr : f32.
Hypothesis Hsr : rate_ok sr.
Notation A := (ieee M).
Notation S := (B2R (f64_of_f32 sr)).

Lemma source_ieee (v : voice f64 f32) vo k : valid_time (v_start v) -> match v_stop v with Some t => valid_time t | None => True end -> values_ok (vo k) ->
  early sr (128 * Z.of_nat k) ->
  source_out A sr v vo k = if f64_le (next_block_time A sr (128 * Z.of_nat k)) (v_start v) then None else Some (source_frames M sr v k (vo k)).
Proof.
  intros V1 V2 VO He. unfold source_out. change (t_le A) with f64_le. replace (Z.of_nat (k * RQ)) with (128 * Z.of_nat k)%Z by (unfold RQ; lia).
  destruct (f64_le _ _); [reflexivity|]. f_equal.
  destruct (cs_process A sr (source_state A v) (128 * Z.of_nat k) (vo k)) as [s' o] eqn:Ec. cbn [snd].
  assert (F1 : is_nan (cs_start (source_state A v)) = false) by (cbn; apply finite_not_nan, V1).
  assert (F2 : is_nan (cs_stop (source_state A v)) = false) by (cbn [source_state cs_stop]; destruct (v_stop v); [apply finite_not_nan, V2|reflexivity]).
  rewrite (cs_output_ieee M sr Hsr _ _ _ _ _ VO F1 F2 He Ec). unfold source_frames. apply map_ext_in. intros i Hi. apply in_seq in Hi.
  rewrite <- frame_time_split by lia. cbn [source_state cs_start cs_stop]. unfold in_time_ieee. destruct (v_stop v) as [t|]; [reflexivity|].
  destruct (below_max (frame_time M sr (128 * Z.of_nat k + Z.of_nat i))) as [_ M2].
  { rewrite frame_time_split by lia. apply (advance_ieee M sr Hsr _ i He). lia. }
  { rewrite frame_time_split by lia. pose proof (advance_before_next M sr Hsr _ i He ltac:(lia)) as B1. destruct (next_ieee M sr Hsr _ He) as [_ B2]. apply Rabs_le_inv in B2. change (bpow radix2 (-27)) with (/ 134217728) in B2. destruct He as [_ He]. lra. }
  change (t_MAX A) with f64_MAX. rewrite M2, andb_true_r. reflexivity.
Qed.

Lemma amplified_map g x : values_ok g -> length x = 128%nat -> amplified A g x = map (fun i => f32_mul (nth i x f32_zero) (value_at f32_zero g i)) (seq 0 128).
Proof.
  intros Hg Hx. unfold amplified. rewrite Hx. change (v_mul A) with f32_mul. change (v_zero A) with f32_zero.
  assert (C : combine (seq 0 128) x = map (fun i => (i, nth i x f32_zero)) (seq 0 128)).
  { rewrite <- Hx. clear.
    assert (X : forall (x : list f32) b, combine (seq b (length x)) x = map (fun i => (i, nth (i - b) x f32_zero)) (seq b (length x))).
    { induction x0 as [|y x0 IH]; intros b; [reflexivity|]. cbn [length seq combine map]. rewrite Nat.sub_diag. cbn [nth]. f_equal. rewrite IH. apply map_ext_in. intros i Hi. apply in_seq in Hi.
      replace (i - b)%nat with (Datatypes.S (i - Datatypes.S b)) by lia. reflexivity. }
    rewrite (X x 0%nat). apply map_ext. intros i. rewrite Nat.sub_0_r. reflexivity. }
  rewrite C, map_map. apply map_ext_in. intros i Hi. apply in_seq in Hi. cbn [fst snd]. f_equal. unfold value_at. destruct Hg as [Hg|Hg].
  - destruct g as [|y [|z g]]; try discriminate. cbn [length]. rewrite Nat.mod_1_r. reflexivity.
  - rewrite Hg, Nat.mod_small by lia. destruct g as [|y [|z g]]; try discriminate. reflexivity.
Qed.

Theorem desk_ieee n len (ss : list strip) : (0 < n <= max_channels)%nat -> Forall (strip_ok M PO sr (div_ceil len 128)) ss -> INR (len + 128) / S <= 8388608 ->
  exists order t' buf, Permutation ss order /\
    render_audiobuffer (audio_graph (desk_env A PO sr) (samples A)) f32_zero 128 n len new_thread (startup (desk A PO n (map fst ss))) [] [] = Some (t', buf, []) /\ length buf = n /\
    forall c, (c < n)%nat -> exists ch, nth_error buf c = Some ch /\ length ch = len /\ forall j, (j < len)%nat -> nth_error ch j = Some (
      if speaker n c then nth (j mod 128) (match sum f32_add (map (strip_quantum M sr (j / 128)) order) with Some v => v | None => repeat f32_zero 128 end) f32_zero else f32_zero).
Proof.
  intros Hn HS HL. destruct (desk_rendered A PO sr n len ss Hn) as (order & t' & buf & O1 & O2 & O3 & O4).
  { eapply Forall_impl; [|exact HS]. intros [v [vo vg]] (V1 & V2 & P1 & P2 & P3 & P4). split; [exact P1|]. split; [exact P3|]. cbn [snd]. eapply Forall_impl; [|exact P4]. intros g [H|H]; intros ->; discriminate. }
  exists order, t', buf. split; [exact O1|]. split; [exact O2|]. split; [exact O3|]. intros c Hc. destruct (O4 c Hc) as (ch & C1 & C2 & C3). exists ch. split; [exact C1|]. split; [exact C2|].
  intros j Hj. rewrite (C3 j Hj). f_equal. destruct (speaker n c); [|reflexivity].
  change RQ with 128%nat. change (v_add A) with f32_add. change (v_zero A) with f32_zero.
  replace (map (fun w => sound A sr w (j / 128)) order) with (map (strip_quantum M sr (j / 128)) order); [reflexivity|].
  apply map_ext_in. intros s Hs. apply (Permutation_in s (Permutation_sym O1)) in Hs. rewrite Forall_forall in HS. specialize (HS s Hs). destruct s as [v [vo vg]]. destruct HS as (V1 & V2 & P1 & P2 & P3 & P4).
  set (k := (j / 128)%nat). assert (Hk : (k < div_ceil len 128)%nat) by (apply div_ceil_spec; [lia|]; pose proof (Nat.div_mod j 128 ltac:(lia)); unfold k; lia).
  destruct (plays_steps A PO sr _ _ _ _ P1) as [L1 _]. destruct (plays_steps A PO sr _ _ _ _ P3) as [L2 _].
  assert (VO : values_ok (nth k vo [])) by (rewrite Forall_forall in P2; apply P2, nth_In; change RQ with 128%nat in L1; lia).
  assert (VG : values_ok (nth k vg [])) by (rewrite Forall_forall in P4; apply P4, nth_In; change RQ with 128%nat in L2; lia).
  assert (He : early sr (128 * Z.of_nat k)).
  { split; [lia|]. eapply Rle_trans; [|exact HL]. apply Rmult_le_compat_r; [left; apply Rinv_0_lt_compat; pose proof (S_range sr Hsr); lra|]. rewrite INR_IZR_INZ. apply IZR_le. pose proof (Nat.div_mod j 128 ltac:(lia)). unfold k. lia. }
  unfold sound, voice_out, strip_quantum. cbn [fst snd]. rewrite (source_ieee v (fun k => nth k vo []) k V1 V2 VO He). destruct (f64_le _ _); [reflexivity|].
  unfold after_gain, threshold. rewrite <- amplified_map by (exact VG || (unfold source_frames; rewrite map_length, seq_length; reflexivity)).
  change (v_le A) with f32_le. change (v_abs A) with f32_abs. change (v_sub A) with f32_sub.
  destruct (nth k vg []) as [|g [|g2 gs]]; reflexivity.
Qed.
End Ieee.
