From Coq Require Import List Arith Bool ZArith Lia Permutation Reals Lra.
From Flocq Require Import Core.
From Verif Require Import Common_Model Arith_Model Arith_Real Quantum_Model Route_Model Route_Spec Source_Model Source_Spec Source_Proofs
  Graph_Model Thread_Model Whole_Model Param_Real Param_EnvelopeSpec Param_EnvelopeProofs
  Desk_Model Desk_Spec Desk_RealSpec Desk_BuildProofs Desk_FlowProofs Desk_Proofs.
From Verif Require Param_Model.
Import ListNotations.
Local Open Scope R_scope.

Section Real.
Variable sr : R.
Hypothesis SR : 0 < sr.
Notation A := exact.
Notation PO := real_ops.
Definition zeros : list R := repeat 0 128.
Notation lo := (- v_MAX A).
Notation hi := (v_MAX A).

Lemma dt_pos : 0 < / sr. Proof. apply Rinv_0_lt_compat, SR. Qed.
Lemma range_ok : lo <= hi.
Proof.
  cbn [exact v_MAX]. assert (0 < bpow radix2 104) by apply bpow_gt_0. assert (0 < IZR (2 ^ 24 - 1)) by (apply IZR_lt; reflexivity). pose proof (Rmult_lt_0_compat _ _ H0 H). lra.
Qed.

Lemma expected_plans dflt n plans : forall l os, l <> [] -> expected (/ sr) 128 dflt lo hi n l (map Plan plans ++ os) = expected (/ sr) 128 dflt lo hi n (l ++ plans) os.
Proof.
  induction plans as [|s plans IH]; intros l os Hl; cbn [map app expected]; [rewrite app_nil_r; reflexivity|]. unfold plan. destruct l as [|x l]; [congruence|].
  rewrite IH by (destruct l; discriminate). rewrite <- app_assoc. reflexivity.
Qed.
Lemma expected_plays dflt l K : forall n, expected (/ sr) 128 dflt lo hi n l (repeat (Play zeros true) K) =
  map (fun k => map (fun j => clamped lo hi (curve (/ sr) 128 (Hold 0 dflt) l (first_frame 128 k + Z.of_nat j) + nth j zeros 0)) (seq 0 128)) (seq n K).
Proof. induction K as [|K IH]; intros n; [reflexivity|]. cbn [repeat expected seq map]. rewrite IH. reflexivity. Qed.
Lemma plans_plays dflt l K : forall n, plans_ok (/ sr) 128 dflt n l (repeat (Play zeros true) K).
Proof.
  induction K as [|K IH]; intros n; cbn [repeat plans_ok]; [exact I|]. split; [|apply IH]. split; [apply repeat_length|]. intros _. apply Forall_forall. intros x Hx. apply repeat_spec in Hx. exact Hx.
Qed.
Lemma plans_app dflt n plans os : (forall l, plans_ok (/ sr) 128 dflt n l os) -> forall l, plans_ok (/ sr) 128 dflt n l (map Plan plans) -> plans_ok (/ sr) 128 dflt n l (map Plan plans ++ os).
Proof.
  intros H. induction plans as [|s plans IH]; intros l Hl; cbn [map app plans_ok] in *; [apply H|]. destruct Hl as [H1 H2]. split; [exact H1|]. apply IH. exact H2.
Qed.
Lemma ops_plans plans os : to_ops (/ sr) 128 0 (map Plan plans ++ os) = map Param_Model.Schedule (map call_of plans) ++ to_ops (/ sr) 128 0 os.
Proof. induction plans as [|s plans IH]; [reflexivity|]. cbn [map app to_ops]. rewrite IH. reflexivity. Qed.
Lemma ops_plays K : forall n, to_ops (/ sr) 128 n (repeat (Play zeros true) K) = quanta_ops A sr n K.
Proof.
  induction K as [|K IH]; intros n; [reflexivity|]. cbn [repeat to_ops]. unfold quanta_ops. cbn [seq map]. fold (quanta_ops A sr (S n) K). rewrite IH. f_equal.
  rewrite dt_exact. change (repeat (v_zero A) RQ) with zeros. reflexivity.
Qed.
Lemma after_setter dflt x plan f : (0 <= f)%Z -> curve (/ sr) 128 (Hold 0 dflt) (mk_sev (Jump x) (now (/ sr) 128 0) :: plan) f = curve (/ sr) 128 (Hold 0 x) plan f.
Proof.
  intros Hf. cbn [curve]. assert (N : now (/ sr) 128 0 = 0) by (unfold now, frame_time, first_frame; cbn; lra). cbn [s_end s_shape s_time pass]. unfold s_end, pass. cbn [s_shape s_time]. rewrite N.
  assert (Z0 : nearest (/ sr) 0 = 0%Z) by (unfold nearest; apply Zfloor_imp; cbn; lra). rewrite Z0. destruct (Z.leb_spec 0 f); [reflexivity|lia].
Qed.

Lemma nth_const (y : R) j : forall n, (j < n)%nat -> nth j (repeat y n) 0 = y.
Proof. intros n Hn. rewrite (nth_indep _ 0 y) by (rewrite repeat_length; exact Hn). apply nth_repeat. Qed.

(** the values of a parameter *)
Lemma plays_automation K x plan : plan_legal sr x plan ->
  exists values, plays A PO sr K x (map call_of plan) values /\
    forall k j, (k < K)%nat -> (j < 128)%nat -> values_ok (nth k values []) /\ value_at 0 (nth k values []) j = automated sr x plan (Z.of_nat (k * 128 + j)).
Proof.
  intros H. unfold plan_legal in H. cbn [plans_ok] in H. destruct H as [H1 H2].
  pose proof (envelope (/ sr) dt_pos 128 ltac:(lia) 1 lo hi range_ok (Set_value x :: map Plan plan ++ repeat (Play zeros true) K) 0 [] (Param_Model.new_param true 1 lo hi)) as X.
  destruct X as (p & outs & R1 & R2).
  - apply st_new. all: first [exact dt_pos|lia|exact range_ok].
  - cbn [plans_ok]. split; [exact H1|]. apply plans_app; [intros l; apply plans_plays|exact H2].
  - cbn [to_ops] in R1. rewrite ops_plans, ops_plays in R1. cbn [expected] in R2. unfold setter in R2. rewrite expected_plans in R2 by discriminate. rewrite expected_plays in R2. cbn [app] in R2.
    exists outs. split.
    + exists p. exact R1.
    + intros k j Hk Hj.
      assert (L : length outs = K) by (apply (f_equal (@length _)) in R2; rewrite !map_length, seq_length in R2; exact R2).
      assert (N : spread 128 (nth k outs []) = map (fun j => clamped lo hi (curve (/ sr) 128 (Hold 0 1) (mk_sev (Jump x) (now (/ sr) 128 0) :: plan) (first_frame 128 k + Z.of_nat j) + nth j zeros 0)) (seq 0 128)).
      { apply (f_equal (fun l => nth_error l k)) in R2. rewrite !nth_error_map in R2. rewrite (nth_error_nth' outs []) in R2 by lia. rewrite (nth_error_nth' (seq 0 K) 0%nat), seq_nth in R2 by (rewrite ?seq_length; lia).
        cbn [option_map] in R2. injection R2 as R2. exact R2. }
      assert (VA : nth j (spread 128 (nth k outs [])) 0 = automated sr x plan (Z.of_nat (k * 128 + j))).
      { rewrite N. rewrite (nth_indep _ 0 (clamped lo hi (curve (/ sr) 128 (Hold 0 1) (mk_sev (Jump x) (now (/ sr) 128 0) :: plan) (first_frame 128 k + Z.of_nat 0) + nth 0 zeros 0))) by (rewrite map_length, seq_length; lia).
        rewrite (map_nth (fun j => clamped lo hi (curve (/ sr) 128 (Hold 0 1) (mk_sev (Jump x) (now (/ sr) 128 0) :: plan) (first_frame 128 k + Z.of_nat j) + nth j zeros 0))). rewrite seq_nth by lia. unfold zeros. rewrite nth_repeat.
        rewrite Rplus_0_r. unfold first_frame. rewrite <- Nat2Z.inj_add. rewrite after_setter by lia. cbn [Nat.add]. reflexivity. }
      assert (LS : length (spread 128 (nth k outs [])) = 128%nat) by (rewrite N, map_length, seq_length; reflexivity).
      unfold spread in VA, LS. destruct (nth k outs []) as [|y [|z l]].
      * cbn in LS. lia.
      * split; [left; reflexivity|]. cbn [value_at]. rewrite <- VA. symmetry. apply nth_const. exact Hj.
      * split; [right; exact LS|exact VA].
Qed.

(** the sound of a voice *)
Notation opt := (fun x : option (list R) => match x with Some v => v | None => zeros end).
Lemma nth_zeros j : nth j zeros 0 = 0.
Proof. unfold zeros. destruct (Nat.lt_ge_cases j 128); [apply nth_repeat|]. apply nth_overflow. rewrite repeat_length. exact H. Qed.

Definition valued_part (p : part) (vo vg : list (list R)) : @valued R R := (part_calls p, (vo, vg)).
Definition close (K : nat) (p : part) (w : @valued R R) : Prop :=
  fst w = part_calls p /\ valued_ok A PO sr K w /\
  forall k j, (k < K)%nat -> (j < 128)%nat -> IZR (Z.of_nat (k * 128 + j)) / sr < t_MAX A ->
    (match sound A sr w k with Some x => length x = 128%nat | None => True end) /\
    Rabs (nth j (opt (sound A sr w k)) 0 - source_at sr p (Z.of_nat (k * 128 + j)) * gain_at sr p (Z.of_nat (k * 128 + j))) <= / 1000000 * Rabs (source_at sr p (Z.of_nat (k * 128 + j))).

Lemma gate_exact p f : IZR f / sr < t_MAX A ->
  Arith_Real.R_le (pt_start p) (IZR f / sr) && Arith_Real.R_lt (IZR f / sr) (match pt_stop p with Some t => t | None => t_MAX A end) = Source_Spec.in_time sr (Some (pt_start p)) (pt_stop p) f.
Proof.
  intros H. unfold Source_Spec.in_time, Arith_Real.R_le, Arith_Real.R_lt. destruct (Rle_dec (pt_start p) _); [|reflexivity]. destruct (pt_stop p) as [t|]; cbn [andb].
  - reflexivity.
  - destruct (Rlt_dec _ _); [reflexivity|contradiction].
Qed.

Lemma source_real p vo k j : values_ok (vo k) -> (j < 128)%nat -> IZR (Z.of_nat (k * 128 + j)) / sr < t_MAX A ->
  value_at 0 (vo k) j = automated sr (pt_offset p) (pt_offset_plan p) (Z.of_nat (k * 128 + j)) ->
  (match source_out A sr (part_calls p) vo k with Some x => length x = 128%nat | None => True end) /\
  nth j (opt (source_out A sr (part_calls p) vo k)) 0 = source_at sr p (Z.of_nat (k * 128 + j)).
Proof.
  intros Hv Hj Hm VA. unfold source_out. change (Z.of_nat (k * RQ)) with (Z.of_nat (k * 128)). rewrite next_exact by exact SR. cbn [part_calls v_start]. change (t_le A) with Arith_Real.R_le. unfold Arith_Real.R_le at 1 2.
  destruct (Rle_dec _ _) as [L|L].
  - split; [exact I|]. rewrite nth_zeros. unfold source_at, Source_Spec.in_time. destruct (Rle_dec (pt_start p) _) as [L2|]; [|reflexivity]. exfalso.
    assert (X : IZR (Z.of_nat (k * 128 + j)) / sr < IZR (Z.of_nat (k * 128) + 128) / sr) by (apply Rmult_lt_compat_r; [exact dt_pos|apply IZR_lt; lia]). lra.
  - destruct (cs_process A sr (source_state A (part_calls p)) (Z.of_nat (k * 128)) (vo k)) as [s' o] eqn:Ec. cbn [snd].
    rewrite (cs_output_exact sr SR _ _ _ _ _ Hv Ec). split; [rewrite map_length, seq_length; reflexivity|].
    set (f := fun i => _). rewrite (nth_indep _ 0 (f 0%nat)) by (rewrite map_length, seq_length; exact Hj). rewrite (map_nth f), seq_nth by exact Hj. unfold f. cbn [Nat.add].
    rewrite <- Nat2Z.inj_add. cbn [source_state cs_start cs_stop part_calls v_start v_stop]. rewrite (gate_exact p _ Hm). unfold source_at. rewrite VA. reflexivity.
Qed.

Lemma amplified_nth g x j : values_ok g -> length x = 128%nat -> (j < 128)%nat -> nth j (amplified A g x) 0 = nth j x 0 * value_at 0 g j.
Proof.
  intros Hg Hx Hj. unfold amplified. set (f := fun p : nat * R => _).
  rewrite (nth_indep _ 0 (f (0%nat, 0))) by (rewrite map_length, combine_length, seq_length; lia). rewrite (map_nth f), combine_nth by apply seq_length. rewrite seq_nth by lia. unfold f. cbn [fst snd Nat.add].
  change (v_mul A) with Rmult. change (v_zero A) with 0. f_equal. unfold value_at. destruct Hg as [Hg|Hg].
  - destruct g as [|y [|z g]]; try discriminate. cbn [length]. rewrite Nat.mod_1_r. reflexivity.
  - rewrite Hg, Nat.mod_small by exact Hj. destruct g as [|y [|z g]]; try discriminate. reflexivity.
Qed.

Lemma part_close K p : part_legal sr p -> exists w, close K p w.
Proof.
  intros [H1 H2]. destruct (plays_automation K _ _ H1) as (vo & P1 & Q1). destruct (plays_automation K _ _ H2) as (vg & P2 & Q2).
  exists (valued_part p vo vg). split; [reflexivity|]. split.
  - split; [exact P1|]. split; [exact P2|]. cbn [valued_part snd]. destruct (plays_steps _ _ _ _ _ _ _ P2) as [L2 _]. apply Forall_forall. intros g Hg. destruct (In_nth _ _ [] Hg) as (k & Hk & Ek).
    destruct (Q2 k 0%nat ltac:(lia) ltac:(lia)) as [V _]. rewrite Ek in V. destruct V as [V|V]; intros ->; discriminate.
  - intros k j Hk Hj Hm. set (f := Z.of_nat (k * 128 + j)) in *. destruct (Q1 k j Hk Hj) as [V1 A1]. destruct (Q2 k j Hk Hj) as [V2 A2]. fold f in A1, A2.
    destruct (source_real p (fun k => nth k vo []) k j V1 Hj Hm A1) as [S1 S2]. fold f in S2. fold (gain_at sr p f) in A2.
    assert (PB : forall a, 0 <= / 1000000 * Rabs a) by (intros a; pose proof (Rabs_pos a); lra).
    unfold sound, voice_out. cbn [valued_part fst snd]. destruct (source_out A sr (part_calls p) (fun k => nth k vo []) k) as [x|].
    + assert (AMP : length (amplified A (nth k vg []) x) = 128%nat /\ Rabs (nth j (amplified A (nth k vg []) x) 0 - source_at sr p f * gain_at sr p f) <= / 1000000 * Rabs (source_at sr p f)).
      { split; [rewrite amplified_length; exact S1|]. rewrite amplified_nth by assumption. rewrite S2, A2, Rminus_eq_0, Rabs_R0. apply PB. }
      destruct (nth k vg []) as [|g [|g2 gs]] eqn:Eg; try exact AMP. cbn [value_at] in A2. unfold threshold. change (v_le A) with Arith_Real.R_le. change (v_abs A) with Rabs. change (v_sub A) with Rminus. change (v_one A) with 1.
      change (v_frac A 1 1000000) with (1 / 1000000). unfold Arith_Real.R_le. destruct (Rle_dec (Rabs g) _) as [G|G].
      * split; [exact I|]. rewrite nth_zeros, <- A2. rewrite Rminus_0_l, Rabs_Ropp, Rabs_mult, Rmult_comm. apply Rmult_le_compat_r; [apply Rabs_pos|lra].
      * destruct (Rle_dec (Rabs (1 - g)) _) as [G2|G2]; [|exact AMP]. split; [exact S1|]. rewrite S2, <- A2. replace (source_at sr p f - source_at sr p f * g) with ((1 - g) * source_at sr p f) by ring.
        rewrite Rabs_mult. apply Rmult_le_compat_r; [apply Rabs_pos|lra].
    + split; [exact I|]. rewrite nth_zeros in S2 |- *. rewrite <- S2. rewrite Rmult_0_l, Rminus_0_r, Rabs_R0. lra.
Qed.

(** the sum *)
Definition full (x : option (list R)) : Prop := match x with Some v => length v = 128%nat | None => True end.
Lemma sum2_nth x y j : full x -> full y -> full (sum2 Rplus x y) /\ nth j (opt (sum2 Rplus x y)) 0 = nth j (opt x) 0 + nth j (opt y) 0.
Proof.
  intros Hx Hy. destruct x as [a|], y as [b|]; cbn [sum2 full] in *; rewrite ?nth_zeros; try (split; [assumption|lra]).
  - split; [rewrite map_length, combine_length; lia|]. change 0 with ((fun p : R * R => fst p + snd p) (0, 0)) at 1 || idtac.
    destruct (Nat.lt_ge_cases j 128) as [Hj|Hj].
    + set (f := fun p : R * R => fst p + snd p). rewrite (nth_indep _ _ (f (0, 0))) by (rewrite map_length, combine_length; lia). rewrite (map_nth f), combine_nth by lia. reflexivity.
    + rewrite !nth_overflow by (rewrite ?map_length, ?combine_length; lia). cbn. lra.
Qed.
Lemma sum_nth xs j : Forall full xs -> nth j (opt (sum Rplus xs)) 0 = total (map (fun x => nth j (opt x) 0) xs).
Proof.
  intros H. unfold sum.
  assert (X : forall acc, full acc -> nth j (opt (fold_left (sum2 Rplus) xs acc)) 0 = nth j (opt acc) 0 + total (map (fun x => nth j (opt x) 0) xs)).
  { induction H as [|x xs H1 _ IH]; intros acc Ha; cbn [fold_left map total fold_right]; [lra|]. destruct (sum2_nth acc x j Ha H1) as [F1 F2]. rewrite IH by exact F1. rewrite F2. unfold total. lra. }
  rewrite (X None I). rewrite nth_zeros. lra.
Qed.
Lemma total_perm l l' : Permutation l l' -> total l = total l'.
Proof. induction 1; cbn [total fold_right] in *; unfold total in *; lra. Qed.

Theorem desk_real n len (parts : list part) : (0 < n <= max_channels)%nat -> Forall (part_legal sr) parts -> INR len / sr <= t_MAX A ->
  exists t' buf,
    render_audiobuffer (audio_graph (desk_env A PO sr) (samples A)) 0 128 n len new_thread (startup (desk A PO n (map part_calls parts))) [] [] = Some (t', buf, []) /\ length buf = n /\
    forall c, (c < n)%nat -> exists ch, nth_error buf c = Some ch /\ length ch = len /\ forall j, (j < len)%nat -> exists y, nth_error ch j = Some y /\
      if speaker n c then Rabs (y - mix_at sr parts (Z.of_nat j)) <= / 1000000 * total (map (fun p => Rabs (source_at sr p (Z.of_nat j))) parts) else y = 0.
Proof.
  intros Hn HP HM. set (K := div_ceil len 128).
  assert (W : exists ws, Forall2 (close K) parts ws).
  { clear HM. induction HP as [|p ps H1 _ [ws IH]]; [exists []; constructor|]. destruct (part_close K p H1) as [w Hw]. exists (w :: ws). constructor; assumption. }
  destruct W as [ws W].
  destruct (desk_rendered A PO sr n len ws Hn) as (order & t' & buf & O1 & O2 & O3 & O4).
  { clear - W. change (div_ceil len RQ) with K. induction W as [|p w ps ws (_ & H & _) _ IH]; constructor; assumption. }
  assert (M : map fst ws = map part_calls parts) by (clear - W; induction W as [|p w ps ws (H & _) _ IH]; [reflexivity|]; cbn; rewrite H, IH; reflexivity).
  rewrite M in O2. exists t', buf. split; [exact O2|]. split; [exact O3|]. intros c Hc. destruct (O4 c Hc) as (ch & C1 & C2 & C3). exists ch. split; [exact C1|]. split; [exact C2|].
  intros j Hj. eexists. split; [exact (C3 j Hj)|]. destruct (speaker n c); [|reflexivity].
  change RQ with 128%nat. change (repeat (v_zero A) 128) with zeros. change (v_add A) with Rplus. change (v_zero A) with 0.
  set (k := (j / 128)%nat). set (i := (j mod 128)%nat).
  assert (Ej : (k * 128 + i = j)%nat) by (unfold k, i; rewrite Nat.mul_comm; symmetry; apply Nat.div_mod; lia).
  assert (Hi : (i < 128)%nat) by (apply Nat.mod_upper_bound; lia).
  assert (Hk : (k < K)%nat) by (apply Thread_OfflineProofs.div_ceil_spec; lia).
  assert (Hm : IZR (Z.of_nat (k * 128 + i)) / sr < t_MAX A).
  { rewrite Ej, <- INR_IZR_INZ. eapply Rlt_le_trans; [|exact HM]. apply Rmult_lt_compat_r; [exact dt_pos|apply lt_INR; exact Hj]. }
  assert (FU : forall w, In w ws -> full (sound A sr w k)).
  { intros w Hw. clear - W Hw Hk Hi Hm. induction W as [|p w0 ps ws (_ & _ & H) _ IH]; [destruct Hw|]. destruct Hw as [->|Hw]; [|exact (IH Hw)]. apply (H k i Hk Hi Hm). }
  rewrite sum_nth by (apply Forall_forall; intros x Hx; apply in_map_iff in Hx; destruct Hx as (w & <- & Hw); apply FU; apply (Permutation_in w (Permutation_sym O1)); exact Hw).
  rewrite map_map. rewrite <- (total_perm _ _ (Permutation_map (fun w => nth i (opt (sound A sr w k)) 0) O1)). unfold mix_at. rewrite <- Ej.
  clear - W Hk Hi Hm. induction W as [|p w ps ws (_ & _ & H) _ IH]; cbn [map total fold_right]; [rewrite Rminus_0_r, Rabs_R0; lra|].
  destruct (H k i Hk Hi Hm) as [_ H1]. unfold total in *. 
  match goal with |- Rabs (?a + ?b - (?x + ?y)) <= _ => replace (a + b - (x + y)) with ((a - x) + (b - y)) by ring end.
  eapply Rle_trans; [apply Rabs_triang|]. lra.
Qed.
End Real.
