From Coq Require Import List Arith Bool ZArith Lia Permutation Reals Lra.
From Flocq Require Import Core.
From Verif Require Import Common_Model Arith_Model Arith_Real Quantum_Model Route_Model Route_Spec Source_Model Source_Spec Source_Proofs
  Graph_Model Thread_Model Whole_Model Param_Real Param_EnvelopeSpec Param_EnvelopeProofs
  Desk_Model Desk_Spec Desk_RealSpec Desk_BuildProofs Desk_FlowProofs Desk_Proofs Desk_RealProofs Mod_Model Mod_Spec Mod_Proofs.
From Verif Require Param_Model.
Import ListNotations.
Local Open Scope R_scope.


Section Real.
Variable sr : R.
Hypothesis SR : 0 < sr.
Notation A := exact.
Notation PO := real_ops.
Notation lo := (- v_MAX A).
Notation hi := (v_MAX A).
Notation opt := (fun x : option (list R) => match x with Some v => v | None => zeros end).

Definition in_quanta (ins : nat -> option (list R)) (n K : nat) : list sop := map (fun k => Play (as_input A (ins k)) (as_silent (ins k))) (seq n K).
Definition inputs_ok (ins : nat -> option (list R)) (n K : nat) : Prop := forall k, (n <= k < n + K)%nat -> match ins k with Some v => length v = 128%nat | None => True end.
Lemma expected_inputs ins dflt l K : forall n, expected (/ sr) 128 dflt lo hi n l (in_quanta ins n K) =
  map (fun k => map (fun j => clamped lo hi (curve (/ sr) 128 (Hold 0 dflt) l (first_frame 128 k + Z.of_nat j) + nth j (as_input A (ins k)) 0)) (seq 0 128)) (seq n K).
Proof. induction K as [|K IH]; intros n; [reflexivity|]. unfold in_quanta. cbn [seq map expected]. fold (in_quanta ins (S n) K). rewrite IH. reflexivity. Qed.
Lemma plans_inputs ins dflt l K : forall n, inputs_ok ins n K -> plans_ok (/ sr) 128 dflt n l (in_quanta ins n K).
Proof.
  induction K as [|K IH]; intros n H; unfold in_quanta; cbn [seq map plans_ok]; [exact I|]. split; [|apply IH; intros k Hk; apply H; lia].
  pose proof (H n ltac:(lia)) as Hn. destruct (ins n) as [v|]; cbn [as_input as_silent]; (split; [first [exact Hn|apply repeat_length]|]); [discriminate|]. intros _. apply Forall_forall. intros x Hx. apply repeat_spec in Hx. exact Hx.
Qed.
Lemma ops_inputs ins K : forall n, to_ops (/ sr) 128 n (in_quanta ins n K) = modulated_ops A sr ins n K.
Proof.
  induction K as [|K IH]; intros n; [reflexivity|]. unfold in_quanta. cbn [seq map to_ops]. fold (in_quanta ins (S n) K). unfold modulated_ops. cbn [seq map]. fold (modulated_ops A sr ins (S n) K). rewrite IH. f_equal.
  rewrite dt_exact. reflexivity.
Qed.

Lemma plays_modulated K x plan ins : plan_legal sr x plan -> inputs_ok ins 0 K ->
  exists values, plays_with A PO sr K x (map call_of plan) ins values /\
    forall k j, (k < K)%nat -> (j < 128)%nat -> values_ok (nth k values []) /\ value_at 0 (nth k values []) j = modulated sr x plan (nth j (as_input A (ins k)) 0) (Z.of_nat (k * 128 + j)).
Proof.
  intros H HI. unfold plan_legal in H. cbn [plans_ok] in H. destruct H as [H1 H2].
  pose proof (envelope (/ sr) (dt_pos sr SR) 128 ltac:(lia) 1 lo hi range_ok (Set_value x :: map Plan plan ++ in_quanta ins 0 K) 0 [] (Param_Model.new_param true 1 lo hi)) as X.
  destruct X as (p & outs & R1 & R2).
  - apply st_new. all: first [exact (dt_pos sr SR)|lia|exact range_ok].
  - cbn [plans_ok]. split; [exact H1|]. apply plans_app; [intros l; apply plans_inputs; exact HI|exact H2].
  - cbn [to_ops] in R1. rewrite (ops_plans sr), ops_inputs in R1. cbn [expected] in R2. unfold setter in R2. rewrite expected_plans in R2 by discriminate. rewrite expected_inputs in R2. cbn [app] in R2.
    exists outs. split.
    + exists p. exact R1.
    + intros k j Hk Hj.
      assert (L : length outs = K) by (apply (f_equal (@length _)) in R2; rewrite !map_length, seq_length in R2; exact R2).
      set (f := fun j => clamped lo hi (curve (/ sr) 128 (Hold 0 1) (mk_sev (Jump x) (now (/ sr) 128 0) :: plan) (first_frame 128 k + Z.of_nat j) + nth j (as_input A (ins k)) 0)).
      assert (N : spread 128 (nth k outs []) = map f (seq 0 128)).
      { apply (f_equal (fun l => nth_error l k)) in R2. rewrite !nth_error_map in R2. rewrite (nth_error_nth' outs []) in R2 by lia. rewrite (nth_error_nth' (seq 0 K) 0%nat), seq_nth in R2 by (rewrite ?seq_length; lia).
        cbn [option_map] in R2. injection R2 as R2. exact R2. }
      assert (VA : nth j (spread 128 (nth k outs [])) 0 = modulated sr x plan (nth j (as_input A (ins k)) 0) (Z.of_nat (k * 128 + j))).
      { rewrite N. rewrite (nth_indep _ 0 (f 0%nat)) by (rewrite map_length, seq_length; lia). rewrite (map_nth f). rewrite seq_nth by lia. unfold f, modulated. cbn [Nat.add].
        unfold first_frame. rewrite <- Nat2Z.inj_add. rewrite after_setter by lia. reflexivity. }
      assert (LS : length (spread 128 (nth k outs [])) = 128%nat) by (rewrite N, map_length, seq_length; reflexivity).
      unfold spread in VA, LS. destruct (nth k outs []) as [|y [|z l]].
      * cbn in LS. lia.
      * split; [left; reflexivity|]. cbn [value_at]. rewrite <- VA. symmetry. apply nth_const. exact Hj.
      * split; [right; exact LS|exact VA].
Qed.

(** a voice whose gain has the value [G] *)
Lemma voice_close p vo vg k j G : values_ok (vo k) -> values_ok (vg k) -> (j < 128)%nat -> IZR (Z.of_nat (k * 128 + j)) / sr < t_MAX A ->
  value_at 0 (vo k) j = automated sr (pt_offset p) (pt_offset_plan p) (Z.of_nat (k * 128 + j)) -> value_at 0 (vg k) j = G ->
  (match voice_out A sr (part_calls p) vo vg k with Some x => length x = 128%nat | None => True end) /\
  Rabs (nth j (opt (voice_out A sr (part_calls p) vo vg k)) 0 - source_at sr p (Z.of_nat (k * 128 + j)) * G) <= / 1000000 * Rabs (source_at sr p (Z.of_nat (k * 128 + j))).
Proof.
  intros V1 V2 Hj Hm A1 A2. set (f := Z.of_nat (k * 128 + j)) in *.
  destruct (source_real sr SR p vo k j V1 Hj Hm A1) as [S1 S2]. fold f in S2.
  assert (PB : forall a, 0 <= / 1000000 * Rabs a) by (intros a; pose proof (Rabs_pos a); lra).
  unfold voice_out. destruct (source_out A sr (part_calls p) vo k) as [x|].
  + assert (AMP : length (amplified A (vg k) x) = 128%nat /\ Rabs (nth j (amplified A (vg k) x) 0 - source_at sr p f * G) <= / 1000000 * Rabs (source_at sr p f)).
    { split; [rewrite amplified_length; exact S1|]. rewrite amplified_nth by assumption. rewrite S2, A2, Rminus_eq_0, Rabs_R0. apply PB. }
    destruct (vg k) as [|g [|g2 gs]] eqn:Eg; try exact AMP. cbn [value_at] in A2. unfold threshold. change (v_le A) with Arith_Real.R_le. change (v_abs A) with Rabs. change (v_sub A) with Rminus. change (v_one A) with 1.
    change (v_frac A 1 1000000) with (1 / 1000000). unfold Arith_Real.R_le. destruct (Rle_dec (Rabs g) _) as [L|L].
    * split; [exact I|]. rewrite nth_zeros, <- A2. rewrite Rminus_0_l, Rabs_Ropp, Rabs_mult, Rmult_comm. apply Rmult_le_compat_r; [apply Rabs_pos|lra].
    * destruct (Rle_dec (Rabs (1 - g)) _) as [L2|L2]; [|exact AMP]. split; [exact S1|]. rewrite S2, <- A2. replace (source_at sr p f - source_at sr p f * g) with ((1 - g) * source_at sr p f) by ring.
      rewrite Rabs_mult. apply Rmult_le_compat_r; [apply Rabs_pos|lra].
  + split; [exact I|]. rewrite nth_zeros in S2 |- *. rewrite <- S2. rewrite Rmult_0_l, Rminus_0_r, Rabs_R0. lra.
Qed.

Lemma clamped_close a b : lo <= hi -> Rabs (clamped lo hi a - clamped lo hi b) <= Rabs (a - b).
Proof.
  intros H. unfold clamped, Rmin, Rmax. repeat destruct (Rle_dec _ _); unfold Rabs; repeat destruct (Rcase_abs _); lra.
Qed.

Theorem tremolo_real n len (c m : part) : (0 < n <= max_channels)%nat -> part_legal sr c -> part_legal sr m -> INR len / sr <= t_MAX A ->
  exists t' buf, render_audiobuffer (audio_graph (desk_env A PO sr) (samples A)) 0 128 n len new_thread (startup (tremolo A PO n (part_calls c) (part_calls m))) [] [] = Some (t', buf, []) /\ length buf = n /\
    forall i, (i < n)%nat -> exists ch, nth_error buf i = Some ch /\ length ch = len /\ forall j, (j < len)%nat -> exists y, nth_error ch j = Some y /\
      if speaker n i then Rabs (y - tremolo_at sr c m (Z.of_nat j)) <= / 1000000 * Rabs (source_at sr c (Z.of_nat j)) * (1 + Rabs (source_at sr m (Z.of_nat j))) else y = 0.
Proof.
  intros Hn [C1 C2] [M1 M2] HL. set (K := div_ceil len 128).
  assert (TM : forall k j, (k * 128 + j < len)%nat -> IZR (Z.of_nat (k * 128 + j)) / sr < t_MAX A).
  { intros k j Hj. eapply Rlt_le_trans; [|exact HL]. rewrite <- INR_IZR_INZ. apply Rmult_lt_compat_r; [apply dt_pos; exact SR|apply lt_INR; exact Hj]. }
  assert (KL : forall k, (k < K)%nat -> (k * 128 + 0 < len)%nat).
  { intros k Hk. unfold K, div_ceil in Hk. pose proof (Nat.div_mod (len + (128 - 1)) 128 ltac:(lia)). pose proof (Nat.mod_upper_bound (len + (128 - 1)) 128 ltac:(lia)). lia. }
  destruct (plays_automation sr SR K _ _ C1) as (vo1 & P1 & Q1). destruct (plays_automation sr SR K _ _ M1) as (vo2 & P2 & Q2). destruct (plays_automation sr SR K _ _ M2) as (vg2 & P3 & Q3).
  set (at_ := fun (l : list (list R)) (k : nat) => nth k l []).
  set (ins := voice_out A sr (part_calls m) (at_ vo2) (at_ vg2)).
  assert (CM : forall k j, (k < K)%nat -> (j < 128)%nat -> (k * 128 + j < len)%nat -> _) by
    (intros k j Hk Hj Hl; exact (voice_close m (at_ vo2) (at_ vg2) k j _ (proj1 (Q2 k j Hk Hj)) (proj1 (Q3 k j Hk Hj)) Hj (TM k j Hl) (proj2 (Q2 k j Hk Hj)) (proj2 (Q3 k j Hk Hj)))).
  assert (IO : inputs_ok ins 0 K) by (intros k Hk; exact (proj1 (CM k 0%nat ltac:(lia) ltac:(lia) (KL k ltac:(lia))))).
  destruct (plays_modulated K _ _ ins C2 IO) as (vl & P4 & Q4).
  assert (NE : forall K' l, length l = K' -> (forall k, (k < K')%nat -> values_ok (nth k l [])) -> Forall (fun g : list R => g <> []) l).
  { intros K' l L V. apply Forall_forall. intros g Hg. destruct (In_nth _ _ [] Hg) as (k & Hk & Ek). pose proof (V k ltac:(lia)) as VV. rewrite Ek in VV. destruct VV as [VV|VV]; intros ->; discriminate. }
  destruct (tremolo_rendered A PO sr n len (part_calls c) (part_calls m) vo1 vl vo2 vg2 Hn P1 P2 P3 P4) as (t' & buf & R1 & R2 & R3).
  - destruct (plays_steps _ _ _ _ _ _ _ P3) as [L _]. apply (NE K); [exact L|]. intros k Hk. exact (proj1 (Q3 k 0%nat Hk ltac:(lia))).
  - destruct (plays_with_steps _ _ _ _ _ _ _ _ P4) as [L _]. apply (NE K); [exact L|]. intros k Hk. exact (proj1 (Q4 k 0%nat Hk ltac:(lia))).
  - exists t', buf. split; [exact R1|]. split; [exact R2|]. intros i Hi. destruct (R3 i Hi) as (ch & X1 & X2 & X3). exists ch. split; [exact X1|]. split; [exact X2|]. intros j Hj.
    eexists. split; [exact (X3 j Hj)|]. destruct (speaker n i); [|reflexivity].
    change RQ with 128%nat. set (k := (j / 128)%nat). set (r := (j mod 128)%nat).
    assert (DM : (k * 128 + r = j)%nat) by (unfold k, r; pose proof (Nat.div_mod j 128 ltac:(lia)); lia).
    assert (Hr : (r < 128)%nat) by (apply Nat.mod_upper_bound; lia).
    assert (Hk : (k < K)%nat) by (apply Thread_OfflineProofs.div_ceil_spec; change RQ with 128%nat; lia).
    destruct (CM k r Hk Hr ltac:(lia)) as [_ D]. rewrite DM in D. fold (gain_at sr m (Z.of_nat j)) in D.
    destruct (Q4 k r Hk Hr) as [V4 E4]. rewrite DM in E4.
    destruct (voice_close c (at_ vo1) (at_ vl) k r _ (proj1 (Q1 k r Hk Hr)) V4 Hr (TM k r ltac:(lia)) (proj2 (Q1 k r Hk Hr)) E4) as [_ F]. rewrite DM in F.
    fold ins in D. change (as_input A (voice_out A sr (part_calls c) (at_ vo1) (at_ vl) k)) with (opt (voice_out A sr (part_calls c) (at_ vo1) (at_ vl) k)). change (v_zero A) with 0.
    change (opt (ins k)) with (as_input A (ins k)) in D.
    set (y := nth r (opt (voice_out A sr (part_calls c) (at_ vo1) (at_ vl) k)) 0) in *. set (d := nth r (as_input A (ins k)) 0) in *.
    unfold tremolo_at. set (s := source_at sr c (Z.of_nat j)) in *. set (s2 := source_at sr m (Z.of_nat j)) in *. set (g2 := gain_at sr m (Z.of_nat j)) in *.
    set (u := modulated sr (pt_gain c) (pt_gain_plan c) d (Z.of_nat j)) in *. set (w := modulated sr (pt_gain c) (pt_gain_plan c) (s2 * g2) (Z.of_nat j)).
    assert (UW : Rabs (u - w) <= / 1000000 * Rabs s2).
    { unfold u, w, modulated. eapply Rle_trans; [apply clamped_close, range_ok|]. match goal with |- Rabs ?e <= _ => replace e with (d - s2 * g2) by ring end. exact D. }
    match goal with |- Rabs (?a - _) <= _ => change a with y end. replace (y - s * w) with ((y - s * u) + s * (u - w)) by ring. pose proof (Rabs_triang (y - s * u) (s * (u - w))) as TT. pose proof (Rabs_mult s (u - w)) as MM.
    pose proof (Rabs_pos s). pose proof (Rmult_le_compat_l (Rabs s) _ _ H UW). nra.
Qed.
End Real.
