From Coq Require Import List Arith Bool ZArith Reals Lra Lia.
From Verif Require Import Common_Model Arith_Model Arith_Real Absn_ExactProofs Delay_Proofs Shape_Proofs Wave_Model Wave_Spec.
Import ListNotations.

(** ** Options, for any arithmetic *)
Section Any.
Context {T V : Type} (A : arith T V).
Lemma sample_ok reals imags size i : length reals = length imags -> exists v, wave_sample A reals imags size i = Ok v.
Proof.
  intros L. unfold wave_sample. assert (B : forall j, In j (seq 1 (length reals - 1)) -> (j < length reals)%nat) by (intros j I; apply in_seq in I; lia).
  revert B. generalize (v_zero A). induction (seq 1 (length reals - 1)) as [|j l IH]; intros v B; [exists v; reflexivity|]. cbn [fold_res].
  assert (Bj := B j (or_introl eq_refl)). unfold index, from_option.
  destruct (nth_error reals j) as [a|] eqn:Ea; [|apply nth_error_None in Ea; lia]. destruct (nth_error imags j) as [b|] eqn:Eb; [|apply nth_error_None in Eb; lia]. cbn [bind].
  apply IH. intros k I. apply B. right. exact I.
Qed.
Lemma table_ok reals imags norm size : length reals = length imags -> exists t, generate_wavetable A reals imags norm size = Ok t /\ length t = size.
Proof.
  intros L. unfold generate_wavetable.
  assert (G : exists t, map_res (wave_sample A reals imags size) (seq 0 size) = Ok t /\ length t = size).
  { assert (Q : forall l, exists t, map_res (wave_sample A reals imags size) l = Ok t /\ length t = length l).
    2: { destruct (Q (seq 0 size)) as (t & E & Lt). exists t. split; [exact E|]. rewrite Lt. apply seq_length. }
    induction l as [|i l (t & E & Lt)]; [exists []; split; reflexivity|]. destruct (sample_ok reals imags size i L) as [v Ev].
    exists (v :: t). cbn [map_res]. rewrite Ev. cbn [bind]. rewrite E. cbn [bind length]. split; [reflexivity|]. rewrite Lt. reflexivity. }
  destruct G as (t & -> & Lt). cbn [bind]. eexists. split; [reflexivity|]. destruct norm; [|exact Lt]. unfold normalize. destruct (v_lt A (v_zero A) (peak_of A t)); [rewrite map_length|]; exact Lt.
Qed.
Lemma coefficients_ok o r i : coefficients A o = Ok (r, i) -> length r = length i /\ (2 <= length r)%nat.
Proof.
  unfold coefficients. destruct (w_real o) as [r0|], (w_imag o) as [i0|]; unfold check.
  - destruct (Nat.eqb_spec (length r0) (length i0)) as [E|]; [|discriminate]. destruct (Nat.leb_spec 2 (length r0)); [|discriminate]. cbn [bind]. intros Q. injection Q as <- <-. split; assumption.
  - destruct (Nat.leb_spec 2 (length r0)); [|discriminate]. cbn [bind]. intros Q. injection Q as <- <-. rewrite repeat_length. split; [reflexivity|assumption].
  - destruct (Nat.leb_spec 2 (length i0)); [|discriminate]. cbn [bind]. intros Q. injection Q as <- <-. rewrite repeat_length. split; [reflexivity|assumption].
  - intros Q. injection Q as <- <-. cbn. lia.
Qed.
Lemma wave_new_ok size o r i : coefficients A o = Ok (r, i) -> exists t, wave_new A size o = Ok t /\ length t = size.
Proof. intros E. unfold wave_new. rewrite E. cbn [bind fst snd]. apply table_ok. apply (coefficients_ok o r i E). Qed.
Lemma wave_new_panic size o : coefficients A o = Panic -> wave_new A size o = Panic.
Proof. intros E. unfold wave_new. rewrite E. reflexivity. Qed.
End Any.

(** ** Exact arithmetic *)
Local Open Scope R_scope.
Lemma peak_spec : forall l m, let p := fold_left (fun m x => if v_lt exact m (v_abs exact x) then v_abs exact x else m) l m in
  m <= p /\ (forall x, In x l -> Rabs x <= p) /\ (p = m \/ exists x, In x l /\ p = Rabs x).
Proof.
  induction l as [|x l IH]; intros m p; [split; [apply Rle_refl|]; split; [intros x []|left; reflexivity]|]. unfold p. cbn [fold_left]. cbn [exact v_lt v_abs].
  destruct (Rlt_le_dec m (Rabs x)) as [H|H].
  - rewrite (R_lt_true m (Rabs x) H). destruct (IH (Rabs x)) as (P1 & P2 & P3). cbv zeta in P1, P2, P3. cbn [exact v_lt v_abs] in P1, P2, P3. split; [lra|]. split; [intros y [<-|I]; [exact P1|apply P2; exact I]|].
    right. destruct P3 as [P3|(y & I & P3)]; [exists x; split; [left; reflexivity|exact P3]|exists y; split; [right; exact I|exact P3]].
  - rewrite (R_lt_false m (Rabs x) H). destruct (IH m) as (P1 & P2 & P3). cbv zeta in P1, P2, P3. cbn [exact v_lt v_abs] in P1, P2, P3. split; [exact P1|]. split; [intros y [<-|I]; [lra|apply P2; exact I]|].
    destruct P3 as [P3|(y & I & P3)]; [left; exact P3|right; exists y; split; [right; exact I|exact P3]].
Qed.
Lemma normalize_exact l : (all_zero l /\ normalize exact l = l) \/ exists c, 0 < c /\ scaled c l (normalize exact l) /\ peak_one (normalize exact l).
Proof.
  destruct (peak_spec l 0) as (P1 & P2 & P3). cbv zeta in P1, P2, P3. unfold normalize, peak_of. change (v_zero exact) with 0. set (p := fold_left _ l 0) in *.
  change (v_lt exact 0 p) with (R_lt 0 p). destruct (Rlt_le_dec 0 p) as [H|H].
  - right. rewrite (R_lt_true 0 p H). exists (/ p). split; [apply Rinv_0_lt_compat; exact H|]. split; [apply map_ext; intros x; cbn; unfold Rdiv; ring|].
    assert (E : forall x, Rabs (x * (1 / p)) = Rabs x / p). { intros x. rewrite Rabs_mult. unfold Rdiv. rewrite Rmult_1_l, (Rabs_pos_eq (/ p)); [reflexivity|]. apply Rlt_le, Rinv_0_lt_compat. exact H. }
    split.
    + destruct P3 as [P3|(x & I & P3)]; [lra|]. exists (x * (1 / p)). split; [apply in_map_iff; exists x; split; [reflexivity|exact I]|]. rewrite E, <- P3. field. lra.
    + intros y I. apply in_map_iff in I. destruct I as (x & <- & I). change (v_mul exact x (v_div exact (v_one exact) p)) with (x * (1 / p)). rewrite E. specialize (P2 x I). apply Rmult_le_reg_r with p; [exact H|]. unfold Rdiv. rewrite Rmult_assoc, Rinv_l, Rmult_1_l, Rmult_1_r by lra. exact P2.
  - left. rewrite (R_lt_false 0 p H). split; [|reflexivity]. intros x I. specialize (P2 x I). destruct (Req_dec x 0) as [E|E]; [exact E|]. pose proof (Rabs_pos_lt x E). lra.
Qed.
Lemma sample_exact reals imags size i : length reals = length imags -> (0 < size)%nat -> wave_sample exact reals imags size i = Ok (series reals imags (2 * PI * INR i / INR size)).
Proof.
  intros L S. set (x := 2 * PI * INR i / INR size). unfold wave_sample, series.
  assert (G : forall r1 r2 i1 i2 acc, reals = r1 ++ r2 -> imags = i1 ++ i2 -> length r1 = length i1 -> length r2 = length i2 ->
    fold_res (fun sample j => do real <- index reals j; do imag <- index imags j; let rad := v_mul exact (phase exact size i) (v_of_Z exact (Z.of_nat j)) in
      Ok (v_add exact sample (v_add exact (v_mul exact real (v_cos exact rad)) (v_mul exact imag (v_sin exact rad))))) acc (seq (length r1) (length r2)) = Ok (acc + partials r2 i2 x (length r1))).
  { intros r1 r2. revert r1. induction r2 as [|a r2 IH]; intros r1 i1 i2 acc Er Ei L1 L2.
    - destruct i2; [|discriminate]. cbn. rewrite Rplus_0_r. reflexivity.
    - destruct i2 as [|b i2]; [discriminate|]. cbn [length seq fold_res].
      assert (Ia : index reals (length r1) = Ok a) by (unfold index; rewrite Er, nth_error_app2, Nat.sub_diag by lia; reflexivity).
      assert (Ib : index imags (length r1) = Ok b) by (unfold index; rewrite Ei, L1, nth_error_app2, Nat.sub_diag by lia; reflexivity).
      rewrite Ia. cbn [bind]. rewrite Ib. cbn [bind]. cbn [partials].
      specialize (IH (r1 ++ [a]) (i1 ++ [b]) i2 (acc + (a * cos (INR (length r1) * x) + b * sin (INR (length r1) * x))) ltac:(rewrite <- app_assoc; exact Er) ltac:(rewrite <- app_assoc; exact Ei) ltac:(rewrite !app_length; cbn; lia) ltac:(cbn in L2; lia)).
      rewrite app_length in IH. cbn [length] in IH. rewrite Nat.add_1_r in IH.
      replace (v_mul exact (phase exact size i) (v_of_Z exact (Z.of_nat (length r1)))) with (INR (length r1) * x).
      2: { unfold phase, x. cbn [exact v_mul v_div v_of_Z v_PI]. rewrite <- !INR_IZR_INZ. ring. }
      cbn [exact v_add v_mul v_cos v_sin] in *. cbv zeta. rewrite IH. f_equal. ring. }
  destruct reals as [|a reals]; destruct imags as [|b imags]; try discriminate; [reflexivity|]. cbn [length tl]. rewrite Nat.sub_succ, Nat.sub_0_r.
  specialize (G [a] reals [b] imags 0 eq_refl eq_refl eq_refl ltac:(cbn in L; lia)). cbn [length] in G. change (v_zero exact) with 0. rewrite G. rewrite Rplus_0_l. reflexivity.
Qed.
Lemma table_exact reals imags norm size : length reals = length imags -> (0 < size)%nat ->
  generate_wavetable exact reals imags norm size = Ok ((if norm then normalize exact else fun t => t) (map (fun i => series reals imags (2 * PI * INR i / INR size)) (seq 0 size))).
Proof.
  intros L S. unfold generate_wavetable. assert (G : forall l, map_res (wave_sample exact reals imags size) l = Ok (map (fun i => series reals imags (2 * PI * INR i / INR size)) l)).
  { induction l as [|i l IH]; [reflexivity|]. cbn [map_res map]. rewrite sample_exact by assumption. cbn [bind]. rewrite IH. reflexivity. }
  rewrite G. cbn [bind]. destruct norm; reflexivity.
Qed.
