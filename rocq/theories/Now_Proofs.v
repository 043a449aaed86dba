(** Proofs about sources started and stopped at the current time. *)
From Coq Require Import List Arith Bool ZArith Lia Reals Lra Psatz.
From Flocq Require Import Core BinarySingleNaN.
From Verif Require Import Float_Model Float_Proofs Float_BoundProofs Float_ErrorProofs Arith_Model Buffer_Model Buffer_ResampleProofs Osc_IeeeProofs Source_Model Source_Spec Source_Proofs Source_ClockProofs.
From Verif Require Import Clock_Model Clock_Spec Clock_Proofs.
Import ListNotations.
Local Open Scope R_scope.

Lemma valid_usable sr : rate_ok sr -> usable_rate sr.
Proof.
  intros H. pose proof (rate_val sr H) as [F B]. assert (Fs : is_finite sr = true).
  { destruct sr as [b|b| |b m e p]; try reflexivity; discriminate F. }
  destruct (f64_of_f32_val sr Fs) as [E _]. rewrite E in B. split; assumption.
Qed.
Lemma quanta_map (offs : list (list f32)) : Source_Spec.quanta (map (@Quantum f64 f32) offs) = length offs.
Proof. unfold Source_Spec.quanta. induction offs as [|o offs IH]; [reflexivity|]. cbn [map filter length]. rewrite IH. reflexivity. Qed.
Lemma quanta_call (offs : list (list f32)) (a : @cs_action f64 f32) : (forall o, a <> Quantum o) -> Source_Spec.quanta (a :: map (@Quantum f64 f32) offs) = length offs.
Proof. intros H. rewrite <- quanta_map. unfold Source_Spec.quanta. cbn [filter]. destruct a; try reflexivity. destruct (H offset eq_refl). Qed.

Lemma stopped_event {T V} (A : arith T V) (sr : V) (s : @csource T) frame (o : list V) s1 out :
  t_le A (cs_stop s) (next_block_time A sr frame) = true -> t_lt A (next_block_time A sr frame) (cs_stop s) = false -> cs_process A sr s frame o = (s1, out) ->
  o_event out = negb (cs_ended s) /\ o_tail out = false.
Proof. intros H1 H2 E. unfold cs_process in E. cbv zeta in E. rewrite H1, H2 in E. destruct (t_le A (next_block_time A sr frame) (cs_start s)); injection E as <- <-; split; reflexivity. Qed.

Section Now.
Variable M : libm.
Variable sr : f32.
Hypothesis Hsr : rate_ok sr.
Notation A := (ieee M).

Lemma block_is_time k : block_time A sr (128 * Z.of_nat k) = time sr (Z.of_nat k * 128).
Proof. unfold block_time, time. rewrite Z.mul_comm. reflexivity. Qed.
Lemma seconds_bound k : seconds sr k <= 8388608 -> in_range k.
Proof.
  intros H. pose proof (valid_usable sr Hsr) as [_ B]. unfold in_range. apply le_IZR. rewrite seconds_frames in H.
  assert (IZR (Z.of_nat k * 128) <= 8388608 * 768000).
  { apply Rmult_le_compat_r with (r := B2R sr) in H; [|lra]. unfold Rdiv in H. rewrite Rmult_assoc, Rinv_l, Rmult_1_r in H by lra. nra. }
  change (2 ^ 53)%Z with 9007199254740992%Z. lra.
Qed.
Lemma block_early k : seconds sr (k + 1) <= 8388608 -> early sr (128 * Z.of_nat k).
Proof.
  intros H. pose proof (valid_usable sr Hsr) as [F B]. destruct (f64_of_f32_val sr F) as [E _]. split; [lia|]. rewrite E. unfold seconds in H.
  eapply Rle_trans; [|exact H]. apply Rmult_le_compat_r; [left; apply Rinv_0_lt_compat; lra|]. rewrite plus_INR. cbn [INR]. rewrite !plus_IZR, !mult_IZR, <- !INR_IZR_INZ. lra.
Qed.
(** the frames of block [j] are not before the time read after [k] blocks *)
Lemma frame_late k j i : (k <= j)%nat -> (i < 128)%nat -> seconds sr (j + 1) <= 8388608 ->
  f64_le (time sr (Z.of_nat k * 128)) (advance A sr i (block_time A sr (128 * Z.of_nat j))) = true.
Proof.
  intros K I B. pose proof (valid_usable sr Hsr) as U. pose proof (block_early j B) as He. destruct (advance_ieee M sr Hsr (128 * Z.of_nat j) i He ltac:(lia)) as (F & _ & G).
  assert (Bj : in_range j) by (apply seconds_bound; eapply Rle_trans; [apply (seconds_le sr j (j + 1)); [exact U|lia]|exact B]).
  assert (Bk : in_range k) by (unfold in_range in *; lia).
  apply f64_le_R; [apply (time_val sr k U Bk)|exact F|]. eapply Rle_trans; [|exact G]. rewrite block_is_time. apply time_mono; assumption.
Qed.
Lemma frame_finite j i : (i < 128)%nat -> seconds sr (j + 1) <= 8388608 ->
  is_finite (advance A sr i (block_time A sr (128 * Z.of_nat j))) = true /\ f64_lt (advance A sr i (block_time A sr (128 * Z.of_nat j))) f64_MAX = true.
Proof.
  intros I B. pose proof (block_early j B) as He. destruct (advance_ieee M sr Hsr _ i He ltac:(lia)) as (F & _ & _). split; [exact F|]. apply below_max; [exact F|].
  pose proof (advance_before_next M sr Hsr _ i He I) as B1. destruct (next_ieee M sr Hsr _ He) as [_ B2]. apply Rabs_le_inv in B2. change (bpow radix2 (-27)) with (/ 134217728) in B2.
  destruct He as [_ He]. lra.
Qed.
Lemma play_run k : forall offs (s : @csource f64) j, (k <= j)%nat -> Forall values_ok offs -> seconds sr (j + length offs) <= 8388608 ->
  cs_start s = time sr (Z.of_nat k * 128) -> cs_stop s = f64_MAX ->
  map (@o_output f32) (snd (cs_run A sr s (128 * Z.of_nat j) (map Quantum offs))) = map (fun offset => map (value_at f32_zero offset) (seq 0 128)) offs.
Proof.
  pose proof (valid_usable sr Hsr) as U. induction offs as [|o offs IH]; intros s j K V B Es Ep; [reflexivity|]. apply Forall_cons_iff in V. destruct V as [Vo V]. cbn [length] in B.
  assert (B1 : seconds sr (j + 1) <= 8388608) by (eapply Rle_trans; [apply (seconds_le sr _ (j + S (length offs))); [exact U|lia]|exact B]).
  assert (Bk : in_range k). { pose proof (seconds_bound _ B1) as X. unfold in_range in *; lia. }
  cbn [map cs_run]. destruct (cs_process A sr s (128 * Z.of_nat j) o) as [s1 out] eqn:E. destruct (cs_process_event A sr _ _ _ _ _ E) as (_ & _ & E1 & E2).
  change (Z.of_nat RQ) with 128%Z. replace (128 * Z.of_nat j + 128)%Z with (128 * Z.of_nat (j + 1))%Z by lia.
  specialize (IH s1 (j + 1)%nat ltac:(lia) V). replace (j + 1 + length offs)%nat with (j + S (length offs))%nat in IH by lia. specialize (IH B ltac:(congruence) ltac:(congruence)).
  destruct (cs_run A sr s1 (128 * Z.of_nat (j + 1)) (map Quantum offs)) as [[s2 f2] os]. cbn [snd map] in *. f_equal; [|exact IH].
  rewrite (cs_output_ieee M sr Hsr s (128 * Z.of_nat j) o s1 out Vo).
  - apply map_ext_in. intros i Hi. apply in_seq in Hi. rewrite Es, Ep, (frame_late k j i K ltac:(lia) B1). destruct (frame_finite j i ltac:(lia) B1) as [_ ->]. reflexivity.
  - rewrite Es. apply finite_not_nan. apply (time_val sr k U Bk).
  - rewrite Ep. reflexivity.
  - exact (block_early j B1).
  - exact E.
Qed.
Lemma late_not_before (x t : f64) : is_finite x = true -> is_finite t = true -> f64_le t x = true -> f64_lt x t = false.
Proof.
  intros Fx Ft H. destruct (f64_lt x t) eqn:L; [|reflexivity]. apply f64_le_R in H; [|assumption|assumption]. apply f64_lt_R in L; [lra|assumption|assumption].
Qed.
Lemma stop_run k : forall offs (s : @csource f64) j, (k <= j)%nat -> Forall values_ok offs -> seconds sr (j + length offs) <= 8388608 ->
  is_nan (cs_start s) = false -> cs_stop s = time sr (Z.of_nat k * 128) ->
  map (@o_output f32) (snd (cs_run A sr s (128 * Z.of_nat j) (map Quantum offs))) = map (fun _ => repeat f32_zero 128) offs.
Proof.
  pose proof (valid_usable sr Hsr) as U. induction offs as [|o offs IH]; intros s j K V B Es Ep; [reflexivity|]. apply Forall_cons_iff in V. destruct V as [Vo V]. cbn [length] in B.
  assert (B1 : seconds sr (j + 1) <= 8388608) by (eapply Rle_trans; [apply (seconds_le sr _ (j + S (length offs))); [exact U|lia]|exact B]).
  assert (Bk : in_range k). { pose proof (seconds_bound _ B1) as X. unfold in_range in *; lia. }
  pose proof (proj1 (time_val sr k U Bk)) as Fk.
  cbn [map cs_run]. destruct (cs_process A sr s (128 * Z.of_nat j) o) as [s1 out] eqn:E. destruct (cs_process_event A sr _ _ _ _ _ E) as (_ & _ & E1 & E2).
  change (Z.of_nat RQ) with 128%Z. replace (128 * Z.of_nat j + 128)%Z with (128 * Z.of_nat (j + 1))%Z by lia.
  specialize (IH s1 (j + 1)%nat ltac:(lia) V). replace (j + 1 + length offs)%nat with (j + S (length offs))%nat in IH by lia. specialize (IH B ltac:(congruence) ltac:(congruence)).
  destruct (cs_run A sr s1 (128 * Z.of_nat (j + 1)) (map Quantum offs)) as [[s2 f2] os]. cbn [snd map] in *. f_equal; [|exact IH].
  rewrite (cs_output_ieee M sr Hsr s (128 * Z.of_nat j) o s1 out Vo).
  - transitivity (map (fun _ : nat => f32_zero) (seq 0 128)); [|reflexivity]. apply map_ext_in. intros i Hi. apply in_seq in Hi. rewrite Ep.
    destruct (frame_finite j i ltac:(lia) B1) as [Fi _]. rewrite (late_not_before _ _ Fi Fk (frame_late k j i K ltac:(lia) B1)), andb_false_r. reflexivity.
  - exact Es.
  - rewrite Ep. apply finite_not_nan. exact Fk.
  - exact (block_early j B1).
  - exact E.
Qed.
(** the event of a stopped source is sent in the first block *)
Lemma stop_event k (s : @csource f64) j o s1 out : (k <= j)%nat -> seconds sr (j + 1) <= 8388608 -> cs_stop s = time sr (Z.of_nat k * 128) ->
  cs_process A sr s (128 * Z.of_nat j) o = (s1, out) -> o_event out = negb (cs_ended s) /\ o_tail out = false.
Proof.
  intros K B Ep E. pose proof (valid_usable sr Hsr) as U. assert (Bk : in_range k). { pose proof (seconds_bound _ B) as X. unfold in_range in *; lia. }
  pose proof (proj1 (time_val sr k U Bk)) as Fk. pose proof (block_early j B) as He. destruct (next_ieee M sr Hsr _ He) as [Fn _].
  pose proof (frame_late k j 0 K ltac:(lia) B) as L. destruct (frame_finite j 0 ltac:(lia) B) as [F0 _]. apply f64_le_R in L; [|exact Fk|exact F0].
  pose proof (advance_before_next M sr Hsr _ 0 He ltac:(lia)) as B0.
  assert (T : f64_le (cs_stop s) (next_block_time A sr (128 * Z.of_nat j)) = true). { rewrite Ep. apply f64_le_R; [exact Fk|exact Fn|lra]. }
  assert (T' : f64_lt (next_block_time A sr (128 * Z.of_nat j)) (cs_stop s) = false). { apply late_not_before; [exact Fn|rewrite Ep; exact Fk|exact T]. }
  exact (stopped_event (ieee M) sr s (128 * Z.of_nat j) o s1 out T T' E).
Qed.
Lemma quiet_run : forall l (s : @csource f64) frame, cs_ended s = true -> filter o_event (snd (cs_run A sr s frame l)) = [].
Proof.
  induction l as [|a l IH]; intros s frame H; [reflexivity|]. destruct a as [v|v|o]; cbn [cs_run]; [apply IH; exact H|apply IH; exact H|].
  destruct (cs_process A sr s frame o) as [s1 out] eqn:E. destruct (cs_process_event A sr _ _ _ _ _ E) as (E0 & E3 & _).
  assert (H1 : cs_ended s1 = true) by (rewrite E0, H; reflexivity). specialize (IH s1 (frame + Z.of_nat RQ)%Z H1).
  destruct (cs_run A sr s1 (frame + Z.of_nat RQ) l) as [[s2 f2] os]. cbn [snd filter] in *. destruct (o_event out); [rewrite (E3 eq_refl) in H; discriminate|exact IH].
Qed.
End Now.

Lemma start_now M sr l s r j offs : rate_ok sr -> acts (start sr) l = Some s -> Forall (fun a => forall x, a = New_stream x -> x = sr) l -> In r (readings s) -> (quanta s <= j)%nat ->
  Forall values_ok offs -> seconds sr (j + length offs) <= 8388608 ->
  map (@o_output f32) (snd (cs_run (ieee M) (thread_rate s) (cs_new (ieee M)) (128 * Z.of_nat j) (Start (shown r) :: map Quantum offs)))
  = map (fun offset => map (value_at f32_zero offset) (seq 0 128)) offs.
Proof.
  intros H E F I K V B. destruct (reach_same sr l s F E) as (-> & _). pose proof (reach_sound sr l s E) as (H1 & _). destruct (H1 r I) as (Sh & Kn & _). rewrite (reach_rate sr l s E) in Sh.
  cbn [cs_run]. apply (play_run M sr H (known r)); [lia|exact V|exact B|exact Sh|reflexivity].
Qed.
Lemma stop_now M sr l s r j o offs c : rate_ok sr -> acts (start sr) l = Some s -> Forall (fun a => forall x, a = New_stream x -> x = sr) l -> In r (readings s) -> (quanta s <= j)%nat ->
  Forall values_ok (o :: offs) -> seconds sr (j + length (o :: offs)) <= 8388608 -> is_nan (cs_start c) = false -> cs_ended c = false ->
  let os := snd (cs_run (ieee M) (thread_rate s) c (128 * Z.of_nat j) (Stop (shown r) :: map Quantum (o :: offs))) in
  map (@o_output f32) os = map (fun _ => repeat f32_zero 128) (o :: offs) /\ map o_event os = true :: map (fun _ => false) offs.
Proof.
  intros H E F I K V B N D os. destruct (reach_same sr l s F E) as (TR & _). pose proof (reach_sound sr l s E) as (H1 & _). destruct (H1 r I) as (Sh & Kn & _). rewrite (reach_rate sr l s E) in Sh.
  pose proof (valid_usable sr H) as U. unfold os. rewrite TR. clear os TR.
  change (cs_run (ieee M) sr c (128 * Z.of_nat j) (Stop (shown r) :: map Quantum (o :: offs))) with (cs_run (ieee M) sr (mk_csource (cs_start c) (shown r) (cs_ended c)) (128 * Z.of_nat j) (map Quantum (o :: offs))).
  split; [apply (stop_run M sr H (known r)); [lia|exact V|exact B|exact N|exact Sh]|].
  cbn [map cs_run]. destruct (cs_process (ieee M) sr (mk_csource (cs_start c) (shown r) (cs_ended c)) (128 * Z.of_nat j) o) as [s1 out] eqn:P.
  assert (B1 : seconds sr (j + 1) <= 8388608) by (eapply Rle_trans; [apply (seconds_le sr _ (j + length (o :: offs))); [exact U|cbn [length]; lia]|exact B]).
  destruct (stop_event M sr H (known r) (mk_csource (cs_start c) (shown r) (cs_ended c)) j o s1 out ltac:(lia) B1 Sh P) as [P1 _]. cbn [cs_ended] in P1. rewrite D in P1. destruct (cs_process_event (ieee M) sr _ _ _ _ _ P) as (P2 & _).
  rewrite P1, orb_true_r in P2. pose proof (quiet_run M sr (map Quantum offs) s1 (128 * Z.of_nat j + Z.of_nat RQ) P2) as Q.
  assert (L : forall l s f, length (snd (cs_run (ieee M) sr s f (map Quantum l))) = length l).
  { clear. induction l as [|a l IH]; intros s f; [reflexivity|]. cbn [map cs_run]. destruct (cs_process (ieee M) sr s f a) as [s1 o1]. specialize (IH s1 (f + Z.of_nat RQ)%Z).
    destruct (cs_run (ieee M) sr s1 (f + Z.of_nat RQ) (map Quantum l)) as [[s2 f2] os]. cbn [snd length] in *. rewrite IH. reflexivity. }
  specialize (L offs s1 (128 * Z.of_nat j + Z.of_nat RQ)%Z). destruct (cs_run (ieee M) sr s1 (128 * Z.of_nat j + Z.of_nat RQ) (map Quantum offs)) as [[s2 f2] os]. cbn [snd map] in *.
  rewrite P1. cbn [negb]. f_equal. clear - Q L. revert offs L. induction os as [|x os IH]; intros offs L; destruct offs; try discriminate; [reflexivity|]. cbn [filter] in Q. cbn [map].
  destruct (o_event x); [discriminate|]. f_equal. apply IH; [exact Q|]. injection L as L. exact L.
Qed.
