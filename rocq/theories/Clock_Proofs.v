(** Proofs about the clock of a context. *)
From Coq Require Import List Arith Bool ZArith Lia Reals Lra Psatz.
From Flocq Require Import Core BinarySingleNaN Relative.
From Verif Require Import Float_Model Float_Proofs Float_BoundProofs Float_ErrorProofs Arith_Model Pan_IeeeProofs Stats_Model Stats_IeeeProofs Osc_IeeeProofs Absn_IeeeProofs.
From Verif Require Import Clock_Model Clock_Spec.
Import ListNotations.
Local Open Scope R_scope.

Lemma seconds_frames sr k : seconds sr k = IZR (Z.of_nat k * 128) / B2R sr.
Proof. unfold seconds. rewrite mult_IZR, <- INR_IZR_INZ. reflexivity. Qed.
Lemma time_val sr k : usable_rate sr -> in_range k ->
  is_finite (time sr (Z.of_nat k * 128)) = true /\ B2R (time sr (Z.of_nat k * 128)) = round radix2 (SpecFloat.fexp 53 1024) ZnearestE (seconds sr k).
Proof.
  intros [F B] R. destruct (f64_of_f32_val sr F) as [E1 E2]. unfold in_range in R. destruct (small_val (Z.of_nat k * 128) ltac:(lia)) as [V W].
  unfold time. destruct (Bdiv_shrink (f64_of_Z (Z.of_nat k * 128)) (f64_of_f32 sr) W) as (P & Q & _).
  - rewrite V. apply IZR_le. lia.
  - rewrite E1. lra.
  - split; [exact P|]. rewrite Q, V, E1, seconds_frames. reflexivity.
Qed.
Lemma seconds_le sr j k : usable_rate sr -> (j <= k)%nat -> seconds sr j <= seconds sr k.
Proof.
  intros [_ B] H. unfold seconds, Rdiv. apply Rmult_le_compat_r; [left; apply Rinv_0_lt_compat; lra|]. apply le_INR in H. lra.
Qed.
Lemma seconds_0 sr : seconds sr 0 = 0.
Proof. unfold seconds, Rdiv. cbn [INR]. ring. Qed.
Lemma seconds_pos sr k : usable_rate sr -> (0 < k)%nat -> bpow radix2 (-1022) <= seconds sr k.
Proof.
  intros [F B] H. apply Rle_trans with (bpow radix2 (-20)); [apply bpow_le; lia|]. apply Rle_trans with (seconds sr 1); [|apply seconds_le; [split; assumption|lia]].
  unfold seconds. cbn [INR]. change (bpow radix2 (-20)) with (/ 1048576). unfold Rdiv. rewrite Rmult_1_l.
  apply Rle_trans with (128 * / 768000); [lra|]. apply Rmult_le_compat_l; [lra|]. apply Rinv_le_contravar; lra.
Qed.
Lemma time_err sr k : usable_rate sr -> in_range k -> Rabs (B2R (time sr (Z.of_nat k * 128)) - seconds sr k) <= ulp53 * seconds sr k.
Proof.
  intros U R. destruct (time_val sr k U R) as [_ ->]. destruct k as [|k].
  - rewrite seconds_0, round_0 by apply valid_rnd_N. replace (0 - 0) with 0 by ring. rewrite Rabs_R0, Rmult_0_r. lra.
  - pose proof (seconds_pos sr (S k) U ltac:(lia)) as P. pose proof (bpow_gt_0 radix2 (-1022)) as P0. pose proof (rel_err (seconds sr (S k))) as E.
    rewrite (Rabs_pos_eq (seconds sr (S k))) in E by lra. apply E. exact P.
Qed.
Lemma time_mono sr j k : usable_rate sr -> in_range k -> (j <= k)%nat -> B2R (time sr (Z.of_nat j * 128)) <= B2R (time sr (Z.of_nat k * 128)).
Proof.
  intros U R H. destruct (time_val sr k U R) as [_ ->]. destruct (time_val sr j U ltac:(unfold in_range in *; lia)) as [_ ->]. apply mono64. apply seconds_le; assumption.
Qed.
Lemma time_strict sr j k : usable_rate sr -> in_range k -> (j < k)%nat -> B2R (time sr (Z.of_nat j * 128)) < B2R (time sr (Z.of_nat k * 128)).
Proof.
  intros U R H. assert (R' : in_range (S j)) by (unfold in_range in *; lia). apply Rlt_le_trans with (B2R (time sr (Z.of_nat (S j) * 128))); [|apply time_mono; [exact U|exact R|lia]].
  pose proof (time_err sr (S j) U R') as E1. assert (Rj : in_range j) by (unfold in_range in *; lia). pose proof (time_err sr j U Rj) as E0.
  apply Rabs_le_inv in E1. apply Rabs_le_inv in E0. destruct U as [_ B].
  set (d := 128 / B2R sr) in *. assert (D : 0 < d) by (unfold d; apply Rdiv_lt_0_compat; lra).
  assert (S1 : seconds sr (S j) = seconds sr j + d). { unfold seconds, d. rewrite S_INR. field. lra. }
  assert (S0 : seconds sr j = INR j * d). { unfold seconds, d. field. lra. }
  assert (N : INR j * 128 <= 9007199254740992). { unfold in_range in Rj. apply IZR_le in Rj. rewrite mult_IZR, <- INR_IZR_INZ in Rj. change (2 ^ 53)%Z with 9007199254740992%Z in Rj. exact Rj. }
  assert (UL : ulp53 = / 9007199254740992) by (unfold ulp53; reflexivity).
  assert (K : ulp53 * (INR j * d) <= d / 128). { rewrite UL. apply Rmult_le_reg_l with (9007199254740992 * 128 * / d). { apply Rmult_lt_0_compat; [lra|apply Rinv_0_lt_compat; lra]. } field_simplify; lra. }
  assert (K2 : ulp53 * d <= d / 128) by (rewrite UL; lra).
  rewrite S1, S0 in E1. rewrite S0 in E0. rewrite Rmult_plus_distr_l in E1. lra.
Qed.

(** what holds in every state: later readings of a thread know more *)
Definition sound (s : clock) : Prop :=
  (forall r, In r (readings s) -> shown r = time (rate s) (Z.of_nat (known r) * 128) /\ (known r <= quanta s)%nat /\ (known r <= complete r + 1)%nat) /\
  (forall i j a b, (i < j)%nat -> nth_error (readings s) i = Some a -> nth_error (readings s) j = Some b -> who a = who b -> (known a <= known b)%nat) /\
  (forall r, In r (readings s) -> (known r <= seen (who r) (readings s))%nat) /\
  length (stamps s) = quanta s.
Lemma seen_snoc i l r : seen i (l ++ [r]) = if Nat.eqb (who r) i then known r else seen i l.
Proof. unfold seen. rewrite fold_left_app. reflexivity. Qed.
Lemma start_sound sr : sound (start sr).
Proof. unfold sound, start; cbn [readings quanta stamps length]. repeat split; try (intros; contradiction). intros i j a b _ H. destruct i; discriminate. Qed.
Lemma act_sound s a s' : sound s -> act s a = Some s' -> sound s'.
Proof.
  intros (H1 & H2 & H3 & H4) E. destruct a as [| |i k|sr]; cbn [act] in E.
  - destruct (busy s); [discriminate|]. injection E as <-. unfold sound; cbn [readings quanta stamps rate]. split; [|split; [exact H2|split; [exact H3|]]].
    + intros r I. destruct (H1 r I) as (P & Q & W). split; [exact P|]. split; [lia|exact W].
    + rewrite app_length. cbn [length]. lia.
  - destruct (busy s); [|discriminate]. injection E as <-. split; [exact H1|]. split; [exact H2|]. split; [exact H3|exact H4].
  - destruct (Nat.leb (seen i (readings s)) k && Nat.leb k (quanta s))%bool eqn:T; [|discriminate]. apply andb_true_iff in T. destruct T as [T1 T2]. apply Nat.leb_le in T1, T2.
    injection E as <-. unfold sound; cbn [readings quanta stamps rate]. split; [|split; [|split; [|exact H4]]].
    + intros r I. apply in_app_or in I. destruct I as [I|[<-|[]]]; [exact (H1 r I)|]. cbn [shown known complete]. split; [reflexivity|]. split; [exact T2|].
      unfold rendered. destruct (busy s); lia.
    + intros p q a b L Ea Eb W. destruct (Nat.lt_ge_cases q (length (readings s))) as [Lq|Lq].
      * rewrite nth_error_app1 in Ea, Eb by lia. exact (H2 p q a b L Ea Eb W).
      * assert (q = length (readings s)). { assert (q < length (readings s ++ [mk_reading i k (rendered s) (time (rate s) (Z.of_nat k * 128))]))%nat by (apply nth_error_Some; rewrite Eb; discriminate). rewrite app_length in H. cbn [length] in H. lia. }
        subst q. rewrite nth_error_app2, Nat.sub_diag in Eb by lia. injection Eb as <-. rewrite nth_error_app1 in Ea by lia. apply nth_error_In in Ea. cbn [who] in W. cbn [known].
        pose proof (H3 a Ea) as P. rewrite W in P. lia.
    + intros r I. rewrite seen_snoc. cbn [who known]. apply in_app_or in I. destruct I as [I|[<-|[]]].
      * destruct (Nat.eqb i (who r)) eqn:Q; [|exact (H3 r I)]. apply Nat.eqb_eq in Q. pose proof (H3 r I) as P. rewrite <- Q in P. lia.
      * cbn [who known]. rewrite Nat.eqb_refl. lia.
  - destruct (busy s); [discriminate|]. injection E as <-. split; [exact H1|]. split; [exact H2|]. split; [exact H3|exact H4].
Qed.
Lemma acts_keep (P : clock -> Prop) (Q : action -> Prop) : (forall s a s', P s -> Q a -> act s a = Some s' -> P s') ->
  forall l s s', P s -> Forall Q l -> acts s l = Some s' -> P s'.
Proof.
  intros K. induction l as [|a l IH]; intros s s' H F E; cbn [acts] in E; [injection E as <-; exact H|].
  destruct (act s a) as [s1|] eqn:A; [|discriminate]. inversion F; subst. eapply IH; [eapply K; eassumption|assumption|exact E].
Qed.
Lemma all_true {A} (l : list A) : Forall (fun _ => True) l. Proof. induction l; constructor; auto. Qed.
Lemma reach_sound sr l s : acts (start sr) l = Some s -> sound s.
Proof. intros E. apply (acts_keep sound (fun _ => True)) with l (start sr); [|apply start_sound|apply all_true|exact E]. intros a b c H _ K. exact (act_sound a b c H K). Qed.
Lemma reach_rate sr l s : acts (start sr) l = Some s -> rate s = sr.
Proof.
  intros E. apply (acts_keep (fun s => rate s = sr) (fun _ => True)) with l (start sr); [|reflexivity|apply all_true|exact E].
  intros a b c H _ K. destruct b; cbn [act] in K; repeat match type of K with (if ?x then _ else _) = _ => destruct x; try discriminate end; injection K as <-; exact H.
Qed.
(** the render thread keeps the rate of the context *)
Definition same (sr : f32) (s : clock) : Prop := thread_rate s = sr /\ length (stamps s) = quanta s /\ forall k t, nth_error (stamps s) k = Some t -> t = time sr (Z.of_nat k * 128).
Lemma reach_same sr l s : Forall (fun a => forall r, a = New_stream r -> r = sr) l -> acts (start sr) l = Some s -> same sr s.
Proof.
  intros F E. apply (acts_keep (same sr) (fun a => forall r, a = New_stream r -> r = sr)) with l (start sr); [|split; [reflexivity|split; [reflexivity|intros k t H; destruct k; discriminate]]|exact F|exact E].
  intros a b c (H1 & H2 & H3) Q K. destruct b as [| |i k|r]; cbn [act] in K.
  - destruct (busy a); [discriminate|]. injection K as <-. split; [exact H1|]. cbn [stamps quanta]. split; [rewrite app_length; cbn [length]; lia|].
    intros k t N. destruct (Nat.lt_ge_cases k (length (stamps a))) as [L|L]; [rewrite nth_error_app1 in N by lia; exact (H3 k t N)|].
    rewrite nth_error_app2 in N by lia. destruct (k - length (stamps a))%nat eqn:D; cbn [nth_error] in N; [|destruct n; discriminate]. injection N as <-. rewrite H1.
    replace k with (quanta a) by lia. reflexivity.
  - destruct (busy a); [|discriminate]. injection K as <-. split; [exact H1|]. split; [exact H2|exact H3].
  - destruct (Nat.leb (seen i (readings a)) k && Nat.leb k (quanta a))%bool; [|discriminate]. injection K as <-. split; [exact H1|]. split; [exact H2|exact H3].
  - destruct (busy a); [discriminate|]. injection K as <-. split; [exact (Q r eq_refl)|]. split; [exact H2|exact H3].
Qed.

Lemma never_back sr l s : usable_rate sr -> acts (start sr) l = Some s -> in_range (quanta s) ->
  forall i j a b, (i < j)%nat -> nth_error (readings s) i = Some a -> nth_error (readings s) j = Some b -> who a = who b ->
  is_finite (shown a) = true /\ is_finite (shown b) = true /\ B2R (shown a) <= B2R (shown b) /\ ((known a < known b)%nat -> B2R (shown a) < B2R (shown b)).
Proof.
  intros U E R i j a b L Ea Eb W. pose proof (reach_sound sr l s E) as (H1 & H2 & _). pose proof (H2 i j a b L Ea Eb W) as K.
  destruct (H1 a (nth_error_In _ _ Ea)) as (-> & Ka & _). destruct (H1 b (nth_error_In _ _ Eb)) as (-> & Kb & _). rewrite (reach_rate sr l s E).
  assert (Ra : in_range (known a)) by (unfold in_range in *; lia). assert (Rb : in_range (known b)) by (unfold in_range in *; lia).
  split; [apply (time_val sr _ U Ra)|]. split; [apply (time_val sr _ U Rb)|]. split; [apply time_mono; assumption|]. intros Q. apply time_strict; assumption.
Qed.
Lemma accuracy sr l s : usable_rate sr -> acts (start sr) l = Some s -> in_range (quanta s) ->
  forall r, In r (readings s) -> Rabs (B2R (shown r) - seconds sr (known r)) <= bpow radix2 (-53) * seconds sr (known r) /\ (known r <= complete r + 1)%nat.
Proof.
  intros U E R r I. pose proof (reach_sound sr l s E) as (H1 & _). destruct (H1 r I) as (-> & Ka & Kc). rewrite (reach_rate sr l s E).
  split; [|exact Kc]. apply time_err; [exact U|]. unfold in_range in *; lia.
Qed.
Lemma same_clock sr l s : usable_rate sr -> acts (start sr) l = Some s -> in_range (quanta s) -> Forall (fun a => forall r, a = New_stream r -> r = sr) l ->
  (forall r t, In r (readings s) -> nth_error (stamps s) (known r) = Some t -> t = shown r) /\
  (forall j k t u, (j < k)%nat -> nth_error (stamps s) j = Some t -> nth_error (stamps s) k = Some u -> B2R t < B2R u).
Proof.
  intros U E R F. destruct (reach_same sr l s F E) as (_ & HL & H). pose proof (reach_sound sr l s E) as (H1 & _). split.
  - intros r t I N. rewrite (H _ _ N). destruct (H1 r I) as (-> & _). rewrite (reach_rate sr l s E). reflexivity.
  - intros j k t u L Nj Nk. rewrite (H _ _ Nj), (H _ _ Nk). apply time_strict; [exact U| |exact L].
    assert (k < length (stamps s))%nat by (apply nth_error_Some; rewrite Nk; discriminate). unfold in_range in *. lia.
Qed.
