(** The buffer source's sound: constant rates, loops, loudness. *)
From Coq Require Import List Arith Bool ZArith Reals Lra Lia Psatz.
From Flocq Require Import Core.
From Verif Require Import Common_Model Arith_Model Arith_Real Source_Model Absn_Model Absn_Spec Absn_ExactProofs Absn_SoundSpec Absn_SoundProofs.
Import ListNotations.
Local Open Scope R_scope.

Lemma read_bound : forall ch w B y, 0 <= B -> Forall (fun v => Rabs v <= B) ch -> Rabs (read ch w y) <= (match w with Some _ => 1 | None => 3 end) * B.
Proof.
  intros ch w B y HB Hc. assert (N : forall i, - B <= nth i ch 0 <= B).
  { intros i. destruct (Nat.lt_ge_cases i (length ch)) as [C|C]; [|rewrite nth_overflow by exact C; lra]. rewrite Forall_forall in Hc. apply Rabs_le_inv, Hc, nth_In, C. }
  unfold read. cbv zeta. set (i := Z.to_nat (Zfloor y)). set (k := y - IZR (Zfloor y)). assert (K : 0 <= k <= 1) by (pose proof (Zfloor_lb y); pose proof (Zfloor_ub y); unfold k; lra).
  assert (G : forall x z C, - C <= x <= C -> - C <= z <= C -> Rabs ((1 - k) * x + k * z) <= C) by (intros x z C H1 H2; apply Rabs_le; nra).
  assert (In : forall j, Rabs ((1 - k) * nth i ch 0 + k * nth j ch 0) <= B) by (intros j; apply G; apply N).
  destruct (i + 1 <? length ch)%nat; [destruct w; eapply Rle_trans; [apply In|lra|apply In|lra]|].
  destruct w as [j|]; [rewrite Rmult_1_l; apply In|]. destruct (i =? 0)%nat; [eapply Rle_trans; [apply (G _ _ B (N i)); lra|lra]|].
  pose proof (N i). pose proof (N (i - 1)%nat). apply G; lra.
Qed.

Lemma sample_bound : forall sr brate L call lp rate stop ch B n, 0 <= B -> Forall (fun v => Rabs v <= B) ch ->
  Rabs (sample sr brate L call lp rate stop ch n) <= (if l_on lp then 1 else 3) * B.
Proof.
  intros sr brate L call lp rate stop ch B n HB Hc. unfold sample. destruct (_ && _ && _).
  - pose proof (read_bound ch (continues brate lp rate n) B (position sr brate L call lp rate n * brate) HB Hc) as H. unfold continues in *. destruct (l_on lp); exact H.
  - rewrite Rabs_R0. destruct (l_on lp); lra.
Qed.

Section Constant.
Variables (sr brate : R) (L : nat).
Hypothesis Hsr : 0 < sr.
Variable call : start_call.
Variable lp : loop.
Variables (rate stop : nat -> R) (r : R) (N F : nat).
Hypothesis Hr : 0 <= r.
Hypothesis Hrate : forall q, (c_quanta call <= q < N)%nat -> rate q = r.
Hypothesis Hwhen : c_when call = INR F / sr.
Hypothesis HF : (128 * c_quanta call <= F)%nat.
Hypothesis Hstop : forall q, (c_quanta call <= q < N)%nat -> time sr (128 * N) < stop q.

Lemma first_is : first sr call = F.
Proof. unfold first. rewrite Hwhen. replace (INR F / sr * sr) with (IZR (Z.of_nat F)) by (rewrite <- INR_IZR_INZ; field; lra). rewrite Zceil_IZR. lia. Qed.
Lemma lead_is : lead sr call = 0.
Proof. unfold lead. rewrite first_is. destruct (_ =? 0)%nat; [reflexivity|]. unfold time. rewrite Hwhen. lra. Qed.
Lemma rate_is : forall n, (F <= n < 128 * N)%nat -> rate_at rate n = r.
Proof. intros n H. unfold rate_at. apply Hrate. split; [apply Nat.div_le_lower_bound; lia|apply Nat.div_lt_upper_bound; lia]. Qed.
Lemma travelled_is : forall k, (F + k <= 128 * N)%nat -> travelled sr call rate k = INR k * r / sr.
Proof. induction k as [|k IH]; intros H; [cbn [travelled INR]; lra|]. cbn [travelled]. rewrite IH by lia. rewrite first_is, rate_is by lia. rewrite S_INR. lra. Qed.
Lemma distance_is : forall k, (F + k <= 128 * N)%nat -> distance sr call rate k = INR k * r / sr.
Proof. assert (0 <= r / sr) by (apply Rmult_le_pos; [exact Hr|apply Rlt_le, Rinv_0_lt_compat; exact Hsr]). induction k as [|k IH]; intros Hk; [cbn [distance INR]; lra|]. cbn [distance]. rewrite IH by lia. rewrite first_is, rate_is by lia. rewrite Rabs_pos_eq by assumption. rewrite S_INR. lra. Qed.
Lemma played_is : forall n, (n <= 128 * N)%nat -> played sr call rate n = INR (n - F) * r / sr.
Proof.
  intros n H. unfold played. rewrite first_is, lead_is. destruct (Nat.leb_spec n F).
  - replace (n - F)%nat with 0%nat by lia. cbn [INR]. lra.
  - rewrite distance_is by lia. rewrite Rmult_0_l, Rabs_R0. lra.
Qed.
Lemma mono : forall m n, (m <= n)%nat -> INR (m - F) * r / sr <= INR (n - F) * r / sr.
Proof. intros m n H. apply Rmult_le_compat_r; [apply Rlt_le, Rinv_0_lt_compat; exact Hsr|]. apply Rmult_le_compat_r; [exact Hr|]. apply le_INR. lia. Qed.

Lemma alive_is : forall n, (n < 128 * N)%nat -> INR (n - F) * r / sr < c_duration call ->
  (l_on lp = false -> (F <= n)%nat -> unlooped sr brate L call lp rate n < length_s brate L) -> alive sr brate L call lp rate stop (n / 128) = true.
Proof.
  intros n Hn Hd Hu. unfold alive. apply forallb_forall. intros p Hp. apply in_seq in Hp. pose proof (Nat.div_mod n 128 ltac:(lia)) as Dm. pose proof (Nat.mod_upper_bound n 128 ltac:(lia)).
  assert (P1 : (c_quanta call <= p < N)%nat) by lia. assert (P2 : (128 * (p + 1) <= n)%nat) by lia. set (nn := (128 * (p + 1))%nat) in *. apply negb_true_iff. unfold over. fold nn.
  rewrite is_le_false. 2: { eapply Rle_lt_trans; [|apply (Hstop p P1)]. unfold time. apply Rmult_le_compat_r; [apply Rlt_le, Rinv_0_lt_compat; exact Hsr|apply le_INR; lia]. }
  cbn [orb]. rewrite (is_le_false (c_duration call)) by (rewrite played_is by lia; eapply Rle_lt_trans; [apply (mono nn n P2)|exact Hd]). cbn [orb].
  assert (Lf : left sr brate L call lp rate p = false); [|rewrite Lf; apply andb_false_r].
  unfold left. fold nn. assert (On : l_on lp = true \/ l_on lp = false) by (destruct (l_on lp); [left|right]; reflexivity). destruct On as [On|On]; rewrite On; [reflexivity|]. cbn [negb andb]. rewrite first_is. destruct (Nat.ltb_spec F nn) as [C|C]; [|reflexivity]. cbn [andb].
  rewrite (Hrate p P1). rewrite (is_lt_false r 0) by exact Hr. rewrite andb_false_l, orb_false_r. rewrite (is_le_false (length_s brate L)); [apply andb_false_r|]. eapply Rle_lt_trans; [|apply (Hu On); lia].
  unfold unlooped. rewrite first_is, !travelled_is by lia. apply Rplus_le_compat_l. apply mono. exact P2.
Qed.

Lemma sounding_is : forall n, (128 * c_quanta call <= n < 128 * N)%nat ->
  (l_on lp = false -> (F <= n)%nat -> unlooped sr brate L call lp rate n < length_s brate L) ->
  sounding sr brate L call lp rate stop n = (F <=? n)%nat && is_lt (INR (n - F) * r / sr) (c_duration call).
Proof.
  intros n Hn Hu. unfold sounding. rewrite first_is, played_is by lia. destruct (F <=? n)%nat; [|reflexivity]. cbn [andb].
  assert (Q : (c_quanta call <= n / 128 < N)%nat) by (split; [apply Nat.div_le_lower_bound; lia|apply Nat.div_lt_upper_bound; lia]).
  rewrite (is_lt_true (time sr n)). 2: { eapply Rle_lt_trans; [|apply (Hstop _ Q)]. unfold time. apply Rmult_le_compat_r; [apply Rlt_le, Rinv_0_lt_compat; exact Hsr|apply le_INR; lia]. }
  rewrite andb_true_r. destruct (Rlt_dec (INR (n - F) * r / sr) (c_duration call)) as [C|C].
  - rewrite alive_is by (assumption || lia). reflexivity.
  - rewrite is_lt_false by lra. apply andb_false_r.
Qed.

Lemma once_is : forall ch n, l_on lp = false -> 0 <= c_offset call <= length_s brate L -> (128 * c_quanta call <= n < 128 * N)%nat ->
  let p := c_offset call + INR (n - F) * r / sr in
  sample sr brate L call lp rate stop ch n = if (F <=? n)%nat && is_lt (INR (n - F) * r / sr) (c_duration call) && is_lt p (length_s brate L) then read ch None (p * brate) else 0.
Proof.
  intros ch n On Ho Hn p. unfold sample, position, continues. rewrite On. cbn [andb].
  assert (Or : origin sr brate L call lp rate = c_offset call). { unfold origin. rewrite lead_is, On. cbv zeta. rewrite Rmult_0_l, Rplus_0_r, Rmax_left by lra. apply Rmin_left. lra. }
  destruct (Nat.leb_spec F n) as [C|C]; [|unfold sounding; rewrite first_is; destruct (Nat.leb_spec F n); [lia|reflexivity]].
  assert (U : unlooped sr brate L call lp rate n = p) by (unfold unlooped; rewrite Or, first_is, travelled_is by lia; reflexivity). rewrite U.
  assert (P0 : 0 <= p). { unfold p. assert (0 <= INR (n - F) * r / sr); [|lra]. apply Rmult_le_pos; [apply Rmult_le_pos; [apply pos_INR|exact Hr]|apply Rlt_le, Rinv_0_lt_compat; exact Hsr]. }
  rewrite (is_le_true 0 p P0), andb_true_r. destruct (Rlt_dec p (length_s brate L)) as [E|E].
  - rewrite (is_lt_true p) by exact E. rewrite !andb_true_r. rewrite sounding_is by (try lia; intros; rewrite U; exact E). destruct (Nat.leb_spec F n); [reflexivity|lia].
  - rewrite (is_lt_false p) by lra. rewrite !andb_false_r. reflexivity.
Qed.

Lemma looped_is : forall ch n, l_on lp = true -> 0 <= l_start lp -> l_end lp <= length_s brate L -> l_start lp <= c_offset call < l_end lp -> (F <= n < 128 * N)%nat -> INR (n - F) * r / sr < c_duration call ->
  sample sr brate L call lp rate stop ch n = read ch (Some (Z.to_nat (Zceil (l_start lp * brate)))) (wrap lp (c_offset call + INR (n - F) * r / sr) * brate).
Proof.
  intros ch n On Hls Hle Ho Hn Hd. unfold sample, position, continues. rewrite On. cbn [andb].
  assert (Or : origin sr brate L call lp rate = c_offset call).
  { unfold origin. rewrite lead_is, On, first_is, rate_is by lia. cbv zeta. rewrite is_le_true by exact Hr. rewrite Rmult_0_l, Rplus_0_r, Rmax_left by lra. rewrite (Rmin_left (c_offset call) (length_s brate L)) by lra. apply Rmin_left. lra. }
  assert (U : forall k, (F <= k < 128 * N)%nat -> unlooped sr brate L call lp rate k = c_offset call + INR (k - F) * r / sr) by (intros k Hk; unfold unlooped; rewrite Or, first_is, travelled_is by lia; reflexivity). rewrite U by exact Hn.
  assert (E : entered sr brate L call lp rate n = true). { unfold entered. rewrite first_is. apply existsb_exists. exists F. split; [apply in_seq; lia|]. unfold enters. rewrite Or, U by lia. rewrite Nat.sub_diag. cbn [INR]. rewrite (is_lt_true (c_offset call)) by lra. rewrite is_le_true by lra. reflexivity. }
  rewrite E. pose proof (wrapped_range (l_start lp) (l_end lp) ltac:(lra) (c_offset call + INR (n - F) * r / sr)) as W. change (wrapped (l_start lp) (l_end lp) (c_offset call + INR (n - F) * r / sr)) with (wrap lp (c_offset call + INR (n - F) * r / sr)) in W.
  rewrite (is_le_true 0) by lra. rewrite is_lt_true by lra. rewrite sounding_is by (try lia; intros Off; rewrite On in Off; discriminate Off). destruct (Nat.leb_spec F n); [|lia]. rewrite is_lt_true by exact Hd. rewrite rate_is by lia. rewrite is_le_true by exact Hr. reflexivity.
Qed.
End Constant.

(** ** A source with a buffer that is started and left alone *)
Lemma stops_none : forall never m l q, Forall (fun g => s_stops g = []) l -> stops never m l q = never.
Proof.
  intros never m l q H. unfold stops. replace (concat (map s_stops (firstn (q - m + 1) l))) with (@nil R); [reflexivity|]. revert H. generalize (q - m + 1)%nat. induction l as [|g l IH]; intros [|n] H; try reflexivity.
  cbn [firstn map concat]. rewrite (Forall_inv H). cbn [app]. apply IH. exact (Forall_inv_tail H).
Qed.
Lemma rates_const : forall m l r q, Forall (fun g => step_rate g = r) l -> (m <= q < m + length l)%nat -> rates m l q = r.
Proof.
  intros m l r q H Hq. unfold rates. rewrite Forall_forall in H. assert (E : In (nth (q - m) (map step_rate l) 0) (map step_rate l)) by (apply nth_In; rewrite map_length; lia). apply in_map_iff in E. destruct E as (g & <- & I). apply H. exact I.
Qed.
Definition quiet (l : list (R * R)) : list action := map (fun x => A_quantum (fst x) (snd x)) l.
Lemma quiet_waiting : forall l (b : @buffer R), forallb is_waiting (quiet l ++ [A_buffer b]) = true.
Proof. induction l as [|x l IH]; intros b; [reflexivity|]. apply IH. Qed.
Lemma quiet_quanta : forall l (b : @buffer R), quanta_in (quiet l ++ [A_buffer b]) = length l.
Proof. induction l as [|x l IH]; intros b; [reflexivity|]. cbn [quiet map app length]. rewrite <- (IH b). reflexivity. Qed.
Lemma quiet_buffers : forall l (b : @buffer R), buffers ((quiet l ++ [A_buffer b]) ++ []) = [b].
Proof. intros l b. rewrite app_nil_r. induction l as [|x l IH]; [reflexivity|]. exact IH. Qed.
Lemma quiet_last : forall X (f : action -> option X) l (b : @buffer R) e, (forall x y, f (A_quantum x y) = None) -> (forall b, f (A_buffer b) = None) -> last_of f ((quiet l ++ [A_buffer b]) ++ []) e = e.
Proof. intros X f l b e H1 H2. rewrite app_nil_r. induction l as [|x l IH]; [cbn [quiet map app last_of]; rewrite H2; reflexivity|]. cbn [quiet map app last_of]. rewrite H1. exact IH. Qed.
