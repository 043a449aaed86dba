(** Splitter, merger and gain: proofs. *)
From Coq Require Import List Arith Bool ZArith Lia Reals Lra.
From Flocq Require Import Core BinarySingleNaN Sterbenz.
From Verif Require Import Float_Model Float_Proofs Float_BoundProofs Float_ErrorProofs Buffer_ResampleProofs Arith_Model Arith_Real Delay_Proofs Route_Model Route_Spec.
Import ListNotations.

Section Route.
Context {V : Type}.
Variable O : sops V.
Variable size : nat.
Notation quantum := (list (chan V)).
Notation silence := (silence_chan O size).
Notation silent_zero := (silent_zero O size).

Lemma set_one : forall q : quantum, q <> [] -> exists c, set_number_of_channels q 1 = Some [c].
Proof. intros [|c q] H; [contradiction|]. exists c. reflexivity. Qed.

Lemma split_outputs_ok : forall (input : quantum) outputs i, Forall (fun o => o <> []) outputs ->
  split_outputs O size input i outputs = Ok (map (fun j => [nth j input silence]) (seq i (length outputs))).
Proof.
  intros input outputs. induction outputs as [|o os IH]; intros i H; [reflexivity|]. apply Forall_cons_iff in H. destruct H as [Ho H]. cbn [split_outputs length seq map]. unfold split_output. destruct (set_one o Ho) as (c & ->). cbn [from_option bind].
  assert (E : (if i <? length input then do c0 <- index input i; store [c] 0 c0 else from_option (make_silent O size [c])) = Ok [nth i input silence]).
  { destruct (Nat.ltb_spec i (length input)).
    - unfold index. rewrite (nth_error_nth' _ silence) by assumption. reflexivity.
    - rewrite nth_overflow by assumption. reflexivity. }
  rewrite E. cbn [bind]. rewrite IH by exact H. reflexivity.
Qed.
Lemma splitter_ok : forall n (input : quantum) outputs, length outputs = n -> Forall (fun o => o <> []) outputs ->
  splitter O size n [input] outputs = Ok (map (fun j => [nth j input silence]) (seq 0 n)).
Proof. intros n input outputs <- H. unfold splitter, index. cbn [nth_error from_option bind]. rewrite Nat.eqb_refl. cbn [check bind]. apply split_outputs_ok, H. Qed.

Lemma set_number_ok : forall (q : quantum) n, q <> [] -> 0 < n <= 32 -> exists q', set_number_of_channels q n = Some q' /\ length q' = n.
Proof.
  intros [|c q] n H Hn; [contradiction|]. unfold set_number_of_channels. destruct (Nat.ltb_spec 0 n); [|lia]. destruct (Nat.leb_spec n max_channels) as [_|L]; [|unfold max_channels in L; lia]. cbn [andb].
  eexists. split; [reflexivity|]. rewrite firstn_length, app_length, repeat_length. lia.
Qed.
Lemma merge_channels_ok : forall (inputs : list quantum) i q, Forall (fun o => o <> []) inputs -> i + length inputs = length q ->
  merge_channels inputs i q = Ok (firstn i q ++ map (fun o => nth 0 o silence) inputs).
Proof.
  induction inputs as [|o inputs IH]; intros i q H L; cbn [length] in L.
  - cbn [merge_channels map]. rewrite app_nil_r, firstn_all2 by lia. reflexivity.
  - apply Forall_cons_iff in H. destruct H as [Ho H]. destruct o as [|c o]; [contradiction|]. cbn [merge_channels index nth_error from_option bind map nth]. unfold store. destruct (Nat.ltb_spec i (length q)); [|lia]. cbn [index nth_error from_option bind]. rewrite IH; [|exact H|rewrite update_length; lia].
    f_equal. assert (E : firstn (S i) (update i (fun _ => c) q) = firstn i q ++ [c]). { clear - H0. revert i H0. induction q as [|x q IH]; intros [|i] Hi; cbn [length] in Hi; try lia; [reflexivity|]. cbn [update]. rewrite firstn_cons, IH by lia. reflexivity. }
    rewrite E, <- app_assoc. reflexivity.
Qed.
Lemma merger_ok : forall (inputs : list quantum) q, q <> [] -> 0 < length inputs <= 32 -> Forall (fun o => o <> []) inputs ->
  merger O size inputs q = Ok (if existsb (fun input => negb (is_silent input)) inputs then map (fun o => nth 0 o silence) inputs else [silence]).
Proof.
  intros inputs q Hq Hl Hi. unfold merger. destruct (existsb (fun input => negb (is_silent input)) inputs).
  - destruct (set_number_ok q (length inputs) Hq Hl) as (q' & E & L). rewrite E. cbn [from_option bind]. rewrite merge_channels_ok by (try exact Hi; lia). reflexivity.
  - destruct q as [|c q]; [contradiction|]. reflexivity.
Qed.

Lemma sample_absent : forall (zero : V) q c t, length q <= c -> sample zero q c t = zero.
Proof. intros zero q c t H. unfold sample. rewrite (nth_overflow q) by exact H. cbn [c_val]. destruct t; reflexivity. Qed.


Lemma sample_silence : forall c t, sample (s_zero O) [silence] c t = s_zero O.
Proof.
  intros c t. destruct c as [|c]; [|apply sample_absent; cbn [length]; lia]. unfold sample. cbn [nth silence_chan c_val]. destruct (Nat.lt_ge_cases t size); [apply (repeat_spec size (s_zero O)); apply nth_In; rewrite repeat_length; assumption|apply nth_overflow; rewrite repeat_length; assumption].
Qed.
Lemma silent_sample : forall (q : quantum) c t, silent_zero q -> is_silent q = true -> sample (s_zero O) q c t = s_zero O.
Proof.
  intros q c t H S. destruct (Nat.lt_ge_cases c (length q)) as [L|L]; [|apply sample_absent; exact L]. unfold sample. set (x := nth c q (mk_chan 0 [])). assert (Hin : In x q) by (apply nth_In; exact L).
  unfold is_silent in S. apply negb_true_iff in S. assert (Hx : c_name x = 0). { destruct (Nat.eq_dec (c_name x) 0) as [E|E]; [exact E|exfalso]. assert (existsb (fun c => negb (chan_is_silent c)) q = true); [|congruence]. apply existsb_exists. exists x. split; [exact Hin|]. unfold chan_is_silent. destruct (Nat.eqb_spec (c_name x) 0); [contradiction|reflexivity]. }
  unfold silent_zero in H. rewrite Forall_forall in H. rewrite (H x Hin Hx). destruct (Nat.lt_ge_cases t size); [apply (repeat_spec size (s_zero O)); apply nth_In; rewrite repeat_length; assumption|apply nth_overflow; rewrite repeat_length; assumption].
Qed.

Lemma split_spec : forall n (input : quantum) outputs, length outputs = n -> Forall (fun o => o <> []) outputs ->
  exists os, splitter O size n [input] outputs = Ok os /\ length os = n /\ forall i o, nth_error os i = Some o -> length o = 1 /\ forall t, sample (s_zero O) o 0 t = sample (s_zero O) input i t.
Proof.
  intros n input outputs L H. eexists. split; [apply splitter_ok; assumption|]. split; [rewrite map_length, seq_length; reflexivity|]. intros i o E. rewrite nth_error_map in E. destruct (nth_error (seq 0 n) i) as [j|] eqn:Ej; [|discriminate]. assert (Hi : i < n) by (rewrite <- (seq_length n 0); apply nth_error_Some; congruence).
  assert (j = i). { apply nth_error_nth with (d := 0) in Ej. rewrite seq_nth in Ej by exact Hi. lia. } subst j. cbn [option_map] in E. assert (Eo : o = [nth i input silence]) by congruence. subst o. split; [reflexivity|]. intros t. destruct (Nat.lt_ge_cases i (length input)) as [Li|Li].
  - unfold sample. cbn [nth]. rewrite (nth_indep _ (mk_chan 0 []) silence) by exact Li. reflexivity.
  - rewrite (nth_overflow _ _ Li). rewrite sample_silence. symmetry. apply sample_absent. exact Li.
Qed.
Lemma merge_spec : forall (inputs : list quantum) q, q <> [] -> 0 < length inputs <= 32 -> Forall (fun o => o <> []) inputs -> Forall silent_zero inputs ->
  exists out, merger O size inputs q = Ok out /\ length out = (if existsb (fun input => negb (is_silent input)) inputs then length inputs else 1) /\
    forall i t, sample (s_zero O) out i t = sample (s_zero O) (nth i inputs []) 0 t.
Proof.
  intros inputs q Hq Hl Hi Hz. eexists. split; [apply merger_ok; assumption|]. destruct (existsb (fun input => negb (is_silent input)) inputs) eqn:E.
  - split; [apply map_length|]. intros i t. unfold sample. destruct (Nat.lt_ge_cases i (length inputs)) as [L|L].
    + rewrite (nth_indep _ (mk_chan 0 []) ((fun o : quantum => nth 0 o silence) [])) by (rewrite map_length; exact L). rewrite (map_nth (fun o : quantum => nth 0 o silence)). rewrite Forall_forall in Hi. pose proof (Hi _ (nth_In _ [] L)). destruct (nth i inputs []) as [|c o]; [contradiction|reflexivity].
    + rewrite (nth_overflow (map _ _)) by (rewrite map_length; exact L). rewrite (nth_overflow inputs) by exact L. reflexivity.
  - split; [reflexivity|]. intros i t. rewrite sample_silence. symmetry. destruct (Nat.lt_ge_cases i (length inputs)) as [L|L]; [|rewrite nth_overflow by exact L; apply sample_absent; cbn [length]; lia].
    pose proof (nth_In _ [] L) as Hin. apply silent_sample; [rewrite Forall_forall in Hz; exact (Hz _ Hin)|]. destruct (is_silent (nth i inputs [])) eqn:S; [reflexivity|]. exfalso. assert (X : existsb (fun input : quantum => negb (is_silent input)) inputs = true); [|pose proof (eq_trans (eq_sym E) X) as Y; discriminate Y]. apply existsb_exists. exists (nth i inputs []). rewrite S. auto.
Qed.
Lemma round_trip : forall n (input : quantum) outputs q, length outputs = n -> Forall (fun o => o <> []) outputs -> 0 < n <= 32 -> q <> [] -> silent_zero input ->
  exists os out, splitter O size n [input] outputs = Ok os /\ merger O size os q = Ok out /\ forall c t, c < n -> sample (s_zero O) out c t = sample (s_zero O) input c t.
Proof.
  intros n input outputs q L H Hn Hq Hz. destruct (split_spec n input outputs L H) as (os & E & Lo & P). assert (E' := E). rewrite (splitter_ok n input outputs L H) in E'. assert (Eo : os = map (fun j => [nth j input silence]) (seq 0 n)) by congruence.
  destruct (merge_spec os q) as (out & E2 & _ & P2); [exact Hq|lia| | |].
  - subst os. apply Forall_map, Forall_forall. discriminate.
  - subst os. apply Forall_map, Forall_forall. intros j _. apply Forall_cons; [|apply Forall_nil]. intros Hname. destruct (Nat.lt_ge_cases j (length input)) as [Lj|Lj].
    + unfold silent_zero in Hz. rewrite Forall_forall in Hz. apply Hz; [apply nth_In; exact Lj|exact Hname].
    + rewrite nth_overflow by exact Lj. reflexivity.
  - exists os, out. split; [exact E|]. split; [exact E2|]. intros c t Hc. rewrite P2. destruct (nth_error os c) as [o|] eqn:Ec; [|apply nth_error_None in Ec; lia]. rewrite (nth_error_nth _ _ _ Ec). exact (proj2 (P c o Ec) t).
Qed.
End Route.

Section Gain.
Context {T V : Type}.
Variable A : arith T V.
Variable O : sops V.
Variable size : nat.
Notation quantum := (list (chan V)).
Lemma scale_ok : forall gain samples i, gain <> [] -> scale A gain i samples = Ok (map (fun p => v_mul A (snd p) (nth (fst p mod length gain) gain (s_zero O))) (combine (seq i (length samples)) samples)).
Proof.
  intros gain samples. induction samples as [|x samples IH]; intros i H; [reflexivity|]. cbn [scale length seq combine map fst snd]. assert (Hl : 0 < length gain) by (destruct gain; [contradiction|cbn; lia]). unfold index. rewrite (nth_error_nth' _ (s_zero O)) by (apply Nat.mod_upper_bound; lia). cbn [from_option bind]. rewrite IH by exact H. reflexivity.
Qed.
Lemma scale_nth : forall gain samples r, gain <> [] -> scale A gain 0 samples = Ok r -> length r = length samples /\ forall t, t < length samples -> nth t r (s_zero O) = v_mul A (nth t samples (s_zero O)) (nth (t mod length gain) gain (s_zero O)).
Proof.
  intros gain samples r H E. rewrite scale_ok in E by exact H. injection E as <-. assert (Lc : length (combine (seq 0 (length samples)) samples) = length samples) by (rewrite combine_length, seq_length; lia). split; [rewrite map_length; exact Lc|].
  intros t Ht. rewrite (nth_indep _ (s_zero O) ((fun p => v_mul A (snd p) (nth (fst p mod length gain) gain (s_zero O))) (0, s_zero O))) by (rewrite map_length; lia). rewrite (map_nth (fun p => v_mul A (snd p) (nth (fst p mod length gain) gain (s_zero O)))). rewrite combine_nth by apply seq_length. rewrite seq_nth by exact Ht. reflexivity.
Qed.
Lemma scale_channels_ok : forall gain q s, gain <> [] -> exists out, scale_channels A gain s q = Ok out /\ length out = length q /\
  forall c, c < length q -> length (c_val (nth c out (mk_chan 0 []))) = length (c_val (nth c q (mk_chan 0 []))) /\
    forall t, t < length (c_val (nth c q (mk_chan 0 []))) -> sample (s_zero O) out c t = v_mul A (sample (s_zero O) q c t) (nth (t mod length gain) gain (s_zero O)).
Proof.
  intros gain q. induction q as [|x q IH]; intros s H; [exists []; split; [reflexivity|]; split; [reflexivity|]; cbn [length]; lia|]. cbn [scale_channels]. pose proof (scale_ok gain (c_val x) 0 H) as E. destruct (scale A gain 0 (c_val x)) as [v| |] eqn:Ev; try discriminate. clear E. cbn [bind].
  destruct (IH (S s) H) as (out & E & L & P). rewrite E. cbn [bind]. eexists. split; [reflexivity|]. split; [cbn [length]; lia|]. destruct (scale_nth gain _ _ H Ev) as [Lv Pv]. intros [|c] Hc; cbn [nth c_val length] in *.
  - split; [exact Lv|]. intros t Ht. unfold sample. cbn [nth c_val]. apply Pv. exact Ht.
  - apply P. lia.
Qed.
(** the paths of the gain node *)
Definition near (g : V) (r : V) : bool := v_le A (v_abs A (v_sub A r g)) (v_frac A 1 1000000).
Lemma gain_paths : forall s input output gain, gain <> [] -> output <> [] -> Forall (fun c => length (c_val c) = size) input -> silent_zero O size input ->
  exists out, gain_quantum A O size s input output gain = Ok out /\
    forall c t, c < length input -> t < size -> let x := sample (s_zero O) input c t in let y := sample (s_zero O) out c t in let g := nth (t mod length gain) gain (s_zero O) in
      y = v_mul A x g \/ (x = s_zero O /\ y = s_zero O) \/
      (gain = [g] /\ v_le A (v_abs A g) (v_frac A 1 1000000) = true /\ y = s_zero O) \/
      (gain = [g] /\ v_le A (v_abs A (v_sub A (v_one A) g)) (v_frac A 1 1000000) = true /\ y = x).
Proof.
  intros s input output gain Hg Ho Hl Hz. unfold gain_quantum. destruct (is_silent input) eqn:S.
  { destruct output as [|o os]; [contradiction|]. eexists. split; [reflexivity|]. intros c t Hc Ht. cbv zeta. right. left. split; [apply (silent_sample O size); assumption|apply sample_silence]. }
  assert (Sc : exists out, scale_channels A gain s input = Ok out /\ forall c t, c < length input -> t < size -> sample (s_zero O) out c t = v_mul A (sample (s_zero O) input c t) (nth (t mod length gain) gain (s_zero O))).
  { destruct (scale_channels_ok gain input s Hg) as (out & E & _ & P). exists out. split; [exact E|]. intros c t Hc Ht. destruct (P c Hc) as [_ P2]. apply P2. rewrite Forall_forall in Hl. rewrite (Hl (nth c input (mk_chan 0 []))) by (apply nth_In; exact Hc). exact Ht. }
  destruct Sc as (sc & Es & Ps). destruct gain as [|g [|g2 gain]]; [contradiction| |].
  - assert (Em : forall t, nth (t mod length [g]) [g] (s_zero O) = g) by (intros t; cbn [length]; rewrite Nat.mod_1_r; reflexivity).
    destruct (v_le A (v_abs A g) (v_frac A 1 1000000)) eqn:E0.
    { destruct output as [|o os]; [contradiction|]. eexists. split; [reflexivity|]. intros c t Hc Ht. cbv zeta. rewrite Em. right. right. left. split; [reflexivity|]. split; [exact E0|apply sample_silence]. }
    destruct (v_le A (v_abs A (v_sub A (v_one A) g)) (v_frac A 1 1000000)) eqn:E1.
    { eexists. split; [reflexivity|]. intros c t Hc Ht. cbv zeta. rewrite Em. right. right. right. auto. }
    exists sc. split; [exact Es|]. intros c t Hc Ht. left. apply Ps; assumption.
  - exists sc. split; [exact Es|]. intros c t Hc Ht. left. apply Ps; assumption.
Qed.
End Gain.

Local Open Scope R_scope.

Lemma gain_exact : forall size s (input output : list (chan R)) gain, gain <> [] -> output <> [] -> Forall (fun c => length (c_val c) = size) input -> silent_zero (sops_of exact) size input ->
  exists out, gain_quantum exact (sops_of exact) size s input output gain = Ok out /\
    forall c t, (c < length input)%nat -> (t < size)%nat -> Rabs (sample 0 out c t - sample 0 input c t * nth (t mod length gain) gain 0) <= / 1000000 * Rabs (sample 0 input c t).
Proof.
  intros size s input output gain Hg Ho Hl Hz. destruct (gain_paths exact (sops_of exact) size s input output gain Hg Ho Hl Hz) as (out & E & P). exists out. split; [exact E|]. intros c t Hc Ht. specialize (P c t Hc Ht). cbv zeta in P. change (s_zero (sops_of exact)) with 0 in P.
  set (x := sample 0 input c t) in *. set (y := sample 0 out c t) in *. set (g := nth (t mod length gain) gain 0) in *. pose proof (Rabs_pos x).
  destruct P as [->|[[-> ->]|[(_ & Le & ->)|(_ & Le & ->)]]].
  - cbn [exact v_mul]. rewrite Rminus_eq_0, Rabs_R0. lra.
  - rewrite Rmult_0_l, Rminus_eq_0, Rabs_R0. lra.
  - cbn [exact v_le v_abs v_frac] in Le. unfold R_le in Le. destruct (Rle_dec (Rabs g) (1 / 1000000)) as [L|]; [|discriminate]. rewrite Rminus_0_l, Rabs_Ropp, Rabs_mult, Rmult_comm. apply Rmult_le_compat_r; [exact H|lra].
  - cbn [exact v_le v_abs v_frac v_sub] in Le. unfold R_le in Le. change (v_one exact) with 1 in Le. destruct (Rle_dec (Rabs (1 - g)) (1 / 1000000)) as [L|]; [|discriminate]. replace (x - x * g) with ((1 - g) * x) by ring. rewrite Rabs_mult. apply Rmult_le_compat_r; [exact H|lra].
Qed.

Definition threshold : f32 := f32_frac 1 1000000.
Lemma threshold_val : is_finite threshold = true /\ 0 < B2R threshold <= / 1000000.
Proof.
  assert (E : B2SF threshold = SpecFloat.S754_finite false 8796093 (-43)) by (vm_compute; reflexivity).
  assert (F : is_finite threshold = true) by (rewrite <- is_finite_SF_B2SF, E; reflexivity). split; [exact F|]. rewrite <- SF2R_B2SF, E. unfold SF2R, F2R. cbn [Fnum Fexp cond_Zopp]. change (bpow radix2 (-43)) with (/ 8796093022208). lra.
Qed.
Lemma f32_le_R : forall x y : f32, is_finite x = true -> is_finite y = true -> (f32_le x y = true <-> B2R x <= B2R y).
Proof. intros x y Fx Fy. rewrite <- (val_finite 24 128 x Fx), <- (val_finite 24 128 y Fy). apply (le_val 24 128); apply finite_not_nan; assumption. Qed.

Lemma near_one : forall g : f32, is_finite g = true -> f32_le (f32_abs (f32_sub (f32_of_Z 1) g)) threshold = true -> Rabs (1 - B2R g) <= / 1000000.
Proof.
  intros g F H. destruct threshold_val as [Ft Rt]. destruct (of_Z_exact 24 128 f32_prec f32_emax 1) as [E1 F1]; [lia|]. cbv zeta in E1, F1.
  change (binary_normalize 24 128 f32_prec f32_emax mode_NE 1 0 false) with (f32_of_Z 1) in *.
  assert (B : Rabs (B2R g) < bpow radix2 128) by apply (abs_B2R_lt_emax 24 128).
  pose proof (Bminus_correct 24 128 f32_prec f32_emax mode_NE (f32_of_Z 1) g F1 F) as C. rewrite E1 in C. cbn [round_mode] in C.
  destruct (Rle_or_lt (1 / 2) (B2R g)) as [Lo|Lo]; [destruct (Rle_or_lt (B2R g) 2) as [Hi|Hi]|].
  - assert (G : generic_format radix2 (SpecFloat.fexp 24 128) (1 - B2R g)).
    { replace (1 - B2R g) with (- (B2R g - 1)) by ring. apply generic_format_opp. apply (sterbenz radix2 (SpecFloat.fexp 24 128)); [apply generic_format_B2R|apply (format_int 24 128 f32_prec f32_emax 1); lia|lra]. }
    rewrite round_generic in C by (try apply valid_rnd_N; exact G). rewrite Rlt_bool_true in C.
    + destruct C as (C1 & C2 & _). change (Bminus mode_NE (f32_of_Z 1) g) with (f32_sub (f32_of_Z 1) g) in *. apply f32_le_R in H; [|rewrite is_finite_Babs; exact C2|exact Ft]. unfold f32_abs in H. rewrite B2R_Babs, C1 in H. lra.
    + apply Rle_lt_trans with 1; [apply Rabs_le; lra|]. change 1 with (bpow radix2 0). apply bpow_lt. lia.
  - exfalso. assert (Rr : round radix2 (SpecFloat.fexp 24 128) ZnearestE (1 - B2R g) <= -1). { rewrite <- (round_generic radix2 (SpecFloat.fexp 24 128) ZnearestE (-1)) by (try apply valid_rnd_N; apply (format_int 24 128 f32_prec f32_emax (-1)); lia). apply round_le; [exact (fexp_valid 24 128 f32_prec)|apply valid_rnd_N|lra]. }
    destruct (Rlt_bool _ _) in C.
    + destruct C as (C1 & C2 & _). change (Bminus mode_NE (f32_of_Z 1) g) with (f32_sub (f32_of_Z 1) g) in *. apply f32_le_R in H; [|rewrite is_finite_Babs; exact C2|exact Ft]. unfold f32_abs in H. rewrite B2R_Babs, C1 in H. rewrite Rabs_left in H by lra. lra.
    + destruct C as (C1 & _). change (Bminus mode_NE (f32_of_Z 1) g) with (f32_sub (f32_of_Z 1) g) in *. destruct (f32_sub (f32_of_Z 1) g) as [| | |]; try discriminate C1. unfold f32_le, f32_abs in H. vm_compute in H. discriminate.
  - exfalso. assert (Rr : / 2 <= round radix2 (SpecFloat.fexp 24 128) ZnearestE (1 - B2R g)).
    { rewrite <- (round_generic radix2 (SpecFloat.fexp 24 128) ZnearestE (/ 2)) at 1; [|change (/ 2) with (bpow radix2 (-1)); apply generic_format_bpow; unfold SpecFloat.fexp, SpecFloat.emin; lia]. apply round_le; [exact (fexp_valid 24 128 f32_prec)|apply valid_rnd_N|lra]. }
    destruct (Rlt_bool _ _) in C.
    + destruct C as (C1 & C2 & _). change (Bminus mode_NE (f32_of_Z 1) g) with (f32_sub (f32_of_Z 1) g) in *. apply f32_le_R in H; [|rewrite is_finite_Babs; exact C2|exact Ft]. unfold f32_abs in H. rewrite B2R_Babs, C1 in H. rewrite Rabs_pos_eq in H by lra. lra.
    + destruct C as (C1 & _). change (Bminus mode_NE (f32_of_Z 1) g) with (f32_sub (f32_of_Z 1) g) in *. destruct (f32_sub (f32_of_Z 1) g) as [| | |]; try discriminate C1. unfold f32_le, f32_abs in H. vm_compute in H. discriminate.
Qed.

Lemma gain_ieee : forall M size s (input output : list (chan f32)) gain, gain <> [] -> output <> [] -> Forall (fun c => length (c_val c) = size) input -> silent_zero (sops_of (ieee M)) size input -> Forall (fun g => is_finite g = true) gain ->
  exists out, gain_quantum (ieee M) (sops_of (ieee M)) size s input output gain = Ok out /\
    forall c t, (c < length input)%nat -> (t < size)%nat -> let zero := f32_of_Z 0 in let x := sample zero input c t in let y := sample zero out c t in let g := nth (t mod length gain) gain zero in
      y = f32_mul x g \/ Rabs (B2R y - B2R x * B2R g) <= / 1000000 * Rabs (B2R x).
Proof.
  intros M size s input output gain Hg Ho Hl Hz Hf. destruct (gain_paths (ieee M) (sops_of (ieee M)) size s input output gain Hg Ho Hl Hz) as (out & E & P). exists out. split; [exact E|]. intros c t Hc Ht. specialize (P c t Hc Ht). cbv zeta in *. change (s_zero (sops_of (ieee M))) with (f32_of_Z 0) in P.
  set (x := sample (f32_of_Z 0) input c t) in *. set (y := sample (f32_of_Z 0) out c t) in *. set (g := nth (t mod length gain) gain (f32_of_Z 0)) in *. pose proof (Rabs_pos (B2R x)).
  assert (Fg : is_finite g = true). { rewrite Forall_forall in Hf. apply Hf, nth_In, Nat.mod_upper_bound. destruct gain; [contradiction|discriminate]. }
  destruct P as [P|[[-> ->]|[(_ & Le & ->)|(_ & Le & ->)]]].
  - left. exact P.
  - right. change (B2R (f32_of_Z 0)) with 0. rewrite Rmult_0_l, Rminus_eq_0, Rabs_R0. lra.
  - right. destruct threshold_val as [Ft Rt]. change (f32_le (f32_abs g) threshold = true) in Le. apply f32_le_R in Le; [|rewrite is_finite_Babs; exact Fg|exact Ft]. unfold f32_abs in Le. rewrite B2R_Babs in Le. change (B2R (f32_of_Z 0)) with 0. rewrite Rminus_0_l, Rabs_Ropp, Rabs_mult, Rmult_comm. apply Rmult_le_compat_r; [exact H|lra].
  - right. change (f32_le (f32_abs (f32_sub (f32_of_Z 1) g)) threshold = true) in Le. apply (near_one g Fg) in Le. replace (B2R x - B2R x * B2R g) with ((1 - B2R g) * B2R x) by ring. rewrite Rabs_mult. apply Rmult_le_compat_r; [exact H|exact Le].
Qed.

Lemma gain_product : forall M size s (input output : list (chan f32)) gain, gain <> [] -> output <> [] -> Forall (fun c => length (c_val c) = size) input -> silent_zero (sops_of (ieee M)) size input -> is_silent input = false ->
  (length gain <> 1%nat \/ exists g, gain = [g] /\ is_finite g = true /\ / 1000000 < Rabs (B2R g) /\ / 1000000 < Rabs (1 - B2R g)) ->
  exists out, gain_quantum (ieee M) (sops_of (ieee M)) size s input output gain = Ok out /\ length out = length input /\
    forall c t, (c < length input)%nat -> (t < size)%nat -> let zero := f32_of_Z 0 in sample zero out c t = f32_mul (sample zero input c t) (nth (t mod length gain) gain zero).
Proof.
  intros M size s input output gain Hg Ho Hl Hz S H. destruct (scale_channels_ok (ieee M) (sops_of (ieee M)) gain input s Hg) as (out & E & L & P). exists out. split; [|split; [exact L|]].
  - unfold gain_quantum. rewrite S. destruct gain as [|g [|g2 gs]]; [contradiction| |exact E]. destruct H as [H|(g' & Eg & Fg & H0 & H1)]; [cbn [length] in H; lia|]. injection Eg as <-. destruct threshold_val as [Ft Rt].
    change (v_le (ieee M) (v_abs (ieee M) g) (v_frac (ieee M) 1 1000000)) with (f32_le (f32_abs g) threshold). change (v_le (ieee M) (v_abs (ieee M) (v_sub (ieee M) (v_one (ieee M)) g)) (v_frac (ieee M) 1 1000000)) with (f32_le (f32_abs (f32_sub (f32_of_Z 1) g)) threshold).
    destruct (f32_le (f32_abs g) threshold) eqn:E0. { exfalso. apply f32_le_R in E0; [|rewrite is_finite_Babs; exact Fg|exact Ft]. unfold f32_abs in E0. rewrite B2R_Babs in E0. lra. }
    destruct (f32_le (f32_abs (f32_sub (f32_of_Z 1) g)) threshold) eqn:E1; [|exact E]. exfalso. apply (near_one g Fg) in E1. lra.
  - intros c t Hc Ht. destruct (P c Hc) as [_ P2]. apply P2. rewrite Forall_forall in Hl. rewrite (Hl (nth c input (mk_chan 0%nat []))) by (apply nth_In; exact Hc). exact Ht.
Qed.
