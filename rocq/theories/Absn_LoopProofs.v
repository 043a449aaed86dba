(** Buffer sources with a loop, in exact arithmetic: the search for the position in the loop ends and
    no sample is read out of bounds, if the playback rate is not negative and the loop does not start
    after the last sample. *)
From Coq Require Import List Arith Bool ZArith Lia Reals Lra Psatz.
From Flocq Require Import Core.
From Verif Require Import Arith_Model Arith_Real Source_Model Absn_Model Absn_Spec Absn_ExactProofs Absn_SafetyProofs.
Import ListNotations.
Local Open Scope R_scope.

Section Loop.
Variable sr : R.
Hypothesis Hsr : 0 < sr.
Variable almost_equal : R -> R -> bool.
Variable almost_zero : R -> bool.
Notation A := exact.
Notation max := (t_MAX exact).

(** enough iterations *)
Definition ends {X} (f : nat -> res X) (x : X) : Prop := exists n0, forall n, (n0 <= n)%nat -> f n = Ok x.
Lemma ends_ok : forall X (x : X), ends (fun _ => Ok x) x.
Proof. intros X x. exists 0%nat. reflexivity. Qed.
Lemma ends_bind : forall X Y (f : nat -> res X) (g : nat -> X -> res Y) x y, ends f x -> ends (fun n => g n x) y -> ends (fun n => bind (f n) (g n)) y.
Proof. intros X Y f g x y [n1 H1] [n2 H2]. exists (Nat.max n1 n2). intros n Hn. rewrite H1 by lia. cbn [bind]. apply H2. lia. Qed.

Lemma steps : forall d x, 0 < d -> exists k, x < INR k * d.
Proof.
  intros d x H. exists (Z.to_nat (up (x / d))). destruct (archimed (x / d)) as [H1 _]. assert (x = x / d * d) by (field; lra).
  apply Rlt_le_trans with (IZR (up (x / d)) * d); [rewrite H0 at 1; apply Rmult_lt_compat_r; [exact H|exact H1]|]. apply Rmult_le_compat_r; [lra|]. rewrite INR_IZR_INZ. apply IZR_le. clear. lia.
Qed.
Lemma wrap_down_ends : forall ls le t, ls < le -> exists t', ends (fun n => wrap_down A ls le n t) t'.
Proof.
  intros ls le t H. assert (Hk : exists k, t - INR k * (le - ls) < le).
  { destruct (steps (le - ls) (t - le)) as [k Hk]; [lra|]. exists k. lra. }
  destruct Hk as [k Hk]. revert t Hk. induction k as [|k IH]; intros t Hk.
  - cbn [INR] in Hk. exists t. exists 0%nat. intros n _. destruct n; cbn [wrap_down]; cbn [exact t_le]; rewrite R_le_false by lra; reflexivity.
  - destruct (Rlt_dec t le) as [C|C]; [exists t; exists 0%nat; intros n _; destruct n; cbn [wrap_down]; cbn [exact t_le]; rewrite R_le_false by lra; reflexivity|].
    destruct (IH (t - (le - ls))) as (t' & n0 & Hn0); [rewrite S_INR in Hk; lra|]. exists t'. exists (S n0). intros n Hn. destruct n as [|n]; [lia|]. cbn [wrap_down]. cbn [exact t_le t_sub]. rewrite R_le_true by lra. apply Hn0. lia.
Qed.
Lemma wrap_up_ends : forall ls le t, ls < le -> exists t', ends (fun n => wrap_up A ls le n t) t'.
Proof.
  intros ls le t H. assert (Hk : exists k, ls <= t + INR k * (le - ls)).
  { destruct (steps (le - ls) (ls - t)) as [k Hk]; [lra|]. exists k. lra. }
  destruct Hk as [k Hk]. revert t Hk. induction k as [|k IH]; intros t Hk.
  - cbn [INR] in Hk. exists t. exists 0%nat. intros n _. destruct n; cbn [wrap_up]; cbn [exact t_lt]; rewrite R_lt_false by lra; reflexivity.
  - destruct (Rlt_dec t ls) as [C|C]; [|exists t; exists 0%nat; intros n _; destruct n; cbn [wrap_up]; cbn [exact t_lt]; rewrite R_lt_false by lra; reflexivity].
    destruct (IH (t + (le - ls))) as (t' & n0 & Hn0); [rewrite S_INR in Hk; lra|]. exists t'. exists (S n0). intros n Hn. destruct n as [|n]; [lia|]. cbn [wrap_up]. cbn [exact t_lt t_add t_sub]. rewrite R_lt_true by lra. apply Hn0. lia.
Qed.

Lemma loop_position_ends : forall ls le p, ls < le -> exists p', ends (fun n => loop_position A almost_equal n ls le p) p' /\ p_started p' = p_started p /\ p_start p' = p_start p.
Proof.
  intros ls le p H. unfold loop_position. cbv zeta. set (t := if almost_equal _ ls then ls else _). set (entered := p_entered p || _ || _). clearbody t entered. destruct entered.
  - destruct (wrap_down_ends ls le t H) as (t1 & E1). destruct (wrap_up_ends ls le t1 H) as (t2 & E2). eexists. split; [|split].
    + eapply ends_bind; [|apply ends_ok]. eapply ends_bind; [exact E1|exact E2].
    + reflexivity.
    + reflexivity.
  - eexists. split; [eapply ends_bind; [apply ends_ok|apply ends_ok]|]. split; reflexivity.
Qed.

Lemma slow_sample_ends : forall stop duration looping ls le rate bdur ratio len p time, (0 < len)%nat -> ls < le \/ looping = false ->
  exists p' o, ends (fun n => slow_sample A sr almost_equal almost_zero n stop duration looping ls le rate bdur ratio len p time) (p', o) /\ info_ok len o /\ sampled A p time p'.
Proof.
  intros stop duration looping ls le rate bdur ratio len p time Hlen Hl. unfold slow_sample. cbv zeta.
  set (p1 := if negb (p_started p) && almost_equal time (p_start p) then p_at p time else p).
  assert (H1 : p_started p1 = p_started p /\ p_time p1 = p_time p /\ (p_started p = true -> p_start p1 = p_start p) /\ (p_start p1 = time \/ p_start p1 = p_start p)).
  { unfold p1. destruct (p_started p) eqn:E; cbn [negb andb]; [auto|]. destruct (almost_equal _ _); cbn; rewrite ?E; auto. repeat split; auto. discriminate. }
  clearbody p1. set (p2 := if almost_equal (p_elapsed p1) duration then p_elapse p1 duration else p1).
  assert (H2 : p_started p2 = p_started p /\ p_time p2 = p_time p /\ (p_started p = true -> p_start p2 = p_start p) /\ (p_start p2 = time \/ p_start p2 = p_start p)).
  { unfold p2. destruct (almost_equal _ _); cbn; exact H1. }
  clearbody p2. clear H1 p1. destruct H2 as (S1 & T1 & B1 & C1).
  destruct (t_lt A time (p_start p2) || t_le A stop time || t_le A duration (p_elapsed p2)) eqn:G.
  - exists p2, None. split; [apply ends_ok|]. split; [exact I|]. unfold sampled. rewrite S1. split; [intros E; split; [exact E|exact T1]|]. split; [intros E; left; split; [exact E|apply B1; exact E]|]. intros _ _. exact C1.
  - apply orb_false_iff in G. destruct G as [G _]. apply orb_false_iff in G. destruct G as [G _].
    set (p3 := if p_started p2 then p2 else begin A looping ls le rate bdur p2 time).
    assert (H3 : p_started p3 = true /\ p_start p3 = p_start p2) by (unfold p3; destruct (p_started p2) eqn:E; [auto|split; reflexivity]). clearbody p3. destruct H3 as [S3 B3].
    assert (Lp : exists p3', ends (fun n => if looping then loop_position A almost_equal n ls le p3 else Ok p3) p3' /\ p_started p3' = true /\ p_start p3' = p_start p2).
    { destruct looping; [|exists p3; split; [apply ends_ok|auto]]. destruct Hl as [Hl|Hl]; [|discriminate]. destruct (loop_position_ends ls le p3 Hl) as (q & E & Q1 & Q2). exists q. rewrite Q1, Q2. auto. }
    destruct Lp as (p3' & Ep & S3' & B3').
    set (p4 := if almost_zero (p_time p3') then p_move p3' (t_zero A) else p3'). assert (H4 : p_started p4 = true /\ p_start p4 = p_start p2) by (unfold p4; destruct (almost_zero _); cbn; auto). destruct H4 as [S4 B4].
    do 2 eexists. split; [eapply ends_bind; [exact Ep|]; fold p4; apply ends_ok|]. clearbody p4. split.
    + destruct (t_le A (t_zero A) (p_time p4) && t_lt A (p_time p4) bdur); [|exact I]. set (j := t_to_Z A _). clearbody j. destruct (j <? Z.of_nat len)%Z eqn:E; [|exact I]. apply Z.ltb_lt in E. unfold info_ok. lia.
    + unfold sampled. cbn [p_elapse p_move p_started p_start]. rewrite S4, B4. split; [discriminate|]. split; [|discriminate]. intros _. destruct (p_started p) eqn:E; [left; split; [reflexivity|apply B1; reflexivity]|right]. split; [reflexivity|]. split; [exact G|exact C1].
Qed.

Lemma slow_samples_ends : forall (Q : nat -> @playback R -> Prop) stop duration looping ls le rate bdur ratio len block n i p, (0 < len)%nat -> ls < le \/ looping = false ->
  (forall j p p', (i <= j < i + n)%nat -> Q j p -> sampled A p (t_add A block (t_mul A (t_of_Z A (Z.of_nat j)) (dt A sr))) p' -> Q (S j) p') -> Q i p ->
  exists p' os, ends (fun m => slow_samples A sr almost_equal almost_zero m stop duration looping ls le rate bdur ratio len n i p block) (p', os) /\ Forall (info_ok len) os /\ Q (i + n)%nat p'.
Proof.
  intros Q stop duration looping ls le rate bdur ratio len block n. induction n as [|n IH]; intros i p Hlen Hl HQ Hp; cbn [slow_samples].
  - exists p, []. rewrite Nat.add_0_r. split; [apply ends_ok|auto].
  - destruct (slow_sample_ends stop duration looping ls le rate bdur ratio len p (t_add A block (t_mul A (t_of_Z A (Z.of_nat i)) (dt A sr))) Hlen Hl) as (p' & o & E & Ho & Hs).
    destruct (IH (S i) p' Hlen Hl) as (p2 & os & E2 & Hos & Hp2); [intros j q q' Hj; apply HQ; lia|apply (HQ i p p'); [lia|exact Hp|exact Hs]|].
    do 2 eexists. split; [eapply ends_bind; [exact E|]; cbn [fst snd]; eapply ends_bind; [exact E2|apply ends_ok]|]. cbn [fst snd]. split; [constructor; assumption|]. replace (i + S n)%nat with (S i + n)%nat by lia. exact Hp2.
Qed.

Lemma interpolate_loop_safe : forall looping ls le prate ch o, info_ok (length ch) o -> 0 <= prate -> 0 <= ls -> ls * sr <= INR (length ch) - 1 -> exists v, interpolate A sr almost_equal looping ls le prate ch o = Ok v.
Proof.
  intros looping ls le prate ch [[i k]|] H Hp H0 Hls; [|eexists; reflexivity]. destruct looping; [|apply interpolate_safe; exact H]. cbn in H. unfold interpolate. destruct (nth_error ch i) as [x|] eqn:E; [|apply nth_error_None in E; lia].
  unfold index at 1. rewrite E. cbn [from_option bind]. destruct (nth_error ch (i + 1)) eqn:E1; [cbn [bind]; eexists; reflexivity|].
  unfold t_zero. cbn [exact t_le t_of_Z t_mul t_of_v t_eq t_floor t_to_Z]. rewrite R_le_true by lra. set (y := ls * sr) in *. assert (Y0 : 0 <= y) by (apply Rmult_le_pos; lra).
  assert (Hj : forall j, (j <= Zceil y)%Z -> (0 <= j)%Z -> exists v, (do v <- index_Z ch j; Ok v) = Ok (v : R)).
  { intros j Hj Hj0. assert (Hc : (Zceil y <= Z.of_nat (length ch) - 1)%Z). { apply Zceil_glb. rewrite minus_IZR, <- INR_IZR_INZ. exact Hls. }
    unfold index_Z. replace (j <? Z.of_nat (length ch))%Z with true by (symmetry; apply Z.ltb_lt; lia). unfold index. destruct (nth_error ch (Z.to_nat j)) eqn:En; [cbn; eexists; reflexivity|]. apply nth_error_None in En. lia. }
  assert (T0 : (0 <= R_to_Z y)%Z /\ R_to_Z y = Zfloor y). { unfold R_to_Z. rewrite Ztrunc_floor by lra. assert (0 <= Zfloor y)%Z by (apply Zfloor_lub; lra). split; lia. }
  destruct T0 as [T0 T1]. unfold R_eq. destruct (Req_EM_T _ _) as [Eq|Ne].
  - destruct (Hj (R_to_Z y)) as (v & Ev); [rewrite T1; apply le_IZR; eapply Rle_trans; [apply Zfloor_lb|apply Zceil_ub]|exact T0|]. destruct (index_Z ch (R_to_Z y)); try discriminate. cbn [bind]. eexists; reflexivity.
  - destruct (Hj (R_to_Z y + 1)%Z) as (v & Ev); [rewrite T1, (Zceil_floor_neq y) by exact Ne; lia|lia|]. destruct (index_Z ch (R_to_Z y + 1)); try discriminate. cbn [bind]. eexists; reflexivity.
Qed.

Lemma slow_track_ends : forall (Q : nat -> @playback R -> Prop) s b L block rate prate, shape b L -> (0 < L)%nat -> b_rate b = sr -> 0 <= prate -> a_lstart s * sr <= INR L - 1 ->
  (forall j p p', (j < 128)%nat -> Q j p -> sampled A p (t_add A block (t_mul A (t_of_Z A (Z.of_nat j)) (dt A sr))) p' -> Q (S j) p') ->
  Q 0%nat (a_play s) -> Q 0%nat (p_enter (a_play s) false) -> forall ratio,
  exists p' chs, ends (fun n => slow_track A sr almost_equal almost_zero n s b block rate prate ratio) (with_play s p', chs) /\ Q 128%nat p'.
Proof.
  intros Q s b L block rate prate Hb HL Hr Hp Hls HQ H1 H2 ratio. unfold slow_track. cbv zeta. rewrite (shape_length b L Hb).
  set (default := negb _). set (ls := if a_loop s then if default then t_zero A else a_lstart s else t_zero A). set (le := if a_loop s then if default then b_duration A b else a_lend s else t_zero A).
  assert (Hd : 0 < b_duration A b). { unfold b_duration. rewrite (shape_length b L Hb), Hr. cbn [exact t_div t_of_Z t_of_v]. rewrite <- INR_IZR_INZ. apply Rdiv_lt_0_compat; [apply lt_0_INR; exact HL|exact Hsr]. }
  assert (Bounds : (ls < le \/ a_loop s = false) /\ 0 <= ls /\ ls * sr <= INR L - 1).
  { assert (1 <= INR L) by (change 1 with (INR 1); apply le_INR; lia). unfold ls, le, t_zero. destruct (a_loop s); cbn [exact t_of_Z]; [|split; [right; reflexivity|lra]]. destruct default eqn:D; [split; [left; exact Hd|lra]|].
    unfold default in D. apply negb_false_iff in D. apply andb_true_iff in D. destruct D as [D D3]. apply andb_true_iff in D. destruct D as [D1 D2]. unfold t_zero in D1, D2. cbn [exact t_le t_lt t_of_Z] in D1, D2, D3. unfold R_le in D1. unfold R_lt in D2, D3. destruct (Rle_dec _ _); [|discriminate]. destruct (Rlt_dec 0 _); [|discriminate]. destruct (Rlt_dec (a_lstart s) _); [|discriminate]. split; [left; assumption|lra]. }
  destruct Bounds as (B1 & B2 & B3). clearbody ls le. set (p := if a_loop s then a_play s else p_enter (a_play s) false). assert (Hp0 : Q 0%nat p) by (unfold p; destruct (a_loop s); assumption). clearbody p.
  destruct (slow_samples_ends Q (a_stop s) (a_duration s) (a_loop s) ls le rate (b_duration A b) ratio L block RQ 0 p HL B1) as (p' & os & E & Hos & Hp'); [intros j q q' Hj; apply HQ; unfold RQ in Hj; lia|exact Hp0|].
  match goal with |- context [map_res (fun ch => map_res (?g ch) _) (b_channels b)] => destruct (map_res_exists _ _ (fun ch => map_res (g ch) os) (b_channels b)) as (chs & Ec) end.
  - intros ch Hin. apply map_res_exists. intros o Ho. destruct Hb as [_ F]. rewrite Forall_forall in F, Hos. apply interpolate_loop_safe; try assumption; rewrite (F ch Hin); [apply Hos; exact Ho|exact B3].
  - exists p', chs. split; [|exact Hp']. eapply ends_bind; [exact E|]. cbn [fst snd]. eapply ends_bind; [exists 0%nat; intros n _; exact Ec|apply ends_ok].
Qed.

Lemma fast_samples_safe : forall looping ch L n index start offset lp, length ch = L -> (0 < L)%nat -> exists r, fast_samples A looping ch L n index start offset lp = Ok r.
Proof.
  intros looping ch L n. induction n as [|n IH]; intros index start offset lp Hl HL; [eexists; reflexivity|]. cbn [fast_samples].
  destruct (Nat.ltb_spec (start + index - offset) L) as [C|C].
  - unfold Common_Model.index. rewrite (nth_error_nth' ch 0) by lia. cbn [from_option bind]. destruct (IH (S index) start offset lp Hl HL) as (r & E). rewrite E. cbn [bind]. eexists; reflexivity.
  - destruct looping.
    + unfold Common_Model.index. rewrite (nth_error_nth' ch 0) by lia. cbn [from_option bind]. destruct (IH (S index) 0%nat index (Some index) Hl HL) as (r & E). rewrite E. cbn [bind]. eexists; reflexivity.
    + destruct (IH (S index) start offset lp Hl HL) as (r & E). rewrite E. cbn [bind]. eexists; reflexivity.
Qed.
Lemma fast_channels_safe : forall looping L start chs lp, Forall (fun ch => length ch = L) chs -> (0 < L)%nat -> exists r, fast_channels A looping L start chs lp = Ok r.
Proof.
  intros looping L start. induction chs as [|ch chs IH]; intros lp H HL; [eexists; reflexivity|]. apply Forall_cons_iff in H. destruct H as [H1 H2]. cbn [fast_channels].
  destruct (fast_samples_safe looping ch L RQ 0 start 0 lp H1 HL) as (r & E). rewrite E. cbn [bind]. destruct (IH (snd r) H2 HL) as (r' & E'). rewrite E'. cbn [bind]. eexists; reflexivity.
Qed.

Lemma rem_nonneg : forall x y, 0 <= x -> 0 < y -> 0 <= x - y * IZR (Ztrunc (x / y)).
Proof.
  intros x y Hx Hy. assert (Hq : 0 <= x / y) by (apply Rmult_le_pos; [lra|left; apply Rinv_0_lt_compat; lra]). rewrite Ztrunc_floor by exact Hq. pose proof (Zfloor_lb (x / y)).
  assert (y * IZR (Zfloor (x / y)) <= y * (x / y)) by (apply Rmult_le_compat_l; lra). replace (y * (x / y)) with x in H0 by (field; lra). lra.
Qed.

Lemma fast_loop_safe : forall s b f L, shape b L -> (0 < L)%nat -> b_rate b = sr -> 0 <= p_time (a_play s) -> exists time elapsed chs, 0 <= time /\
  fast_track A sr s b (frame_at sr f) (frame_at sr 128) = Ok (with_play s (p_elapse (p_move (if R_eq (p_start (a_play s)) (frame_at sr f) then p_begin (a_play s) else a_play s) time) elapsed), chs).
Proof.
  intros s b f L Hb HL Hr Ht. unfold fast_track. cbv zeta. cbn [exact t_eq]. set (e := R_eq _ _). clearbody e. assert (Ep : p_time (if e then p_begin (a_play s) else a_play s) = p_time (a_play s)) by (destruct e; reflexivity). rewrite Ep, (shape_length b L Hb).
  assert (Hd : b_duration A b = INR L / sr). { unfold b_duration. rewrite (shape_length b L Hb), Hr. cbn [exact t_div t_of_Z t_of_v]. rewrite <- INR_IZR_INZ. reflexivity. }
  assert (Hd0 : 0 < INR L / sr) by (apply Rdiv_lt_0_compat; [apply lt_0_INR; exact HL|exact Hsr]). rewrite Hd. cbn [exact t_lt t_add t_to_Z t_round t_mul t_of_v t_rem t_div t_of_Z].
  assert (F128 : 0 < frame_at sr 128) by (unfold frame_at; apply Rdiv_lt_0_compat; lra). set (x := p_time (a_play s)) in *. unfold R_lt. destruct (Rlt_dec _ _) as [C|C].
  - destruct Hb as [_ HF]. destruct (fast_channels_safe (a_loop s) L (Z.to_nat (R_to_Z (R_round (x * sr)))) (b_channels b) None HF HL) as ((chs & lp) & E). rewrite E. cbn [bind fst snd]. do 3 eexists. split; [|reflexivity].
    destruct lp as [k|]; [|lra]. apply rem_nonneg; [|exact Hd0]. apply Rmult_le_pos; [apply (IZR_le 0); lia|left; apply Rinv_0_lt_compat; exact Hsr].
  - assert (Hi : (Z.to_nat (R_to_Z (R_round (x * sr))) + 128 <= L)%nat).
    { assert (Hx : 0 <= x * sr) by (apply Rmult_le_pos; lra). assert (Hy : x * sr <= INR L - 128).
      { assert ((x + frame_at sr 128) * sr <= INR L / sr * sr) by (apply Rmult_le_compat_r; lra). unfold frame_at in H. replace ((x + 128 / sr) * sr) with (x * sr + 128) in H by (field; lra). replace (INR L / sr * sr) with (INR L) in H by (field; lra). lra. }
      unfold R_round. destruct (Rle_dec 0 (x * sr)); [|lra]. unfold R_to_Z. rewrite Ztrunc_IZR. assert (Hz : (Zfloor (x * sr + / 2) <= Z.of_nat L - 128)%Z). { apply Z.lt_succ_r. apply lt_IZR. rewrite succ_IZR, minus_IZR, <- INR_IZR_INZ. pose proof (Zfloor_lb (x * sr + / 2)). lra. }
      assert (128 <= Z.of_nat L)%Z. { apply Z.lt_succ_r. apply lt_IZR. rewrite succ_IZR, <- INR_IZR_INZ. lra. } lia. }
    set (i := Z.to_nat _) in *. clearbody i. destruct Hb as [_ HF]. rewrite Forall_forall in HF. destruct (map_res_exists _ _ (fun ch => slice ch i (i + RQ)) (b_channels b)) as (chs & E).
    { intros ch Hin. unfold slice, RQ. rewrite (HF ch Hin). replace (i <=? i + 128)%nat with true by (symmetry; apply Nat.leb_le; lia). replace (i + 128 <=? L)%nat with true by (symmetry; apply Nat.leb_le; lia). eexists; reflexivity. }
    rewrite E. cbn [bind fst snd]. do 3 eexists. split; [|reflexivity]. lra.
Qed.

Variable Lmin : nat.
Hypothesis HLmin : (0 < Lmin)%nat.
Definition sound_buffer (b : @buffer R) : Prop := b_rate b = sr /\ exists L, shape b L /\ (Lmin <= L)%nat.
Record nicex (s : @absn R R) (f : Z) (given : bool) : Prop := {
  x_buffer : forall b, a_buffer s = Some b -> sound_buffer b;
  x_ls : a_lstart s * sr <= INR Lmin - 1;
  x_given : given = false -> p_start (a_play s) = max /\ p_started (a_play s) = false;
  x_fresh : p_started (a_play s) = false -> p_time (a_play s) = 0;
  x_started : p_started (a_play s) = true -> p_start (a_play s) < frame_at sr f;
  x_aligned : a_aligned s = true -> p_started (a_play s) = true /\ 0 <= p_time (a_play s)
}.

Lemma nicex_mono : forall s f given, nicex s f given -> nicex s (f + 128) given.
Proof. intros s f given []. assert (frame_at sr f < frame_at sr (f + 128)) by (apply (frame_lt sr Hsr); lia). split; auto. intros H1. specialize (x_started0 H1). lra. Qed.
Lemma nicex_finished : forall s f given, nicex s f given -> nicex (finished s) f given.
Proof. intros s f given []. split; assumption. Qed.
Lemma nicex_clamp : forall s f given, nicex s f given -> nicex (clamp A s) f given.
Proof.
  intros s f given H. unfold clamp. destruct (a_buffer s) as [b|] eqn:E; [|exact H]. destruct H. split; cbn [a_play a_buffer a_aligned a_lstart]; try assumption; [rewrite <- E; assumption|].
  unfold t_zero. cbn [exact t_lt t_of_Z]. assert (1 <= INR Lmin) by (change 1 with (INR 1); apply le_INR; lia). unfold R_lt. destruct (Rlt_dec _ _); [lra|]. destruct (Rlt_dec _ _) as [C|C]; [|assumption].
  eapply Rle_trans; [|exact x_ls0]. apply Rmult_le_compat_r; lra.
Qed.

Lemma process_ends : forall s f given r d, nicex s f given -> (0 <= f)%Z -> 0 <= r -> frame_at sr (f + 128) <= max ->
  exists s' o, ends (fun n => absn_process A sr almost_equal almost_zero n s f r d) (s', o) /\ nicex s' (f + 128) given.
Proof.
  intros s f given r d N Hf Hr Hmax. unfold absn_process. cbv zeta. destruct (a_ended s); [do 2 eexists; split; [apply ends_ok|apply nicex_mono; exact N]|].
  destruct (_ && negb (t_eq A (p_start (a_play s)) (t_MAX A))); [do 2 eexists; split; [apply ends_ok|apply nicex_mono, nicex_finished; exact N]|].
  assert (Eblock : block_time A sr f = frame_at sr f) by reflexivity. rewrite Eblock. assert (Espan : t_mul A (dt A sr) (t_of_Z A (Z.of_nat RQ)) = frame_at sr 128) by (exact (span_exact sr)). rewrite Espan.
  assert (Enext : t_add A (frame_at sr f) (frame_at sr 128) = frame_at sr (f + 128)) by (cbn [exact t_add]; symmetry; apply frame_plus). rewrite Enext.
  destruct (t_le A (frame_at sr (f + 128)) (p_start (a_play s))) eqn:Hnext.
  { destruct (t_le A (a_stop s) (frame_at sr (f + 128))); do 2 eexists; (split; [apply ends_ok|]); [apply nicex_mono, nicex_finished|apply nicex_mono]; exact N. }
  destruct (a_buffer s) as [b|] eqn:Hbuf; [|do 2 eexists; split; [apply ends_ok|apply nicex_mono; exact N]].
  pose proof (x_buffer _ _ _ N b Hbuf) as (Rb & L & Hb & HL).
  assert (Hg : given = true). { destruct given; [reflexivity|]. destruct (x_given _ _ _ N eq_refl) as [E _]. rewrite E in Hnext. cbn [t_le exact] in Hnext. rewrite R_le_true in Hnext by exact Hmax. discriminate. }
  subst given. set (s1 := if negb (p_started (a_play s)) && t_lt A (p_start (a_play s)) (frame_at sr f) then with_play s (p_at (a_play s) (frame_at sr f)) else s).
  assert (N1 : nicex s1 f true).
  { unfold s1. destruct (negb (p_started (a_play s)) && _) eqn:E; [|auto]. apply andb_true_iff in E. destruct E as [E _]. apply negb_true_iff in E. destruct N. split; cbn [with_play a_play p_at p_start p_started p_time a_buffer a_aligned a_lstart]; auto; try discriminate. rewrite E. discriminate. }
  clearbody s1. clear N Hbuf Hnext s. rename s1 into s. rename N1 into N.
  set (rate := t_mul A _ _). set (prate := t_of_v A r). set (ratio := t_div A (t_of_v A (b_rate b)) (t_of_v A sr)). clearbody rate. assert (Hprate : 0 <= prate) by exact Hr. clearbody prate ratio.
  assert (Fresh : R_eq (p_start (a_play s)) (frame_at sr f) = true -> p_started (a_play s) = false).
  { unfold R_eq. destruct (Req_EM_T _ _) as [E|E]; [|discriminate]. intros _. destruct (p_started (a_play s)) eqn:C; [|reflexivity]. pose proof (x_started _ _ _ N C). lra. }
  assert (Fn : frame_at sr f < frame_at sr (f + 128)) by (apply (frame_lt sr Hsr); lia).
  assert (HLs : a_lstart s * sr <= INR L - 1) by (pose proof (x_ls _ _ _ N); pose proof (le_INR _ _ HL); lra).
  assert (Main : exists s' chs, ends (fun n => if decide A s b (frame_at sr f) (frame_at sr 128) rate ratio then fast_track A sr (with_aligned s (decide A s b (frame_at sr f) (frame_at sr 128) rate ratio)) b (frame_at sr f) (frame_at sr 128)
     else slow_track A sr almost_equal almost_zero n (with_aligned s (decide A s b (frame_at sr f) (frame_at sr 128) rate ratio)) b (frame_at sr f) rate prate ratio) (s', chs) /\ nicex s' (f + 128) true).
  { destruct (decide A s b (frame_at sr f) (frame_at sr 128) rate ratio) eqn:Hd.
    - unfold decide in Hd. apply andb_true_iff in Hd. destruct Hd as [Hd _]. apply andb_true_iff in Hd. destruct Hd as [Hd _]. apply andb_true_iff in Hd. destruct Hd as [Ha _].
      assert (Px : 0 <= p_time (a_play s) /\ (p_started (a_play s) = true \/ R_eq (p_start (a_play s)) (frame_at sr f) = true)).
      { cbn [exact t_eq] in Ha. destruct (R_eq (p_start (a_play s)) (frame_at sr f) && _) eqn:C.
        - apply andb_true_iff in C. destruct C as [C _]. rewrite (x_fresh _ _ _ N (Fresh C)). split; [lra|right; exact C].
        - destruct (x_aligned _ _ _ N Ha) as (P1 & P2). auto. }
      destruct Px as (Bx & St). destruct (fast_loop_safe (with_aligned s true) b f L Hb ltac:(lia) Rb Bx) as (time & elapsed & chs & Ht & E). cbn [with_aligned a_play] in E. do 2 eexists. split; [exists 0%nat; intros n _; exact E|].
      set (p := if R_eq _ _ then _ else _). assert (Hp : p_started p = true /\ p_start p = p_start (a_play s)). { unfold p. destruct (R_eq (p_start (a_play s)) (frame_at sr f)) eqn:C; [split; reflexivity|]. destruct St as [St|St]; [auto|discriminate]. } destruct Hp as [Hp1 Hp2].
      split; cbn [with_play with_aligned a_play a_buffer a_aligned a_lstart p_elapse p_move p_start p_started p_time].
      + exact (x_buffer _ _ _ N).
      + exact (x_ls _ _ _ N).
      + discriminate.
      + rewrite Hp1. discriminate.
      + intros _. rewrite Hp2. destruct St as [St|St]; [pose proof (x_started _ _ _ N St); lra|]. unfold R_eq in St. destruct (Req_EM_T _ _) as [C|C]; [lra|discriminate].
      + intros _. split; [exact Hp1|exact Ht].
    - destruct (slow_track_ends (fun j p => (p_started p = false -> p_time p = 0) /\ (p_started p = true -> p_start p < frame_at sr (f + 128)))
        (with_aligned s false) b L (frame_at sr f) rate prate Hb ltac:(lia) Rb Hprate HLs) with (ratio := ratio) as (p' & chs & E & Q2 & Q3).
      + intros j p p' Hj (P2 & P3) (W1 & W2 & W3). assert (Et : t_add A (frame_at sr f) (t_mul A (t_of_Z A (Z.of_nat j)) (dt A sr)) = frame_at sr (f + Z.of_nat j)) by (rewrite dt_exact'; exact (time_at sr f j)). rewrite Et in W2, W3.
        assert (Fj : frame_at sr (f + Z.of_nat j) < frame_at sr (f + 128)) by (apply (frame_lt sr Hsr); lia).
        destruct (p_started p') eqn:C.
        * split; [discriminate|intros _]. destruct (W2 eq_refl) as [[S0 ->]|(S0 & Lt & [E|E])]; [apply P3; exact S0|rewrite E; exact Fj|]. cbn [exact t_lt] in Lt. unfold R_lt in Lt. destruct (Rlt_dec _ _); [discriminate|lra].
        * destruct (W1 eq_refl) as [S0 T0]. split; [intros _; rewrite T0; apply P2; exact S0|discriminate].
      + cbn [with_aligned a_play]. split; [exact (x_fresh _ _ _ N)|]. intros H. pose proof (x_started _ _ _ N H). lra.
      + cbn [with_aligned a_play p_enter p_start p_started p_time]. split; [exact (x_fresh _ _ _ N)|]. intros H. pose proof (x_started _ _ _ N H). lra.
      + do 2 eexists. split; [exact E|]. split; cbn [with_play with_aligned a_play a_buffer a_aligned a_lstart]; auto; try discriminate; [exact (x_buffer _ _ _ N)|exact (x_ls _ _ _ N)]. }
  change (a_aligned (with_aligned s (decide A s b (frame_at sr f) (frame_at sr 128) rate ratio))) with (decide A s b (frame_at sr f) (frame_at sr 128) rate ratio).
  destruct Main as (s' & chs & E & N'). do 2 eexists. split; [eapply ends_bind; [exact E|apply ends_ok]|]. cbn [fst snd]. destruct (_ || _ || _); [apply nicex_finished|]; exact N'.
Qed.

Fixpoint loops (given : bool) (l : list (@absn_action R R)) : Prop :=
  match l with
  | [] => True
  | A_start _ _ _ :: l' => given = false /\ loops true l'
  | A_lstart t :: l' => t * sr <= INR Lmin - 1 /\ loops given l'
  | A_buffer b :: l' => sound_buffer b /\ loops given l'
  | A_quantum r _ :: l' => 0 <= r /\ loops given l'
  | _ :: l' => loops given l'
  end.

Lemma run_ends : forall l s f given, nicex s f given -> loops given l -> (0 <= f)%Z -> frame_at sr (f + 128 * Z.of_nat (absn_quanta l)) <= max ->
  exists s' os, ends (fun n => absn_run A sr almost_equal almost_zero n s f l) (s', (f + 128 * Z.of_nat (absn_quanta l))%Z, os) /\ length os = absn_quanta l.
Proof.
  induction l as [|a l IH]; intros s f given N P Hf He; [do 2 eexists; split; [cbn [absn_run absn_quanta]; exists 0%nat; intros n _; do 3 f_equal; lia|reflexivity]|]. cbn [loops] in P. destruct a; cbn [absn_run absn_quanta] in *.
  - destruct P as (-> & P). destruct (x_given _ _ _ N eq_refl) as [_ Ns]. eapply IH; [|exact P|exact Hf|exact He]. apply nicex_clamp. destruct N. split; cbn [a_play p_start p_started p_time a_buffer a_aligned a_lstart]; auto; try discriminate; rewrite Ns; discriminate.
  - eapply IH; [|exact P|exact Hf|exact He]. apply nicex_clamp. destruct N. split; cbn [a_play a_buffer a_aligned a_lstart]; assumption.
  - eapply IH; [|exact P|exact Hf|exact He]. apply nicex_clamp. destruct N. split; cbn [a_play a_buffer a_aligned a_lstart]; assumption.
  - destruct P as [Hls P]. eapply IH; [|exact P|exact Hf|exact He]. apply nicex_clamp. destruct N. split; cbn [a_play a_buffer a_aligned a_lstart]; assumption.
  - eapply IH; [|exact P|exact Hf|exact He]. apply nicex_clamp. destruct N. split; cbn [a_play a_buffer a_aligned a_lstart]; assumption.
  - destruct P as [Hb P]. eapply IH; [|exact P|exact Hf|exact He]. cbn [absn_message].
    assert (N' : nicex (mk_absn (a_play s) (a_stop s) (a_duration s) (Some b) (a_loop s) (a_lstart s) (a_lend s) (a_aligned s) (a_ended s)) f given).
    { destruct N. split; cbn [a_play a_buffer a_aligned a_lstart]; auto. intros b' E. injection E as <-. exact Hb. }
    destruct (a_buffer s); [exact N'|apply nicex_clamp; exact N'].
  - destruct P as [Hr P]. destruct (process_ends s f given playback_rate detune N Hf Hr) as (s' & o & E & N'); [eapply Rle_trans; [|exact He]; apply (frame_le sr Hsr); lia|].
    destruct (IH s' (f + 128)%Z given N' P) as (s2 & os & E2 & Len); [lia|replace (f + 128 + 128 * Z.of_nat (absn_quanta l))%Z with (f + 128 * Z.of_nat (S (absn_quanta l)))%Z by lia; exact He|].
    do 2 eexists. split; [eapply ends_bind; [exact E|]; cbn [fst snd]; change (Z.of_nat RQ) with 128%Z; eapply ends_bind; [exact E2|cbn [fst snd]; exists 0%nat; intros n _; do 3 f_equal; lia]|cbn [length]; rewrite Len; reflexivity].
Qed.

Lemma loop_run : forall l looping ls le, loops false l -> ls * sr <= INR Lmin - 1 -> frame_at sr (128 * Z.of_nat (absn_quanta l)) <= max ->
  exists n0 s os, length os = absn_quanta l /\ forall n, (n0 <= n)%nat -> absn_run A sr almost_equal almost_zero n (absn_new A looping ls le) 0 l = Ok (s, (128 * Z.of_nat (absn_quanta l))%Z, os).
Proof.
  intros l looping ls le P Hls He. destruct (run_ends l (absn_new A looping ls le) 0 false) as (s & os & (n0 & E) & Len); [|exact P|lia|exact He|].
  - split; cbn [absn_new a_play p_start p_started p_time a_buffer a_aligned a_lstart]; auto; discriminate.
  - exists n0, s, os. split; [exact Len|exact E].
Qed.
End Loop.
