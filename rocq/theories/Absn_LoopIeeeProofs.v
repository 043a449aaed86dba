(** Buffer sources with a loop, in floating point arithmetic: the search for the position in the loop
    ends and no sample is read out of bounds, if the playback rate is not negative and bounded, the loop
    is not too short and does not start after the last sample. *)
From Coq Require Import List Arith Bool ZArith Lia Reals Lra Psatz.
From Flocq Require Import Core BinarySingleNaN.
From Verif Require Import Arith_Model Source_Model Absn_Model Absn_Spec Float_Model Float_Proofs Float_BoundProofs Float_ErrorProofs Buffer_ResampleProofs Source_ClockProofs Osc_IeeeProofs Absn_ExactProofs Absn_IeeeProofs Absn_SafetyProofs Absn_LoopProofs Absn_LoopSpec.
Import ListNotations.
Local Open Scope R_scope.

(** a position: NaN, or finite and bounded *)
Definition pos (t : f64) (B : R) : Prop := is_nan t = true \/ (is_finite t = true /\ Rabs (B2R t) <= B).
Lemma pos_mono : forall t B B', pos t B -> B <= B' -> pos t B'.
Proof. intros t B B' [H|[H1 H2]] L; [left; exact H|right; split; [exact H1|lra]]. Qed.

Notation fmt := (generic_format radix2 (SpecFloat.fexp 53 1024)).
Lemma fmt_bpow : forall e, (-1000 <= e <= 1000)%Z -> fmt (bpow radix2 e).
Proof. intros e H. apply generic_format_bpow. unfold SpecFloat.fexp, SpecFloat.emin. lia. Qed.
Lemma fmt_0 : fmt 0.
Proof. apply generic_format_0. Qed.
Notation between := (rnd_between 53 1024 f64_prec).

Lemma rem_ieee : forall x y : f64, is_finite x = true -> is_finite y = true -> 0 <= B2R x -> 0 < B2R y -> is_finite (f64_rem x y) = true /\ 0 <= B2R (f64_rem x y) <= B2R x.
Proof.
  intros x y Fx Fy Px Py. assert (Fmx : fmt (B2R x)) by apply generic_format_B2R.
  destruct x as [sx|sx| |sx mx ex Hx]; try discriminate.
  - destruct y as [sy|sy| |sy my ey Hy]; try discriminate; [cbn in Py; lra|]. cbn [f64_rem]. split; [reflexivity|]. cbn. lra.
  - destruct y as [sy|sy| |sy my ey Hy]; try discriminate; [cbn in Py; lra|].
    assert (sx = false). { destruct sx; [|reflexivity]. cbn [B2R] in Px. pose proof (F2R_lt_0 radix2 (Float radix2 (cond_Zopp true (Zpos mx)) ex)) as H. cbn [Fnum cond_Zopp] in H. specialize (H eq_refl). cbn [cond_Zopp] in Px. unfold cond_Zopp in Px. lra. } subst sx.
    cbn [f64_rem]. cbv zeta. set (e := Z.min ex ey). set (a := (Z.pos mx * 2 ^ (ex - e))%Z). set (b := (Z.pos my * 2 ^ (ey - e))%Z).
    assert (Ha : (0 < a)%Z). { unfold a. assert (0 < 2 ^ (ex - e))%Z by (apply Z.pow_pos_nonneg; unfold e; lia). nia. }
    assert (Hb : (0 < b)%Z). { unfold b. assert (0 < 2 ^ (ey - e))%Z by (apply Z.pow_pos_nonneg; unfold e; lia). nia. }
    assert (Hm : (0 <= Z.rem a b <= a)%Z). { rewrite Z.rem_mod_nonneg by lia. pose proof (Z.mod_pos_bound a b Hb). split; [lia|]. apply Z.mod_le; lia. }
    assert (Ex : B2R (B754_finite false mx ex Hx : f64) = F2R (Float radix2 a e)).
    { cbn [B2R cond_Zopp]. unfold F2R. cbn [Fnum Fexp]. unfold a. rewrite mult_IZR. change 2%Z with (radix_val radix2) at 1. rewrite IZR_Zpower by (unfold e; lia). rewrite Rmult_assoc, <- bpow_plus. do 2 f_equal. unfold e. clear. lia. }
    assert (Hr : 0 <= F2R (Float radix2 (Z.rem a b) e) <= B2R (B754_finite false mx ex Hx : f64)).
    { rewrite Ex. split; [apply F2R_ge_0; cbn [Fnum]; lia|apply F2R_le; lia]. }
    pose proof (binary_normalize_correct 53 1024 f64_prec f64_emax mode_NE (Z.rem a b) e false) as C. cbn [round_mode] in C.
    pose proof (between 0 _ _ fmt_0 Fmx Hr) as Bt.
    rewrite Rlt_bool_true in C. 2:{ rewrite Rabs_pos_eq by lra. eapply Rle_lt_trans; [exact (proj2 Bt)|]. rewrite <- (Rabs_pos_eq (B2R _)) by exact Px. apply abs_B2R_lt_emax. }
    destruct C as (C1 & C2 & _). split; [exact C2|]. unfold f64 in *. rewrite C1. exact Bt.
Qed.

Lemma min_pos : forall (x y : f64) B, pos x B -> pos y B -> pos (f64_min x y) B.
Proof. intros x y B Hx Hy. unfold f64_min. destruct (f64_is_nan x); [exact Hy|]. destruct (f64_is_nan y); [exact Hx|]. destruct (f64_lt y x); assumption. Qed.
Lemma clamp_pos : forall (o d : f64) B, is_finite d = true -> 0 <= B2R d <= 524288 -> 524288 <= B -> pos (f64_min (f64_max o (f64_of_Z 0)) d) B.
Proof.
  intros o d B Fb Bb HB. destruct zero_val as [E0 F0]. set (z := f64_of_Z 0) in *. assert (Nz : is_nan z = false) by reflexivity. clearbody z.
  assert (H0 : pos z B) by (right; split; [exact F0|rewrite E0, Rabs_R0; lra]). assert (Hd : pos d B) by (right; split; [exact Fb|apply Rabs_le; lra]).
  unfold f64_max. change (f64_is_nan z) with (is_nan z). rewrite Nz. destruct (f64_is_nan o) eqn:No; [apply min_pos; assumption|]. destruct (f64_lt o z) eqn:Lo; [apply min_pos; assumption|].
  change (is_nan o = false) in No. unfold f64_min. change (f64_is_nan o) with (is_nan o). rewrite No. destruct (f64_is_nan d) eqn:Nb; [destruct d; discriminate|]. change (is_nan d = false) in Nb. destruct (f64_lt d o) eqn:Lb; [exact Hd|].
  right. apply lt_val_false in Lb; [|exact Nb|exact No]. apply lt_val_false in Lo; [|exact No|exact Nz]. rewrite (val_finite _ _ d Fb) in Lb. rewrite (val_finite _ _ _ F0), E0 in Lo. destruct o as [so|so| |so mo eo Ho]; try discriminate.
  - split; [reflexivity|]. cbn [B2R]. rewrite Rabs_R0. lra.
  - exfalso. assert (Hb : 524288 < bpow radix2 1024) by (change 524288 with (bpow radix2 19); apply bpow_lt; lia). destruct so; cbn [val] in Lo, Lb; lra.
  - split; [reflexivity|]. rewrite val_finite in Lo, Lb by reflexivity. apply Rabs_le. lra.
Qed.

(** reads of the looping fast track *)
Section Fast.
Context {T V : Type}.
Variable A : arith T V.
Lemma fast_samples_any : forall looping (ch : list V) L n index start offset lp, length ch = L -> (0 < L)%nat -> exists r, fast_samples A looping ch L n index start offset lp = Ok r.
Proof.
  intros looping ch L n. induction n as [|n IH]; intros index start offset lp Hl HL; [eexists; reflexivity|]. cbn [fast_samples].
  assert (Rd : forall i, (i < L)%nat -> exists v, Common_Model.index ch i = Ok v). { intros i Hi. unfold Common_Model.index. destruct (nth_error ch i) eqn:E; [eexists; reflexivity|]. apply nth_error_None in E. lia. }
  destruct (Nat.ltb_spec (start + index - offset) L) as [C|C].
  - destruct (Rd _ C) as (v & ->). cbn [bind]. destruct (IH (S index) start offset lp Hl HL) as (r & E). rewrite E. cbn [bind]. eexists; reflexivity.
  - destruct looping.
    + destruct (Rd 0%nat HL) as (v & ->). cbn [bind]. destruct (IH (S index) 0%nat index (Some index) Hl HL) as (r & E). rewrite E. cbn [bind]. eexists; reflexivity.
    + destruct (IH (S index) start offset lp Hl HL) as (r & E). rewrite E. cbn [bind]. eexists; reflexivity.
Qed.
Lemma fast_channels_any : forall looping L start (chs : list (list V)) lp, Forall (fun ch => length ch = L) chs -> (0 < L)%nat -> exists r, fast_channels A looping L start chs lp = Ok r.
Proof.
  intros looping L start. induction chs as [|ch chs IH]; intros lp H HL; [eexists; reflexivity|]. apply Forall_cons_iff in H. destruct H as [H1 H2]. cbn [fast_channels].
  destruct (fast_samples_any looping ch L RQ 0 start 0 lp H1 HL) as (r & E). rewrite E. cbn [bind]. destruct (IH (snd r) H2 HL) as (r' & E'). rewrite E'. cbn [bind]. eexists; reflexivity.
Qed.
End Fast.

Section Loop.
Variable M : libm.
Variable sr : f32.
Hypothesis Hsr : rate_ok sr.
Variable almost_equal : f64 -> f64 -> bool.
Variable almost_zero : f64 -> bool.
Notation A := (ieee M).
Let S : R := B2R (f64_of_f32 sr).
Let span : f64 := t_mul A (dt A sr) (t_of_Z A (Z.of_nat RQ)).
(** playback rates are at most 2^k *)
Variable k : Z.
Hypothesis Hk : (0 <= k <= 100)%Z.
Notation K := (bpow radix2 k).
Notation D := (bpow radix2 (k - 26)).
Notation Bmax := (bpow radix2 (k + 25)).

Record loop_ok (ls le : f64) : Prop := {
  lo_ls : is_finite ls = true; lo_le : is_finite le = true; lo_0 : 0 <= B2R ls; lo_max : B2R le <= 524288; lo_d : D <= B2R le - B2R ls
}.
Lemma K1 : 1 <= K.
Proof. change 1 with (bpow radix2 0). apply bpow_le. lia. Qed.
Lemma D_val : D = K * / 67108864.
Proof. unfold Z.sub. rewrite bpow_plus. reflexivity. Qed.
Lemma B_val : Bmax = K * 33554432.
Proof. rewrite bpow_plus. reflexivity. Qed.

Lemma length_ieee : forall ls le, loop_ok ls le -> is_finite (f64_sub le ls) = true /\ D <= B2R (f64_sub le ls) <= B2R le.
Proof.
  intros ls le []. pose proof (bpow_gt_0 radix2 (k - 26)) as D0. destruct (f64_sub_err le ls 19) as (F & E & _ & _); [assumption|assumption|apply eok; lia|apply Rabs_le; change (bpow radix2 19) with 524288; lra|].
  split; [exact F|]. rewrite E. apply between; [apply fmt_bpow; lia|apply generic_format_B2R|lra].
Qed.

Lemma wrap_down_ieee : forall ls le B t, loop_ok ls le -> 1048576 <= B <= Bmax -> pos t B -> exists t', ends (fun n => wrap_down A ls le n t) t' /\ pos t' B.
Proof.
  intros ls le B t H HB Ht. destruct (length_ieee ls le H) as (Fd & Dd). set (d := f64_sub le ls) in *. pose proof (bpow_gt_0 radix2 (k - 26)) as D0. destruct H as [Fs Fe H0 Hm Hd].
  destruct Ht as [N|[Ft Bt]].
  { exists t. split; [|left; exact N]. exists 0%nat. intros n _. destruct n; cbn [wrap_down]; change (t_le A le t) with (f64_le le t); (destruct (f64_le le t) eqn:E; [apply nan_le in E; destruct E; congruence|reflexivity]). }
  assert (Hn : exists n, B2R t - INR n * (D / 2) < B2R le). { destruct (steps (D / 2) (B2R t - B2R le)) as [n Hn]; [lra|]. exists n. lra. }
  destruct Hn as [n Hn]. revert t Ft Bt Hn. induction n as [|n IH]; intros t Ft Bt Hn.
  - cbn [INR] in Hn. exists t. split; [|right; split; assumption]. exists 0%nat. intros n _. assert (E : f64_le le t = false). { destruct (f64_le le t) eqn:E; [|reflexivity]. apply f64_le_R in E; try assumption. lra. }
    destruct n; cbn [wrap_down]; change (t_le A le t) with (f64_le le t); rewrite E; reflexivity.
  - destruct (f64_le le t) eqn:E.
    2:{ exists t. split; [|right; split; assumption]. exists 0%nat. intros m _. destruct m; cbn [wrap_down]; change (t_le A le t) with (f64_le le t); rewrite E; reflexivity. }
    pose proof E as E'. apply f64_le_R in E'; try assumption. apply Rabs_le_inv in Bt. assert (P0 : 0 <= B2R t - B2R d <= B2R t) by lra.
    destruct (f64_sub_err t d (k + 25)) as (F & Er & Ab & _); [exact Ft|exact Fd|apply eok; lia|rewrite Rabs_pos_eq by lra; lra|].
    assert (Bt' : 0 <= B2R (f64_sub t d) <= B2R t). { rewrite Er. apply between; [apply fmt_0|apply generic_format_B2R|exact P0]. }
    apply Rabs_le_inv in Ab. assert (Eb : bpow radix2 (k + 25 - 53) = D / 4). { replace (k + 25 - 53)%Z with (k - 26 + -2)%Z by lia. rewrite bpow_plus. change (bpow radix2 (-2)) with (/ 4). lra. } rewrite Eb in Ab.
    destruct (IH (f64_sub t d)) as (t' & (n0 & Hn0) & Pt'); [exact F|apply Rabs_le; lra|rewrite S_INR in Hn; lra|].
    exists t'. split; [|exact Pt']. exists (Datatypes.S n0). intros m Hm'. destruct m as [|m]; [lia|]. cbn [wrap_down]. change (t_le A le t) with (f64_le le t). rewrite E. change (t_sub A t (t_sub A le ls)) with (f64_sub t d). apply Hn0. lia.
Qed.

Lemma wrap_up_ieee : forall ls le B t, loop_ok ls le -> 1048576 <= B <= Bmax -> pos t B -> exists t', ends (fun n => wrap_up A ls le n t) t' /\ pos t' B.
Proof.
  intros ls le B t H HB Ht. destruct (length_ieee ls le H) as (Fd & Dd). set (d := f64_sub le ls) in *. pose proof (bpow_gt_0 radix2 (k - 26)) as D0. destruct H as [Fs Fe H0 Hm Hd].
  destruct Ht as [N|[Ft Bt]].
  { exists t. split; [|left; exact N]. exists 0%nat. intros n _. destruct n; cbn [wrap_up]; change (t_lt A t ls) with (f64_lt t ls); (destruct (f64_lt t ls) eqn:E; [apply nan_lt in E; destruct E; congruence|reflexivity]). }
  assert (Hn : exists n, B2R ls <= B2R t + INR n * (D / 2)). { destruct (steps (D / 2) (B2R ls - B2R t)) as [n Hn]; [lra|]. exists n. lra. }
  destruct Hn as [n Hn]. revert t Ft Bt Hn. induction n as [|n IH]; intros t Ft Bt Hn.
  - cbn [INR] in Hn. exists t. split; [|right; split; assumption]. exists 0%nat. intros n _. assert (E : f64_lt t ls = false). { destruct (f64_lt t ls) eqn:E; [|reflexivity]. apply f64_lt_R in E; try assumption. lra. }
    destruct n; cbn [wrap_up]; change (t_lt A t ls) with (f64_lt t ls); rewrite E; reflexivity.
  - destruct (f64_lt t ls) eqn:E.
    2:{ exists t. split; [|right; split; assumption]. exists 0%nat. intros m _. destruct m; cbn [wrap_up]; change (t_lt A t ls) with (f64_lt t ls); rewrite E; reflexivity. }
    pose proof E as E'. apply f64_lt_R in E'; try assumption. apply Rabs_le_inv in Bt. assert (P0 : B2R t <= B2R t + B2R d <= bpow radix2 20) by (change (bpow radix2 20) with 1048576; lra).
    destruct (f64_add_err t d (k + 25)) as (F & Er & Ab & _); [exact Ft|exact Fd|apply eok; lia|apply Rabs_le; change (bpow radix2 20) with 1048576 in P0; lra|].
    assert (Bt' : B2R t <= B2R (f64_add t d) <= bpow radix2 20). { rewrite Er. apply between; [apply generic_format_B2R|apply fmt_bpow; lia|exact P0]. } change (bpow radix2 20) with 1048576 in Bt'.
    apply Rabs_le_inv in Ab. assert (Eb : bpow radix2 (k + 25 - 53) = D / 4). { replace (k + 25 - 53)%Z with (k - 26 + -2)%Z by lia. rewrite bpow_plus. change (bpow radix2 (-2)) with (/ 4). lra. } rewrite Eb in Ab.
    destruct (IH (f64_add t d)) as (t' & (n0 & Hn0) & Pt'); [exact F|apply Rabs_le; lra|rewrite S_INR in Hn; lra|].
    exists t'. split; [|exact Pt']. exists (Datatypes.S n0). intros m Hm'. destruct m as [|m]; [lia|]. cbn [wrap_up]. change (t_lt A t ls) with (f64_lt t ls). rewrite E. change (t_add A t (t_sub A le ls)) with (f64_add t d). apply Hn0. lia.
Qed.

Lemma loop_position_ieee : forall ls le B p, loop_ok ls le -> 1048576 <= B <= Bmax -> pos (p_time p) B ->
  exists p', ends (fun n => loop_position A almost_equal n ls le p) p' /\ p_started p' = p_started p /\ p_start p' = p_start p /\ pos (p_time p') B.
Proof.
  intros ls le B p H HB Hp. unfold loop_position. cbv zeta. set (t := if almost_equal _ ls then ls else _). set (entered := p_entered p || _ || _).
  assert (Ht : pos t B). { assert (pos ls B /\ pos le B) as [P1 P2]. { destruct H. pose proof (bpow_gt_0 radix2 (k - 26)). split; right; (split; [assumption|apply Rabs_le; lra]). } unfold t. destruct (almost_equal _ ls); [exact P1|]. destruct (almost_equal _ le); assumption. }
  clearbody t entered. destruct entered.
  - destruct (wrap_down_ieee ls le B t H HB Ht) as (t1 & E1 & H1). destruct (wrap_up_ieee ls le B t1 H HB H1) as (t2 & E2 & H2). eexists. split; [|split; [|split]].
    + eapply ends_bind; [|apply ends_ok]. eapply ends_bind; [exact E1|exact E2].
    + reflexivity.
    + reflexivity.
    + exact H2.
  - eexists. split; [eapply ends_bind; [apply ends_ok|apply ends_ok]|]. repeat (split; [reflexivity|]). exact Ht.
Qed.

(** the position after [f] frames *)
Definition reach (f : Z) : R := 1048576 + 102 / 100 * K * (IZR f / S).
Definition step1 : R := 102 / 100 * K * / S.
Lemma reach_1 : forall f, reach (f + 1) = reach f + step1.
Proof. intros f. unfold reach, step1, Rdiv. rewrite plus_IZR. ring. Qed.
Lemma reach_max : forall f, early sr f -> 1048576 <= reach f /\ reach f + 128 * step1 <= Bmax.
Proof.
  intros f He. pose proof K1 as K1. pose proof (S_inv sr Hsr) as I. fold S in I. pose proof (early_time sr Hsr f He) as Et. fold S in Et. destruct He as [H0 He]. fold S in He.
  assert (E : reach f + 128 * step1 = 1048576 + 102 / 100 * K * (IZR (f + 128) / S)) by (unfold reach, step1, Rdiv; rewrite plus_IZR; ring). rewrite E, B_val. unfold reach. split; [nra|].
  assert (K * (IZR (f + 128) / S) <= K * 8388608) by (apply Rmult_le_compat_l; lra). nra.
Qed.
Lemma step1_pos : 0 < step1.
Proof. pose proof K1. pose proof (S_inv sr Hsr) as I. fold S in I. unfold step1. nra. Qed.
Lemma reach_mono : forall f g, (f <= g)%Z -> reach f <= reach g.
Proof. intros f g H. pose proof K1. pose proof (S_inv sr Hsr) as I. fold S in I. unfold reach. assert (IZR f / S <= IZR g / S) by (apply Rmult_le_compat_r; [lra|apply IZR_le; exact H]). nra. Qed.

(** one step of the playhead *)
Lemma advance : forall (t rate : f64) B, pos t B -> is_finite rate = true -> Rabs (B2R rate) <= K -> 0 <= B -> B + step1 <= Bmax ->
  pos (f64_add t (f64_mul (dt A sr) rate)) (B + step1).
Proof.
  intros t rate B Ht Fr Br B0 HB. destruct Ht as [N|[Ft Bt]]; [left; destruct t; try discriminate; reflexivity|right].
  destruct (dt_ieee M sr Hsr) as (Fd & Ad & Bd). fold S in Ad. change (bpow radix2 (-64)) with (/ 18446744073709551616) in Ad. apply Rabs_le_inv in Ad. pose proof (S_inv sr Hsr) as I. fold S in I. pose proof K1 as K1.
  assert (P : Rabs (B2R (dt A sr) * B2R rate) <= (/ S + / 18446744073709551616) * K). { rewrite Rabs_mult. rewrite (Rabs_pos_eq (B2R (dt A sr))) by lra. apply Rmult_le_compat; [lra|apply Rabs_pos|lra|exact Br]. }
  destruct (f64_mul_err (dt A sr) rate k) as (Fm & _ & Am & _); [exact Fd|exact Fr|apply eok; lia|eapply Rle_trans; [exact P|]; nra|].
  apply Rabs_le_inv in Am. assert (Eb : bpow radix2 (k - 53) = K * / 9007199254740992) by (unfold Z.sub; rewrite bpow_plus; reflexivity). rewrite Eb in Am. apply Rabs_le_inv in P.
  set (m := f64_mul (dt A sr) rate) in *. assert (Pm : Rabs (B2R m) <= (/ S + / 1000000000000000) * K) by (apply Rabs_le; nra). apply Rabs_le_inv in Pm. apply Rabs_le_inv in Bt.
  assert (St : (/ S + / 1000000000000000) * K + K * / 200000000 <= step1) by (unfold step1; nra).
  destruct (f64_add_err t m (k + 25)) as (F & _ & Ab & _); [exact Ft|exact Fm|apply eok; lia|apply Rabs_le; lra|]. split; [exact F|].
  apply Rabs_le_inv in Ab. assert (Eb2 : bpow radix2 (k + 25 - 53) = K * / 268435456) by (replace (k + 25 - 53)%Z with (k + -28)%Z by lia; rewrite bpow_plus; reflexivity). rewrite Eb2 in Ab. apply Rabs_le. nra.
Qed.

Definition played (j : Z) (p : @playback f64) : Prop := pos (p_time p) (reach j).

Lemma slow_sample_ieee : forall stop duration looping ls le rate bdur ratio len p time j, looping = false \/ loop_ok ls le -> is_finite bdur = true -> 0 <= B2R bdur <= 524288 ->
  is_finite rate = true -> Rabs (B2R rate) <= K -> 1048576 <= reach j -> reach j + step1 <= Bmax -> pos (p_time p) (reach j) ->
  exists p' o, ends (fun n => slow_sample A sr almost_equal almost_zero n stop duration looping ls le rate bdur ratio len p time) (p', o) /\ info_ok len o /\ sampled A p time p' /\ pos (p_time p') (reach (j + 1)).
Proof.
  intros stop duration looping ls le rate bdur ratio len p time j Hl Fb Bb Fr Br R0 R1 Hp. pose proof step1_pos as St. rewrite reach_1. set (B := reach j) in *. clearbody B. unfold slow_sample. cbv zeta.
  set (p1 := if negb (p_started p) && almost_equal time (p_start p) then p_at p time else p).
  assert (H1 : p_started p1 = p_started p /\ p_time p1 = p_time p /\ (p_started p = true -> p_start p1 = p_start p) /\ (p_start p1 = time \/ p_start p1 = p_start p)).
  { unfold p1. destruct (p_started p) eqn:E; cbn [negb andb]; [auto|]. destruct (almost_equal _ _); cbn; rewrite ?E; auto. repeat split; auto. discriminate. }
  clearbody p1. set (p2 := if almost_equal (p_elapsed p1) duration then p_elapse p1 duration else p1).
  assert (H2 : p_started p2 = p_started p /\ p_time p2 = p_time p /\ (p_started p = true -> p_start p2 = p_start p) /\ (p_start p2 = time \/ p_start p2 = p_start p)).
  { unfold p2. destruct (almost_equal _ _); cbn; exact H1. }
  clearbody p2. clear H1 p1. destruct H2 as (S1 & T1 & B1 & C1).
  destruct (t_lt A time (p_start p2) || t_le A stop time || t_le A duration (p_elapsed p2)) eqn:G.
  - exists p2, None. split; [apply ends_ok|]. split; [exact I|]. split; [|rewrite T1; eapply pos_mono; [exact Hp|lra]]. unfold sampled. rewrite S1. split; [intros E; split; [exact E|exact T1]|]. split; [intros E; left; split; [exact E|apply B1; exact E]|]. intros _ _. exact C1.
  - apply orb_false_iff in G. destruct G as [G _]. apply orb_false_iff in G. destruct G as [G _].
    set (p3 := if p_started p2 then p2 else begin A looping ls le rate bdur p2 time).
    assert (H3 : p_started p3 = true /\ p_start p3 = p_start p2 /\ pos (p_time p3) B).
    { unfold p3. destruct (p_started p2) eqn:E; [rewrite T1; auto|]. split; [reflexivity|]. split; [reflexivity|]. unfold begin. cbv zeta. cbn [p_time]. unfold t_zero. cbn [ieee t_add t_sub t_mul t_min t_max t_of_Z t_le t_lt].
      set (o := f64_add (p_offset p2) _). clearbody o. set (m := f64_min (f64_max o (f64_of_Z 0)) bdur).
      assert (Hm : pos m B) by (apply clamp_pos; [exact Fb|lra|lra]).
      clearbody m. destruct Hl as [-> | Hl]; [cbn [andb]; exact Hm|]. destruct Hl as [Q1 Q2 Q3 Q4 Q5]. pose proof (bpow_gt_0 radix2 (k - 26)).
      destruct (looping && _ && f64_lt le m); destruct (looping && _ && _); try exact Hm; right; (split; [assumption|apply Rabs_le; lra]). }
    clearbody p3. destruct H3 as (S3 & B3 & T3).
    assert (Lp : exists p3', ends (fun n => if looping then loop_position A almost_equal n ls le p3 else Ok p3) p3' /\ p_started p3' = true /\ p_start p3' = p_start p2 /\ pos (p_time p3') B).
    { destruct looping; [|exists p3; split; [apply ends_ok|auto]]. destruct Hl as [Hl|Hl]; [discriminate|]. destruct (loop_position_ieee ls le B p3 Hl) as (q & E & Q1 & Q2 & Q3); [lra|exact T3|]. exists q. rewrite Q1, Q2. auto. }
    destruct Lp as (p3' & Ep & S3' & B3' & T3').
    set (p4 := if almost_zero (p_time p3') then p_move p3' (t_zero A) else p3'). assert (H4 : p_started p4 = true /\ p_start p4 = p_start p2 /\ pos (p_time p4) B).
    { unfold p4. destruct (almost_zero _); cbn [p_move p_started p_start p_time]; repeat (split; [assumption|]); [|assumption]. right. destruct zero_val as [E0 F0]. split; [exact F0|]. change (t_zero A) with (f64_of_Z 0 : f64). rewrite E0, Rabs_R0. lra. }
    destruct H4 as (S4 & B4 & T4).
    do 2 eexists. split; [eapply ends_bind; [exact Ep|]; fold p4; apply ends_ok|]. clearbody p4. split; [|split].
    + destruct (t_le A (t_zero A) (p_time p4) && t_lt A (p_time p4) bdur); [|exact I]. set (i := t_to_Z A _). assert (0 <= i)%Z by apply usize_nonneg. clearbody i. destruct (i <? Z.of_nat len)%Z eqn:E; [|exact I]. apply Z.ltb_lt in E. unfold info_ok. lia.
    + unfold sampled. cbn [p_elapse p_move p_started p_start]. rewrite S4, B4. split; [discriminate|]. split; [|discriminate]. intros _. destruct (p_started p) eqn:E; [left; split; [reflexivity|apply B1; reflexivity]|right]. split; [reflexivity|]. split; [exact G|exact C1].
    + cbn [p_elapse p_move p_time]. apply advance; try assumption; lra.
Qed.

Lemma reach_in : forall f j, early sr f -> (j < 128)%nat -> 1048576 <= reach (f + Z.of_nat j) /\ reach (f + Z.of_nat j) + step1 <= Bmax.
Proof.
  intros f j He Hj. destruct (reach_max f He) as [R0 R1]. pose proof (reach_mono f (f + Z.of_nat j) ltac:(lia)). split; [lra|]. rewrite <- reach_1. pose proof (reach_mono (f + Z.of_nat j + 1) (f + 128) ltac:(lia)).
  assert (reach (f + 128) = reach f + 128 * step1) by (unfold reach, step1, Rdiv; rewrite plus_IZR; ring). lra.
Qed.

Lemma slow_samples_ieee : forall (Q : nat -> @playback f64 -> Prop) stop duration looping ls le rate bdur ratio len block f n i p, looping = false \/ loop_ok ls le -> is_finite bdur = true -> 0 <= B2R bdur <= 524288 ->
  is_finite rate = true -> Rabs (B2R rate) <= K -> early sr f -> (i + n <= 128)%nat ->
  (forall j p p', (i <= j < i + n)%nat -> Q j p -> sampled A p (t_add A block (t_mul A (t_of_Z A (Z.of_nat j)) (dt A sr))) p' -> Q (Datatypes.S j) p') -> Q i p -> pos (p_time p) (reach (f + Z.of_nat i)) ->
  exists p' os, ends (fun m => slow_samples A sr almost_equal almost_zero m stop duration looping ls le rate bdur ratio len n i p block) (p', os) /\ Forall (info_ok len) os /\ Q (i + n)%nat p' /\ pos (p_time p') (reach (f + Z.of_nat (i + n))).
Proof.
  intros Q stop duration looping ls le rate bdur ratio len block f n. induction n as [|n IH]; intros i p Hl Fb Bb Fr Br He Hi HQ Hp Ht; cbn [slow_samples].
  - exists p, []. rewrite Nat.add_0_r. split; [apply ends_ok|auto].
  - destruct (reach_in f i He ltac:(lia)) as [R0 R1].
    destruct (slow_sample_ieee stop duration looping ls le rate bdur ratio len p (t_add A block (t_mul A (t_of_Z A (Z.of_nat i)) (dt A sr))) (f + Z.of_nat i) Hl Fb Bb Fr Br R0 R1 Ht) as (p' & o & E & Ho & Hs & Ht').
    destruct (IH (Datatypes.S i) p' Hl Fb Bb Fr Br He) as (p2 & os & E2 & Hos & Hp2 & Ht2); [lia|intros j q q' Hj; apply HQ; lia|apply (HQ i p p'); [lia|exact Hp|exact Hs]|replace (f + Z.of_nat (Datatypes.S i))%Z with (f + Z.of_nat i + 1)%Z by lia; exact Ht'|].
    do 2 eexists. split; [eapply ends_bind; [exact E|]; cbn [fst snd]; eapply ends_bind; [exact E2|apply ends_ok]|]. cbn [fst snd]. split; [constructor; assumption|]. replace (i + Datatypes.S n)%nat with (Datatypes.S i + n)%nat by lia. split; assumption.
Qed.

Lemma interpolate_ieee : forall looping ls le prate ch o, info_ok (length ch) o -> f64_le (f64_of_Z 0) prate = true -> is_finite ls = true -> 0 <= B2R ls -> B2R ls * S <= INR (length ch) - 1 -> (Z.of_nat (length ch) <= 2 ^ 30)%Z ->
  exists v, interpolate A sr almost_equal looping ls le prate ch o = Ok v.
Proof.
  intros looping ls le prate ch [[i x]|] H Hp Fs H0 Hls HL; [|eexists; reflexivity]. destruct looping; [|apply interpolate_safe; exact H]. cbn in H. unfold interpolate. destruct (nth_error ch i) as [y|] eqn:E; [|apply nth_error_None in E; lia].
  unfold index at 1. rewrite E. cbn [from_option bind]. destruct (nth_error ch (i + 1)) eqn:E1; [cbn [bind]; eexists; reflexivity|].
  change (t_le A (t_zero A) prate) with (f64_le (f64_of_Z 0) prate). rewrite Hp. cbv zeta. change (t_mul A ls (t_of_v A sr)) with (f64_mul ls (f64_of_f32 sr)).
  pose proof (S_range sr Hsr) as Rg. fold S in Rg. assert (Y0 : 0 <= B2R ls * S) by (apply Rmult_le_pos; lra).
  destruct (mult_between 53 1024 f64_prec f64_emax ls (f64_of_f32 sr) 0 (Z.of_nat (length ch) - 1)) as (Fy & _ & By); [exact Fs|exact (S_finite sr Hsr)|lia|lia|fold S; rewrite minus_IZR, <- INR_IZR_INZ; lra|].
  change (Bmult mode_NE ls (f64_of_f32 sr)) with (f64_mul ls (f64_of_f32 sr)) in *. set (w := f64_mul ls (f64_of_f32 sr)) in *. clearbody w.
  change (t_eq A (t_floor A w) w) with (f64_eq (f64_floor w) w). change (t_to_Z A w) with (f64_to_usize w). destruct (floor_val 53 1024 f64_emax w) as [Ew Fw]. change (Bnearbyint mode_DN w) with (f64_floor w) in *.
  assert (T0 : f64_to_usize w = Zfloor (B2R w)). { rewrite f64_to_usize_val by exact Fy. rewrite Ztrunc_floor by lra. assert (0 <= Zfloor (B2R w))%Z by (apply Zfloor_lub; lra). assert (Zfloor (B2R w) <= Z.of_nat (length ch) - 1)%Z. { apply le_IZR. eapply Rle_trans; [apply Zfloor_lb|]. lra. } lia. }
  assert (G : forall j, (0 <= j <= Z.of_nat (length ch) - 1)%Z -> exists v, index_Z ch j = Ok v).
  { intros j Hj. unfold index_Z. replace (j <? Z.of_nat (length ch))%Z with true by (symmetry; apply Z.ltb_lt; lia). unfold index. destruct (nth_error ch (Z.to_nat j)) eqn:En; [cbn; eexists; reflexivity|]. apply nth_error_None in En. lia. }
  assert (F0 : (0 <= Zfloor (B2R w))%Z) by (apply Zfloor_lub; lra). rewrite T0. destruct (f64_eq (f64_floor w) w) eqn:Eq.
  - destruct (G (Zfloor (B2R w))) as (v & ->). { split; [exact F0|]. apply le_IZR. eapply Rle_trans; [apply Zfloor_lb|]. lra. } cbn [bind]. eexists; reflexivity.
  - destruct (G (Zfloor (B2R w) + 1)%Z) as (v & ->); [|cbn [bind]; eexists; reflexivity]. split; [lia|]. assert (Hlt : IZR (Zfloor (B2R w)) < B2R w).
    { destruct (Rle_lt_or_eq_dec _ _ (Zfloor_lb (B2R w))) as [C|C]; [exact C|]. exfalso. rewrite <- Ew in C. apply f64_eq_R in C; [congruence|rewrite Fw; exact Fy|exact Fy]. }
    assert (Zfloor (B2R w) < Z.of_nat (length ch) - 1)%Z by (apply lt_IZR; lra). lia.
Qed.

(** ** The conditions *)
Variables (lo : R) (hi : f64) (Lmin : nat).
Hypothesis Hlo : 0 <= lo.
Hypothesis Flo : lo * S <= INR Lmin - 1.
Hypothesis Fhi : is_finite hi = true.
Hypothesis Hhi : lo + D <= B2R hi.
Notation loop_buffer := (loop_buffer hi Lmin).
Notation start_ok := (start_ok lo).
Notation end_ok := (end_ok hi).
Notation looped := (looped M k lo hi Lmin).

Lemma lmin_pos : (0 < Lmin)%nat.
Proof. pose proof (S_range sr Hsr) as Rg. fold S in Rg. assert (0 <= lo * S) by (apply Rmult_le_pos; lra). destruct Lmin; [cbn in Flo; lra|lia]. Qed.

Lemma duration_ieee : forall b, loop_buffer b -> is_finite (b_duration A b) = true /\ 0 < B2R (b_duration A b) /\ B2R hi <= B2R (b_duration A b) <= 524288.
Proof.
  intros b (Rb & L & Hb & HLm & HL & Hd). destruct (rate_val (b_rate b) Rb) as [Fr Rr]. set (Sb := B2R (f64_of_f32 (b_rate b))) in *. unfold b_duration. rewrite (shape_length b L Hb). cbn [ieee t_div t_of_Z t_of_v].
  destruct (f64_of_Z_exact (Z.of_nat L)) as [E1 F1]; [lia|]. rewrite <- INR_IZR_INZ in E1. assert (N : 1 <= INR L <= 1073741824). { pose proof lmin_pos. split; [change 1 with (INR 1); apply le_INR; lia|rewrite INR_IZR_INZ; apply (IZR_le _ 1073741824); lia]. }
  assert (Iv : 1 / 768000 <= / Sb <= 1 / 3000) by (unfold Rdiv; rewrite !Rmult_1_l; split; apply Rinv_le; lra).
  assert (P : / 1048576 <= INR L / Sb <= 524288) by (unfold Rdiv; nra).
  destruct (f64_div_err (f64_of_Z (Z.of_nat L)) (f64_of_f32 (b_rate b)) 19) as (F & E & _ & _); [exact F1|fold Sb; lra|apply eok; lia|rewrite E1; fold Sb; rewrite Rabs_pos_eq by lra; change (bpow radix2 19) with 524288; lra|].
  split; [exact F|]. rewrite E, E1. fold Sb. assert (B1 := between (bpow radix2 (-20)) (bpow radix2 19) (INR L / Sb) (fmt_bpow (-20) ltac:(lia)) (fmt_bpow 19 ltac:(lia)) P). change (bpow radix2 (-20)) with (/ 1048576) in B1. change (bpow radix2 19) with 524288 in B1.
  split; [lra|]. split; [|lra]. destruct (between (B2R hi) (bpow radix2 19) (INR L / Sb)) as [H _]; [apply generic_format_B2R|apply fmt_bpow; lia|split; [exact Hd|exact (proj2 P)]|exact H].
Qed.

(** the clamped loop boundaries *)
Definition set_end (x : f64) : Prop := is_nan x = true \/ (is_finite x = true /\ B2R hi <= B2R x <= 524288).

Lemma clamp_start : forall d x : f64, is_finite d = true -> start_ok x -> start_ok (if f64_lt x (f64_of_Z 0) then f64_of_Z 0 else if f64_lt d x then d else x).
Proof.
  intros d x Fd Hx. destruct zero_val as [E0 F0]. destruct (f64_lt x (f64_of_Z 0)).
  - change (B2R (f64_of_Z 0 : f64) <= lo). rewrite E0. exact Hlo.
  - destruct (f64_lt d x) eqn:E; [|exact Hx]. assert (Nx : is_nan x = false) by (apply nan_lt in E; tauto). apply lt_val in E; [|apply finite_not_nan; exact Fd|exact Nx].
    assert (B2R d <= lo). { destruct x as [s|s| |s m e H]; try discriminate; [rewrite !val_finite in E by first [exact Fd|reflexivity]; cbn in Hx, E |- *; lra| |rewrite !val_finite in E by first [exact Fd|reflexivity]; cbn [Absn_LoopSpec.start_ok] in Hx; lra].
      cbn [Absn_LoopSpec.start_ok] in Hx. subst s. exfalso. pose proof (val_bound _ _ d Fd). cbn [val] in E. lra. }
    destruct d as [s|s| |s m e H']; try discriminate; exact H.
Qed.
Lemma clamp_end : forall d x : f64, is_finite d = true -> 0 < B2R d -> B2R hi <= B2R d <= 524288 -> end_ok x -> set_end (if f64_le x (f64_of_Z 0) || f64_lt d x then d else x).
Proof.
  intros d x Fd Pd Hd Hx. destruct zero_val as [E0 F0]. destruct (f64_le x (f64_of_Z 0) || f64_lt d x) eqn:E; [right; split; [exact Fd|lra]|]. apply orb_false_iff in E. destruct E as [E1 E2].
  destruct (is_nan x) eqn:N; [left; exact N|]. apply le_val_false in E1; [|exact N|reflexivity]. apply lt_val_false in E2; [|apply finite_not_nan; exact Fd|exact N]. rewrite (val_finite _ _ _ F0), E0 in E1. rewrite (val_finite _ _ d Fd) in E2.
  assert (Fx : is_finite x = true). { destruct x as [s|s| |s m e H]; try discriminate; try reflexivity. exfalso. pose proof (val_bound _ _ d Fd) as Hv. rewrite (val_finite _ _ d Fd) in Hv. destruct s; cbn [val] in E1, E2; lra. }
  rewrite (val_finite _ _ x Fx) in E1, E2. right. split; [exact Fx|]. destruct (Hx Fx); lra.
Qed.
Lemma set_end_ok : forall x, set_end x -> end_ok x.
Proof. intros x [N|[F H]] F'; [destruct x; discriminate|right; lra]. Qed.

Lemma slow_track_ieee : forall (Q : nat -> @playback f64 -> Prop) s b L f block rate prate ratio, loop_buffer b -> shape b L -> early sr f -> f64_le (f64_of_Z 0) prate = true -> is_finite rate = true -> Rabs (B2R rate) <= K ->
  start_ok (a_lstart s) -> set_end (a_lend s) ->
  (forall j p p', (j < 128)%nat -> Q j p -> sampled A p (t_add A block (t_mul A (t_of_Z A (Z.of_nat j)) (dt A sr))) p' -> Q (Datatypes.S j) p') ->
  Q 0%nat (a_play s) -> Q 0%nat (p_enter (a_play s) false) -> pos (p_time (a_play s)) (reach f) ->
  exists p' chs, ends (fun n => slow_track A sr almost_equal almost_zero n s b block rate prate ratio) (with_play s p', chs) /\ Q 128%nat p' /\ pos (p_time p') (reach (f + 128)).
Proof.
  intros Q s b L f block rate prate ratio Hlb Hb He Hp Fr Br Hs Hend HQ H1 H2 Ht. destruct (duration_ieee b Hlb) as (Fd & Pd & Bd). destruct Hlb as (Rb & L' & Hb' & HLm & HL & _).
  assert (EL : L' = L) by (rewrite <- (shape_length b L' Hb'); apply shape_length; exact Hb). subst L'. clear Hb'. unfold slow_track. cbv zeta. rewrite (shape_length b L Hb). pose proof (bpow_gt_0 radix2 (k - 26)) as D0. destruct zero_val as [E0 F0].
  set (default := negb _). set (ls := if a_loop s then if default then t_zero A else a_lstart s else t_zero A). set (le := if a_loop s then if default then b_duration A b else a_lend s else t_zero A).
  assert (Hlm : INR Lmin <= INR L) by (apply le_INR; exact HLm). pose proof (S_range sr Hsr) as Rg. fold S in Rg. assert (L1 : 0 <= lo * S) by (apply Rmult_le_pos; lra).
  assert (Zr : is_finite (t_zero A) = true /\ 0 <= B2R (t_zero A) /\ B2R (t_zero A) * S <= INR L - 1). { change (t_zero A) with (f64_of_Z 0 : f64). rewrite E0. split; [exact F0|]. lra. }
  assert (Bounds : (a_loop s = false \/ loop_ok ls le) /\ is_finite ls = true /\ 0 <= B2R ls /\ B2R ls * S <= INR L - 1).
  { unfold ls, le. destruct (a_loop s); [|split; [left; reflexivity|exact Zr]]. destruct default eqn:Df.
    - split; [right|exact Zr]. change (t_zero A) with (f64_of_Z 0 : f64). split; try assumption; rewrite ?E0; lra.
    - unfold default in Df. apply negb_false_iff in Df. apply andb_true_iff in Df. destruct Df as [Df D3]. apply andb_true_iff in Df. destruct Df as [D1 D2]. change (f64_le (f64_of_Z 0) (a_lstart s) = true) in D1. change (f64_lt (f64_of_Z 0) (a_lend s) = true) in D2. change (f64_lt (a_lstart s) (a_lend s) = true) in D3.
      destruct Hend as [N|[Fe Be]]; [apply nan_lt in D3; destruct D3; congruence|].
      assert (Fs : is_finite (a_lstart s) = true /\ B2R (a_lstart s) <= lo).
      { apply nan_le in D1 as Ns. destruct Ns as [_ Ns]. destruct (a_lstart s) as [x|x| |x m e H]; try discriminate; try (split; [reflexivity|exact Hs]). cbn [Absn_LoopSpec.start_ok] in Hs. subst x. exfalso. apply le_val in D1; [|reflexivity|reflexivity]. rewrite (val_finite _ _ _ F0), E0 in D1. cbn [val] in D1. pose proof (bpow_gt_0 radix2 1024). lra. }
      destruct Fs as [Fs Bs]. apply f64_le_R in D1; [|exact F0|exact Fs]. rewrite E0 in D1. split; [right; split; try assumption; lra|]. split; [exact Fs|]. split; [exact D1|]. assert (B2R (a_lstart s) * S <= lo * S) by (apply Rmult_le_compat_r; lra). lra. }
  destruct Bounds as (B1 & B2 & B3 & B4). clearbody ls le. set (p := if a_loop s then a_play s else p_enter (a_play s) false). assert (Hp0 : Q 0%nat p) by (unfold p; destruct (a_loop s); assumption). assert (Hp1 : pos (p_time p) (reach (f + Z.of_nat 0))) by (rewrite Z.add_0_r; unfold p; destruct (a_loop s); exact Ht). clearbody p.
  destruct (slow_samples_ieee Q (a_stop s) (a_duration s) (a_loop s) ls le rate (b_duration A b) ratio L block f RQ 0 p B1) as (p' & os & E & Hos & Hp' & Ht'); try assumption; [lra|unfold RQ; lia|intros j q q' Hj; apply HQ; unfold RQ in Hj; lia|].
  match goal with |- context [map_res (fun ch => map_res (?g ch) _) (b_channels b)] => destruct (map_res_exists _ _ (fun ch => map_res (g ch) os) (b_channels b)) as (chs & Ec) end.
  - intros ch Hin. apply map_res_exists. intros o Ho. destruct Hb as [_ Fc]. rewrite Forall_forall in Fc, Hos. apply interpolate_ieee; try assumption; rewrite (Fc ch Hin); [apply Hos; exact Ho|exact B4|exact HL].
  - exists p', chs. split; [|split; [exact Hp'|exact Ht']]. eapply ends_bind; [exact E|]. cbn [fst snd]. eapply ends_bind; [exists 0%nat; intros n _; exact Ec|apply ends_ok].
Qed.

Lemma fast_ieee : forall (s : @absn f64 f32) b f, loop_buffer b -> f64_eq (f64_div (f64_of_f32 (b_rate b)) (f64_of_f32 sr)) (f64_of_Z 1) = true -> (0 <= f)%Z ->
  is_finite (p_time (a_play s)) = true -> 0 <= B2R (p_time (a_play s)) <= 11 / 10 * (IZR f / S) -> IZR f / S <= 8388608 ->
  let p := if f64_eq (p_start (a_play s)) (block_time A sr f) then p_begin (a_play s) else a_play s in
  exists time chs, fast_track A sr s b (block_time A sr f) span = Ok (with_play s (p_elapse (p_move p time) (f64_add (p_elapsed p) span)), chs) /\ is_finite time = true /\ 0 <= B2R time <= 11 / 10 * (IZR (f + 128) / S).
Proof.
  intros s b f Hlb Hq Hf Fx Bx Et. destruct (duration_ieee b Hlb) as (Fd & Pd & Bd). destruct Hlb as (Rb & L & Hb & HLm & HL & _). pose proof lmin_pos as Lp. unfold fast_track. cbv zeta. change (t_eq A (p_start (a_play s)) (block_time A sr f)) with (f64_eq (p_start (a_play s)) (block_time A sr f)). set (e := f64_eq (p_start (a_play s)) (block_time A sr f)). clearbody e.
  assert (Ep : p_time (if e then p_begin (a_play s) else a_play s) = p_time (a_play s)) by (destruct e; reflexivity). rewrite Ep, (shape_length b L Hb).
  change (t_lt A) with f64_lt. change (t_add A) with f64_add. change (t_to_Z A) with f64_to_usize. change (t_round A) with f64_round. change (t_mul A) with f64_mul. change (t_of_v A) with f64_of_f32. change (t_div A) with f64_div. change (t_rem A) with f64_rem. change (t_of_Z A) with f64_of_Z.
  pose proof (S_inv sr Hsr) as I. pose proof (S_range sr Hsr) as Rg. fold S in I, Rg. assert (En : IZR (f + 128) / S = IZR f / S + 128 * / S) by (rewrite plus_IZR; unfold Rdiv; ring). assert (F0 : 0 <= IZR f / S) by (apply Rmult_le_pos; [apply (IZR_le 0); exact Hf|lra]).
  (* the position after the quantum *)
  assert (Next : is_finite (f64_add (p_time (a_play s)) span) = true /\ 0 <= B2R (f64_add (p_time (a_play s)) span) <= 11 / 10 * (IZR (f + 128) / S)).
  { destruct (span_ieee M sr Hsr) as (Fs & As). fold span S in Fs, As. apply Rabs_le_inv in As. change (bpow radix2 (-50)) with (/ 1125899906842624) in As. unfold Rdiv in As.
    destruct (f64_add_err (p_time (a_play s)) span 24) as (Fz & _ & Az & _); [exact Fx|exact Fs|apply eok; lia| |]. { rewrite Rabs_pos_eq by lra. change (bpow radix2 24) with 16777216. lra. }
    apply Rabs_le_inv in Az. change (bpow radix2 (24 - 53)) with (/ 536870912) in Az. split; [exact Fz|]. rewrite En.
    assert (B2R (p_time (a_play s)) <= B2R (f64_add (p_time (a_play s)) span)) by (apply rnd_grow; [exact Fx|exact Fs|lra|rewrite Rabs_pos_eq by lra; change (bpow radix2 24) with 16777216; lra]). lra. }
  destruct (f64_lt (b_duration A b) (f64_add (p_time (a_play s)) span)) eqn:C.
  - destruct Hb as [_ HF]. destruct (fast_channels_any A (a_loop s) L (Z.to_nat (f64_to_usize (f64_round (f64_mul (p_time (a_play s)) (f64_of_f32 sr))))) (b_channels b) None HF ltac:(lia)) as ((chs & lp) & E). rewrite E. cbn [bind fst snd].
    do 2 eexists. split; [reflexivity|]. destruct lp as [i|]; [|exact Next].
    destruct (f64_of_Z_exact (Z.of_nat (RQ - i))) as [Ei Fi]; [unfold RQ; lia|]. rewrite <- INR_IZR_INZ in Ei. assert (N : 0 <= INR (RQ - i) <= 128). { split; [apply pos_INR|]. rewrite INR_IZR_INZ. apply (IZR_le _ 128). unfold RQ. lia. }
    assert (Q : 0 <= INR (RQ - i) / S <= 128 * / S) by (unfold Rdiv; nra).
    destruct (f64_div_err (f64_of_Z (Z.of_nat (RQ - i))) (f64_of_f32 sr) 0) as (Fq & Eq & Aq & _); [exact Fi|fold S; lra|apply eok; lia|rewrite Ei; fold S; rewrite Rabs_pos_eq by lra; change (bpow radix2 0) with 1; lra|].
    rewrite Ei in Eq, Aq. fold S in Eq, Aq. change (bpow radix2 (0 - 53)) with (/ 9007199254740992) in Aq. apply Rabs_le_inv in Aq.
    assert (Pq : 0 <= B2R (f64_div (f64_of_Z (Z.of_nat (RQ - i))) (f64_of_f32 sr))). { rewrite Eq. destruct (between 0 (bpow radix2 0) (INR (RQ - i) / S)) as [H _]; [apply fmt_0|apply fmt_bpow; lia|change (bpow radix2 0) with 1; lra|exact H]. }
    destruct (rem_ieee _ (b_duration A b) Fq Fd Pq Pd) as [Fr Br]. split; [exact Fr|]. rewrite En. lra.
  - assert (Hx : 0 <= B2R (p_time (a_play s)) <= 10000000) by lra. pose proof (slice_safe M sr Hsr b L _ Hb Rb HL Hq Fx Hx C) as Hi. destruct Hb as [_ HF]. rewrite Forall_forall in HF. set (i := Z.to_nat _) in *. clearbody i.
    destruct (map_res_exists _ _ (fun ch => slice ch i (i + RQ)) (b_channels b)) as (chs & E).
    { intros ch Hin. unfold slice, RQ. rewrite (HF ch Hin). replace (i <=? i + 128)%nat with true by (symmetry; apply Nat.leb_le; lia). replace (i + 128 <=? L)%nat with true by (symmetry; apply Nat.leb_le; lia). eexists; reflexivity. }
    rewrite E. cbn [bind fst snd]. do 2 eexists. split; [reflexivity|exact Next].
Qed.

(** the state before the quantum at frame [f]; [given]: the start message has been handled *)
Record nicel (s : @absn f64 f32) (f : Z) (given : bool) : Prop := {
  l_buffer : forall b, a_buffer s = Some b -> loop_buffer b;
  l_ls : start_ok (a_lstart s);
  l_le : end_ok (a_lend s);
  l_set : a_buffer s <> None -> set_end (a_lend s);
  l_given : given = false -> p_start (a_play s) = f64_MAX /\ p_started (a_play s) = false;
  l_start : is_finite (p_start (a_play s)) = true;
  l_started : p_started (a_play s) = true -> B2R (p_start (a_play s)) + / 1000000 <= IZR f / S;
  l_fresh : p_started (a_play s) = false -> p_time (a_play s) = f64_of_Z 0;
  l_aligned : a_aligned s = true -> p_started (a_play s) = true /\ is_finite (p_time (a_play s)) = true /\ 0 <= B2R (p_time (a_play s)) <= 11 / 10 * (IZR f / S);
  l_pos : pos (p_time (a_play s)) (reach f)
}.

Lemma nicel_mono : forall s f given, nicel s f given -> nicel s (f + 128) given.
Proof.
  intros s f given []. pose proof (S_inv sr Hsr) as I. fold S in I. assert (E : IZR (f + 128) / S = IZR f / S + 128 * / S) by (rewrite plus_IZR; unfold Rdiv; ring).
  split; auto; [intros H; specialize (l_started0 H); rewrite E; lra|intros H; destruct (l_aligned0 H) as (H1 & H2 & H3); rewrite E; repeat (split; auto); lra|eapply pos_mono; [exact l_pos0|apply reach_mono; lia]].
Qed.
Lemma nicel_finished : forall s f given, nicel s f given -> nicel (finished s) f given.
Proof. intros s f given []. split; assumption. Qed.
(** the clamping establishes the conditions on the end of the loop *)
Lemma nicel_clamp : forall s f given, (a_buffer s = None -> nicel s f given) -> (forall b, a_buffer s = Some b -> loop_buffer b) -> start_ok (a_lstart s) -> end_ok (a_lend s) ->
  nicel (mk_absn (a_play s) (a_stop s) (a_duration s) None (a_loop s) (f64_of_Z 0) (f64_of_Z 0) (a_aligned s) (a_ended s)) f given -> nicel (clamp A s) f given.
Proof.
  intros s f given H0 Hb Hs He HN. unfold clamp. destruct (a_buffer s) as [b|] eqn:E; [|apply H0; reflexivity]. destruct (duration_ieee b (Hb b eq_refl)) as (Fd & Pd & Bd).
  pose proof (clamp_start (b_duration A b) _ Fd Hs) as C1. pose proof (clamp_end (b_duration A b) _ Fd Pd Bd He) as C2.
  destruct HN. cbn [a_play a_buffer a_aligned] in *. split; cbn [a_play a_buffer a_aligned a_lstart a_lend]; try assumption; [apply set_end_ok; exact C2|intros _; exact C2].
Qed.

Lemma process_ieee : forall s f given (r d : f32), nicel s f given -> early sr f -> is_finite r = true -> 0 <= B2R r ->
  is_finite (t_mul A (t_of_v A r) (t_exp2 A (t_div A (t_of_v A d) (t_of_Z A 1200)))) = true -> Rabs (B2R (t_mul A (t_of_v A r) (t_exp2 A (t_div A (t_of_v A d) (t_of_Z A 1200))))) <= K ->
  exists s' o, ends (fun n => absn_process A sr almost_equal almost_zero n s f r d) (s', o) /\ nicel s' (f + 128) given.
Proof.
  intros s f given r d N He Fr Pr Frate Brate. unfold absn_process. cbv zeta. destruct (a_ended s); [do 2 eexists; split; [apply ends_ok|apply nicel_mono; exact N]|].
  destruct (_ && negb (t_eq A (p_start (a_play s)) (t_MAX A))); [do 2 eexists; split; [apply ends_ok|apply nicel_mono, nicel_finished; exact N]|].
  change (t_add A (block_time A sr f) (t_mul A (dt A sr) (t_of_Z A (Z.of_nat RQ)))) with (next_block_time A sr f).
  destruct (t_le A (next_block_time A sr f) (p_start (a_play s))) eqn:Hnext.
  { destruct (t_le A (a_stop s) (next_block_time A sr f)); do 2 eexists; (split; [apply ends_ok|]); [apply nicel_mono, nicel_finished|apply nicel_mono]; exact N. }
  destruct (a_buffer s) as [b|] eqn:Hbuf; [|do 2 eexists; split; [apply ends_ok|apply nicel_mono; exact N]].
  fold span. pose proof (l_buffer _ _ _ N b Hbuf) as Hlb.
  assert (Hset : set_end (a_lend s)) by (apply (l_set _ _ _ N); congruence).
  assert (Hg : given = true). { destruct given; [reflexivity|]. destruct (l_given _ _ _ N eq_refl) as [E _]. rewrite E in Hnext. change (t_le A (next_block_time A sr f) f64_MAX) with (f64_le (next_block_time A sr f) f64_MAX) in Hnext. rewrite (next_max M sr Hsr f He) in Hnext. discriminate. }
  subst given. destruct (block_ieee M sr Hsr f He) as (Fb & Ab & Pb). fold S in Ab. apply Rabs_le_inv in Ab. change (bpow radix2 (-29)) with (/ 536870912) in Ab. pose proof (S_inv sr Hsr) as I. fold S in I.
  assert (En : IZR (f + 128) / S = IZR f / S + 128 * / S) by (rewrite plus_IZR; unfold Rdiv; ring). pose proof (early_time sr Hsr f He) as Et. fold S in Et.
  set (s1 := if negb (p_started (a_play s)) && t_lt A (p_start (a_play s)) (block_time A sr f) then with_play s (p_at (a_play s) (block_time A sr f)) else s).
  assert (N1 : nicel s1 f true /\ set_end (a_lend s1)).
  { unfold s1. destruct (negb (p_started (a_play s)) && _) eqn:E; [|auto]. apply andb_true_iff in E. destruct E as [E _]. apply negb_true_iff in E. split; [|exact Hset]. destruct N. split; cbn [with_play a_play p_at p_start p_started p_time a_buffer a_aligned a_lstart a_lend]; auto; try discriminate. rewrite E. discriminate. }
  clearbody s1. destruct N1 as [N1 Hset1]. clear N Hbuf Hnext Hset s. rename s1 into s. rename N1 into N. rename Hset1 into Hset.
  set (rate := t_mul A (t_of_v A r) (t_exp2 A (t_div A (t_of_v A d) (t_of_Z A 1200)))) in *. assert (Hprate : f64_le (f64_of_Z 0) (t_of_v A r) = true). { destruct (f64_of_f32_val r Fr) as [Ev Fv]. change (t_of_v A r) with (f64_of_f32 r). destruct zero_val as [E0 F0]. apply f64_le_R; [exact F0|exact Fv|]. rewrite E0, Ev. exact Pr. }
  set (prate := t_of_v A r) in *. set (ratio := t_div A (t_of_v A (b_rate b)) (t_of_v A sr)). clearbody rate prate.
  assert (Fresh : f64_eq (p_start (a_play s)) (block_time A sr f) = true -> p_started (a_play s) = false).
  { intros E. apply f64_eq_R in E; [|exact (l_start _ _ _ N)|exact Fb]. destruct (p_started (a_play s)) eqn:C; [|reflexivity]. pose proof (l_started _ _ _ N C). lra. }
  assert (Main : exists s' chs, ends (fun n => if decide A s b (block_time A sr f) span rate ratio then fast_track A sr (with_aligned s (decide A s b (block_time A sr f) span rate ratio)) b (block_time A sr f) span
     else slow_track A sr almost_equal almost_zero n (with_aligned s (decide A s b (block_time A sr f) span rate ratio)) b (block_time A sr f) rate prate ratio) (s', chs) /\ nicel s' (f + 128) true).
  { destruct (decide A s b (block_time A sr f) span rate ratio) eqn:Hd.
    - unfold decide in Hd. apply andb_true_iff in Hd. destruct Hd as [Hd _]. apply andb_true_iff in Hd. destruct Hd as [Hd _]. apply andb_true_iff in Hd. destruct Hd as [Ha Hq].
      apply negb_true_iff in Hq. apply orb_false_iff in Hq. destruct Hq as [Hq _]. apply negb_false_iff in Hq. change (f64_eq (f64_div (f64_of_f32 (b_rate b)) (f64_of_f32 sr)) (f64_of_Z 1) = true) in Hq.
      assert (Px : is_finite (p_time (a_play s)) = true /\ 0 <= B2R (p_time (a_play s)) <= 11 / 10 * (IZR f / S) /\ (p_started (a_play s) = true \/ f64_eq (p_start (a_play s)) (block_time A sr f) = true)).
      { change (t_eq A) with f64_eq in Ha. destruct (f64_eq (p_start (a_play s)) (block_time A sr f) && _) eqn:C.
        - apply andb_true_iff in C. destruct C as [C _]. rewrite (l_fresh _ _ _ N (Fresh C)). destruct zero_val as [E0 F0]. rewrite E0. split; [exact F0|]. split; [lra|right; exact C].
        - destruct (l_aligned _ _ _ N Ha) as (P1 & P2 & P3). auto. }
      destruct Px as (Fx & Bx & St). destruct (fast_ieee (with_aligned s true) b f Hlb Hq) as (time & chs & E & Ft & Bt); try assumption; [exact (proj1 He)|lra|].
      cbn [with_aligned a_play] in E. do 2 eexists. split; [exists 0%nat; intros n _; exact E|]. set (p := if f64_eq _ _ then _ else _).
      assert (Hp : p_started p = true /\ p_start p = p_start (a_play s)). { unfold p. destruct (f64_eq (p_start (a_play s)) (block_time A sr f)); [split; reflexivity|]. destruct St as [St|St]; [auto|discriminate]. } destruct Hp as [Hp1 Hp2].
      split; cbn [with_play with_aligned a_play a_buffer a_aligned a_lstart a_lend p_elapse p_move p_start p_started p_time].
      + exact (l_buffer _ _ _ N).
      + exact (l_ls _ _ _ N).
      + exact (l_le _ _ _ N).
      + exact (l_set _ _ _ N).
      + discriminate.
      + rewrite Hp2. exact (l_start _ _ _ N).
      + intros _. rewrite Hp2, En. destruct St as [St|St]; [pose proof (l_started _ _ _ N St); lra|]. apply f64_eq_R in St; [|exact (l_start _ _ _ N)|exact Fb]. lra.
      + rewrite Hp1. discriminate.
      + intros _. split; [exact Hp1|]. split; [exact Ft|exact Bt].
      + right. split; [exact Ft|]. rewrite Rabs_pos_eq by lra. pose proof K1 as K1. destruct He as [_ He]. fold S in He. unfold reach. set (u := IZR (f + 128) / S) in *. nra.
    - pose proof Hlb as (_ & L & Hb & _). destruct (slow_track_ieee (fun j p => is_finite (p_start p) = true /\ (p_started p = false -> p_time p = f64_of_Z 0) /\ (p_started p = true -> B2R (p_start p) + / 1000000 <= IZR (f + 128) / S))
        (with_aligned s false) b L f (block_time A sr f) rate prate ratio Hlb Hb He Hprate Frate Brate (l_ls _ _ _ N) Hset) as (p' & chs & E & (Q1 & Q2 & Q3) & Hpos).
      + intros j p p' Hj (P1 & P2 & P3) (W1 & W2 & W3). fold (sample_time M sr f j) in W2, W3. destruct (sample_time_ieee M sr Hsr f j He Hj) as (Ft & At). fold S in At. apply Rabs_le_inv in At.
        assert (Ej : IZR (f + Z.of_nat j) / S <= IZR f / S + 127 * / S). { rewrite plus_IZR, <- INR_IZR_INZ. unfold Rdiv. rewrite Rmult_plus_distr_r. apply Rplus_le_compat_l. apply Rmult_le_compat_r; [lra|]. rewrite INR_IZR_INZ. apply (IZR_le _ 127). lia. }
        destruct (p_started p') eqn:C.
        * split; [|split; [discriminate|intros _]].
          -- destruct (W2 eq_refl) as [[_ ->]|(_ & _ & [->| ->])]; assumption.
          -- destruct (W2 eq_refl) as [[S0 ->]|(S0 & Lt & [E|E])]; [apply P3; exact S0|rewrite E, En; lra|]. change (t_lt A) with f64_lt in Lt. rewrite E in Lt |- *.
             assert (B2R (p_start p) <= B2R (sample_time M sr f j)). { destruct (Rle_lt_dec (B2R (p_start p)) (B2R (sample_time M sr f j))) as [H|H]; [exact H|]. apply f64_lt_R in H; try assumption. congruence. }
             rewrite En. lra.
        * destruct (W1 eq_refl) as [S0 T0]. split; [destruct (W3 S0 eq_refl) as [->| ->]; assumption|]. split; [intros _; rewrite T0; apply P2; exact S0|discriminate].
      + cbn [with_aligned a_play]. split; [exact (l_start _ _ _ N)|]. split; [exact (l_fresh _ _ _ N)|]. intros H. pose proof (l_started _ _ _ N H). rewrite En. lra.
      + cbn [with_aligned a_play p_enter p_start p_started p_time]. split; [exact (l_start _ _ _ N)|]. split; [exact (l_fresh _ _ _ N)|]. intros H. pose proof (l_started _ _ _ N H). rewrite En. lra.
      + exact (l_pos _ _ _ N).
      + do 2 eexists. split; [exact E|]. split; cbn [with_play with_aligned a_play a_buffer a_aligned a_lstart a_lend]; auto; try discriminate; [exact (l_buffer _ _ _ N)|exact (l_ls _ _ _ N)|exact (l_le _ _ _ N)]. }
  change (a_aligned (with_aligned s (decide A s b (block_time A sr f) span rate ratio))) with (decide A s b (block_time A sr f) span rate ratio).
  destruct Main as (s' & chs & E & N'). do 2 eexists. split; [eapply ends_bind; [exact E|apply ends_ok]|]. cbn [fst snd]. destruct (_ || _ || _); [apply nicel_finished|]; exact N'.
Qed.

(** a state whose loop boundaries and buffer are replaced *)
Lemma nicel_core : forall s f given, nicel s f given -> nicel (mk_absn (a_play s) (a_stop s) (a_duration s) None (a_loop s) (f64_of_Z 0) (f64_of_Z 0) (a_aligned s) (a_ended s)) f given.
Proof.
  intros s f given []. destruct zero_val as [E0 F0]. split; cbn [a_play a_buffer a_aligned a_lstart a_lend]; try assumption.
  - discriminate.
  - intros _. left. rewrite E0. lra.
  - congruence.
Qed.

Lemma run_ieee : forall l s f given, nicel s f given -> looped given l -> (0 <= f)%Z -> early sr (f + 128 * Z.of_nat (absn_quanta l)) ->
  exists s' os, ends (fun n => absn_run A sr almost_equal almost_zero n s f l) (s', (f + 128 * Z.of_nat (absn_quanta l))%Z, os) /\ length os = absn_quanta l.
Proof.
  induction l as [|a l IH]; intros s f given N P Hf He; [do 2 eexists; split; [cbn [absn_run absn_quanta]; exists 0%nat; intros n _; do 3 f_equal; lia|reflexivity]|]. cbn [Absn_LoopSpec.looped] in P.
  pose proof (nicel_core s f given N) as Nc. destruct a; cbn [absn_run absn_quanta] in *.
  - destruct P as (-> & Ft & P). destruct (l_given _ _ _ N eq_refl) as [_ Ns]. eapply IH; [|exact P|exact Hf|exact He]. cbn [absn_message].
    apply nicel_clamp; cbn [a_play a_stop a_duration a_buffer a_loop a_lstart a_lend a_aligned a_ended]; [|exact (l_buffer _ _ _ N)|exact (l_ls _ _ _ N)|exact (l_le _ _ _ N)|clear N; rename Nc into N].
    all: try intros _; destruct N; split; cbn [a_play a_buffer a_aligned a_lstart a_lend p_start p_started p_time] in *; auto; try discriminate; rewrite Ns; discriminate.
  - eapply IH; [|exact P|exact Hf|exact He]. cbn [absn_message]. apply nicel_clamp; cbn [a_play a_stop a_duration a_buffer a_loop a_lstart a_lend a_aligned a_ended]; [|exact (l_buffer _ _ _ N)|exact (l_ls _ _ _ N)|exact (l_le _ _ _ N)|destruct Nc; split; assumption].
    intros _. destruct N; split; assumption.
  - eapply IH; [|exact P|exact Hf|exact He]. cbn [absn_message]. apply nicel_clamp; cbn [a_play a_stop a_duration a_buffer a_loop a_lstart a_lend a_aligned a_ended]; [|exact (l_buffer _ _ _ N)|exact (l_ls _ _ _ N)|exact (l_le _ _ _ N)|destruct Nc; split; assumption].
    intros _. destruct N; split; assumption.
  - destruct P as [Hls P]. eapply IH; [|exact P|exact Hf|exact He]. cbn [absn_message]. apply nicel_clamp; cbn [a_play a_stop a_duration a_buffer a_loop a_lstart a_lend a_aligned a_ended]; [|exact (l_buffer _ _ _ N)|exact Hls|exact (l_le _ _ _ N)|destruct Nc; split; assumption].
    intros _. destruct N; split; assumption.
  - destruct P as [Hle P]. eapply IH; [|exact P|exact Hf|exact He]. cbn [absn_message]. apply nicel_clamp; cbn [a_play a_stop a_duration a_buffer a_loop a_lstart a_lend a_aligned a_ended]; [|exact (l_buffer _ _ _ N)|exact (l_ls _ _ _ N)|exact Hle|destruct Nc; split; assumption].
    intros Hn. destruct N; split; cbn [a_play a_buffer a_aligned a_lstart a_lend] in *; try assumption. congruence.
  - destruct P as [Hb P]. eapply IH; [|exact P|exact Hf|exact He]. cbn [absn_message].
    assert (Hb' : forall b', Some b = Some b' -> loop_buffer b') by (intros b' E; injection E as <-; exact Hb).
    destruct (a_buffer s) eqn:Eb.
    + assert (Hset := l_set _ _ _ N ltac:(congruence)). destruct N; split; cbn [a_play a_buffer a_aligned a_lstart a_lend]; try assumption. intros _. exact Hset.
    + apply nicel_clamp; cbn [a_play a_stop a_duration a_buffer a_loop a_lstart a_lend a_aligned a_ended]; [discriminate|exact Hb'|exact (l_ls _ _ _ N)|exact (l_le _ _ _ N)|destruct Nc; split; assumption].
  - destruct P as [(F1 & P1 & F2 & P2) P]. destruct (process_ieee s f given playback_rate detune N) as (s' & o & E & N'); [eapply early_less; [exact Hsr|exact He|lia]|assumption|assumption|assumption|assumption|].
    destruct (IH s' (f + 128)%Z given N' P) as (s2 & os & E2 & Len); [lia|replace (f + 128 + 128 * Z.of_nat (absn_quanta l))%Z with (f + 128 * Z.of_nat (Datatypes.S (absn_quanta l)))%Z by lia; exact He|].
    do 2 eexists. split; [eapply ends_bind; [exact E|]; cbn [fst snd]; change (Z.of_nat RQ) with 128%Z; eapply ends_bind; [exact E2|cbn [fst snd]; exists 0%nat; intros n _; do 3 f_equal; lia]|cbn [length]; rewrite Len; reflexivity].
Qed.

Lemma loop_run_ieee : forall l looping ls le, looped false l -> start_ok ls -> end_ok le -> early sr (128 * Z.of_nat (absn_quanta l)) ->
  exists n0 s os, length os = absn_quanta l /\ forall n, (n0 <= n)%nat -> absn_run A sr almost_equal almost_zero n (absn_new A looping ls le) 0 l = Ok (s, (128 * Z.of_nat (absn_quanta l))%Z, os).
Proof.
  intros l looping ls le P Hls Hle He. destruct (run_ieee l (absn_new A looping ls le) 0 false) as (s & os & (n0 & E) & Len); [|exact P|lia|exact He|].
  - destruct zero_val as [E0 F0]. split; cbn [absn_new a_play p_start p_started p_time a_buffer a_aligned a_lstart a_lend]; auto; try discriminate; try congruence.
    right. change (t_zero A) with (f64_of_Z 0 : f64). split; [exact F0|]. rewrite E0, Rabs_R0. unfold reach, Rdiv. rewrite Rmult_0_l, Rmult_0_r. lra.
  - exists n0, s, os. split; [exact Len|exact E].
Qed.
End Loop.
