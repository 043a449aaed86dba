(** Buffer sources without a loop never read out of bounds, in floating point arithmetic. *)
From Coq Require Import List Arith Bool ZArith Lia Reals Lra Psatz.
From Flocq Require Import Core BinarySingleNaN.
From Verif Require Import Arith_Model Source_Model Absn_Model Absn_Spec Float_Model Float_Proofs Float_BoundProofs Float_ErrorProofs Buffer_ResampleProofs Source_ClockProofs Osc_IeeeProofs Absn_ExactProofs Absn_IeeeProofs.
Import ListNotations.
Local Open Scope R_scope.

(** ** The slow track, in any arithmetic *)
Section Slow.
Context {T V : Type}.
Variable A : arith T V.
Variable sr : V.
Variable almost_equal : T -> T -> bool.
Variable almost_zero : T -> bool.
Variable fuel : nat.
(** the conversion to usize *)
Hypothesis to_Z_nonneg : forall x, (0 <= t_to_Z A x)%Z.

Definition info_ok (len : nat) (o : option (nat * T)) : Prop := match o with None => True | Some (i, _) => (i < len)%nat end.

(** what a sample does to the playback state *)
Definition sampled (p : @playback T) (time : T) (p' : @playback T) : Prop :=
  (p_started p' = false -> p_started p = false /\ p_time p' = p_time p) /\
  (p_started p' = true -> (p_started p = true /\ p_start p' = p_start p) \/ (p_started p = false /\ t_lt A time (p_start p') = false /\ (p_start p' = time \/ p_start p' = p_start p))) /\
  (p_started p = false -> p_started p' = false -> p_start p' = time \/ p_start p' = p_start p).

Lemma slow_sample_safe : forall stop duration ls le rate bdur ratio len p time,
  exists p' o, slow_sample A sr almost_equal almost_zero fuel stop duration false ls le rate bdur ratio len p time = Ok (p', o) /\ info_ok len o /\ sampled p time p'.
Proof.
  intros stop duration ls le rate bdur ratio len p time. unfold slow_sample. cbv zeta.
  set (p1 := if negb (p_started p) && almost_equal time (p_start p) then p_at p time else p).
  assert (H1 : p_started p1 = p_started p /\ p_time p1 = p_time p /\ (p_started p = true -> p_start p1 = p_start p) /\ (p_start p1 = time \/ p_start p1 = p_start p)).
  { unfold p1. destruct (p_started p) eqn:E; cbn [negb andb]; [auto|]. destruct (almost_equal _ _); cbn; rewrite ?E; auto. repeat split; auto. discriminate. }
  clearbody p1. set (p2 := if almost_equal (p_elapsed p1) duration then p_elapse p1 duration else p1).
  assert (H2 : p_started p2 = p_started p /\ p_time p2 = p_time p /\ (p_started p = true -> p_start p2 = p_start p) /\ (p_start p2 = time \/ p_start p2 = p_start p)).
  { unfold p2. destruct (almost_equal _ _); cbn; exact H1. }
  clearbody p2. clear H1 p1. destruct H2 as (S1 & T1 & B1 & C1).
  destruct (t_lt A time (p_start p2) || t_le A stop time || t_le A duration (p_elapsed p2)) eqn:G.
  - exists p2, None. split; [reflexivity|]. split; [exact I|]. unfold sampled. rewrite S1. split; [intros E; split; [exact E|exact T1]|]. split; [intros E; left; split; [exact E|apply B1; exact E]|]. intros _ _. exact C1.
  - apply orb_false_iff in G. destruct G as [G _]. apply orb_false_iff in G. destruct G as [G _]. cbn [bind].
    set (p3 := if p_started p2 then p2 else begin A false ls le rate bdur p2 time).
    assert (H3 : p_started p3 = true /\ p_start p3 = p_start p2) by (unfold p3; destruct (p_started p2) eqn:E; [auto|split; reflexivity]). clearbody p3. destruct H3 as [S3 B3].
    set (p4 := if almost_zero (p_time p3) then p_move p3 (t_zero A) else p3). assert (H4 : p_started p4 = true /\ p_start p4 = p_start p2) by (unfold p4; destruct (almost_zero _); cbn; auto). clearbody p4. destruct H4 as [S4 B4].
    do 2 eexists. split; [reflexivity|]. split.
    + destruct (t_le A (t_zero A) (p_time p4) && t_lt A (p_time p4) bdur); [|exact I]. destruct (_ <? Z.of_nat len)%Z eqn:E; [|exact I]. apply Z.ltb_lt in E. cbn. pose proof (to_Z_nonneg (t_floor A (t_mul A (t_mul A (p_time p4) ratio) (t_of_v A sr)))). lia.
    + unfold sampled. cbn [p_elapse p_move p_started p_start]. rewrite S4, B4. split; [discriminate|]. split; [|discriminate]. intros _. destruct (p_started p) eqn:E; [left; split; [reflexivity|apply B1; reflexivity]|right]. split; [reflexivity|]. split; [exact G|exact C1].
Qed.

Lemma slow_samples_safe : forall (Q : nat -> @playback T -> Prop) stop duration ls le rate bdur ratio len block n i p,
  (forall j p p', (i <= j < i + n)%nat -> Q j p -> sampled p (t_add A block (t_mul A (t_of_Z A (Z.of_nat j)) (dt A sr))) p' -> Q (S j) p') -> Q i p ->
  exists p' os, slow_samples A sr almost_equal almost_zero fuel stop duration false ls le rate bdur ratio len n i p block = Ok (p', os) /\ Forall (info_ok len) os /\ Q (i + n)%nat p'.
Proof.
  intros Q stop duration ls le rate bdur ratio len block n. induction n as [|n IH]; intros i p HQ Hp; cbn [slow_samples].
  - exists p, []. rewrite Nat.add_0_r. auto.
  - destruct (slow_sample_safe stop duration ls le rate bdur ratio len p (t_add A block (t_mul A (t_of_Z A (Z.of_nat i)) (dt A sr)))) as (p' & o & E & Ho & Hs). rewrite E. cbn [bind fst snd].
    destruct (IH (S i) p') as (p2 & os & E2 & Hos & Hp2); [intros j q q' Hj; apply HQ; lia|apply (HQ i p p'); [lia|exact Hp|exact Hs]|]. rewrite E2. cbn [bind fst snd].
    do 2 eexists. split; [reflexivity|]. split; [constructor; assumption|]. replace (i + S n)%nat with (S i + n)%nat by lia. exact Hp2.
Qed.

Lemma interpolate_safe : forall ls le prate ch o, info_ok (length ch) o -> exists v, interpolate A sr almost_equal false ls le prate ch o = Ok v.
Proof.
  intros ls le prate ch [[i k]|] H; [|eexists; reflexivity]. cbn in H. unfold interpolate. destruct (nth_error ch i) as [x|] eqn:E; [|apply nth_error_None in E; lia].
  unfold index. rewrite E. cbn [from_option bind]. destruct (nth_error ch (i + 1)) eqn:E1; [cbn [bind]; eexists; reflexivity|].
  destruct (almost_equal k (t_one A) || (i =? 0)%nat) eqn:C; [cbn [bind]; eexists; reflexivity|]. apply orb_false_iff in C. destruct C as [_ C]. apply Nat.eqb_neq in C.
  destruct (nth_error ch (i - 1)) eqn:E2; [|apply nth_error_None in E2; lia]. cbn [from_option bind]. eexists; reflexivity.
Qed.

(** a buffer whose channels have the same length *)
Definition shape (b : @buffer V) (L : nat) : Prop := b_channels b <> [] /\ Forall (fun ch => length ch = L) (b_channels b).
Lemma shape_length : forall b L, shape b L -> b_length b = L.
Proof. intros [chs r] L [H F]. unfold b_length. cbn in *. destruct chs as [|c l]; [contradiction|]. apply Forall_cons_iff in F. apply F. Qed.

Lemma map_res_exists : forall (X Y : Type) (f : X -> res Y) l, (forall x, In x l -> exists y, f x = Ok y) -> exists ys, map_res f l = Ok ys.
Proof.
  induction l as [|x l IH]; intros H; [exists []; reflexivity|]. cbn [map_res]. destruct (H x (or_introl eq_refl)) as (y & ->). cbn [bind].
  destruct IH as (ys & ->); [intros z Hz; apply H; right; exact Hz|]. cbn [bind]. eexists; reflexivity.
Qed.

Lemma slow_track_safe : forall (Q : nat -> @playback T -> Prop) s b L block rate prate ratio, a_loop s = false -> shape b L ->
  (forall j p p', (j < 128)%nat -> Q j p -> sampled p (t_add A block (t_mul A (t_of_Z A (Z.of_nat j)) (dt A sr))) p' -> Q (S j) p') -> Q 0%nat (p_enter (a_play s) false) ->
  exists p' chs, slow_track A sr almost_equal almost_zero fuel s b block rate prate ratio = Ok (with_play s p', chs) /\ Q 128%nat p'.
Proof.
  intros Q s b L block rate prate ratio Hl Hb HQ H0. unfold slow_track. rewrite Hl, (shape_length b L Hb).
  destruct (slow_samples_safe Q (a_stop s) (a_duration s) (t_zero A) (t_zero A) rate (b_duration A b) ratio L block RQ 0 (p_enter (a_play s) false)) as (p' & os & E & Hos & Hp); [intros j p q Hj; apply HQ; unfold RQ in Hj; lia|exact H0|].
  rewrite E. cbn [bind fst snd].
  match goal with |- context [map_res ?g (b_channels b)] => destruct (map_res_exists _ _ g (b_channels b)) as (chs & Ec) end.
  - intros ch Hin. apply map_res_exists. intros o Ho. apply interpolate_safe. destruct Hb as [_ F]. rewrite Forall_forall in F, Hos. rewrite (F ch Hin). apply Hos. exact Ho.
  - rewrite Ec. cbn [bind]. do 2 eexists. split; [reflexivity|exact Hp].
Qed.
End Slow.

(** ** Floating point *)
Section Ieee.
Variable M : libm.
Variable sr : f32.
Hypothesis Hsr : rate_ok sr.
Notation A := (ieee M).
Let S : R := B2R (f64_of_f32 sr).
Let span : f64 := t_mul A (dt A sr) (t_of_Z A (Z.of_nat RQ)).
Variable almost_equal : f64 -> f64 -> bool.
Variable almost_zero : f64 -> bool.
Variable fuel : nat.

Definition buffer_ok (b : @buffer f32) : Prop := rate_ok (b_rate b) /\ exists L, shape b L /\ (Z.of_nat L <= 2 ^ 30)%Z.

Lemma usize_nonneg : forall x : f64, (0 <= f64_to_usize x)%Z.
Proof. intros x. destruct x as [s|s| |s m e H]; cbn [f64_to_usize]; try lia; destruct s; lia. Qed.

Lemma slice_safe : forall b L (x : f64), shape b L -> rate_ok (b_rate b) -> (Z.of_nat L <= 2 ^ 30)%Z -> f64_eq (f64_div (f64_of_f32 (b_rate b)) (f64_of_f32 sr)) (f64_of_Z 1) = true ->
  is_finite x = true -> 0 <= B2R x <= 10000000 -> f64_lt (b_duration A b) (f64_add x span) = false ->
  (Z.to_nat (f64_to_usize (f64_round (f64_mul x (f64_of_f32 sr)))) + 128 <= L)%nat.
Proof.
  intros b L x Hb Rb HL Hq Fx Bx Hlt. pose proof (S_range sr Hsr) as R. pose proof (S_inv sr Hsr) as I. fold S in R, I. destruct (rate_val (b_rate b) Rb) as [Fr Rr]. set (Sb := B2R (f64_of_f32 (b_rate b))) in *.
  (* the rates *)
  assert (Q0 : / 256 <= Sb / S <= 256). { unfold Rdiv. split; [apply Rle_trans with (3000 * (1 / 768000)); [lra|]; apply Rmult_le_compat; lra|apply Rle_trans with (768000 * (1 / 3000)); [apply Rmult_le_compat; lra|lra]]. }
  assert (Q : Rabs (1 - Sb / S) <= ulp53 * (Sb / S)).
  { destruct (f64_div_err (f64_of_f32 (b_rate b)) (f64_of_f32 sr) 8) as (F & Er & _ & _); [exact Fr|fold S; lra|apply eok; lia| |].
    - fold S Sb. rewrite Rabs_pos_eq by lra. change (bpow radix2 8) with 256. lra.
    - fold S Sb in Er. destruct one_val as [E1 F1]. apply f64_eq_R in Hq; [|exact F|exact F1]. rewrite E1, Er in Hq. rewrite <- Hq at 1. rewrite <- (Rabs_pos_eq (Sb / S)) at 3 by lra. apply rel_err. rewrite Rabs_pos_eq by lra. pose proof tiny. lra. }
  apply Rabs_le_inv in Q. rewrite ulp_val in Q. set (q := Sb / S) in *. assert (Qr : 1 - / 1000000000000000 <= q <= 1 + / 1000000000000000) by lra.
  (* the duration *)
  assert (N : 0 <= INR L <= 1073741824) by (split; [apply pos_INR|rewrite INR_IZR_INZ; apply (IZR_le _ 1073741824); lia]).
  set (d := INR L / Sb). assert (D : 0 <= d <= 357914). { unfold d, Rdiv. assert (0 < / Sb <= 1 / 3000) by (split; [apply Rinv_0_lt_compat; lra|unfold Rdiv; rewrite Rmult_1_l; apply Rinv_le; lra]). split; [apply Rmult_le_pos; lra|]. apply Rle_trans with (1073741824 * (1 / 3000)); [apply Rmult_le_compat; lra|lra]. }
  assert (Dd : is_finite (b_duration A b) = true /\ Rabs (B2R (b_duration A b) - d) <= / 17179869184).
  { unfold b_duration. rewrite (shape_length b L Hb). cbn [ieee t_div t_of_Z t_of_v]. destruct (f64_of_Z_exact (Z.of_nat L)) as [E1 F1]; [lia|]. rewrite <- INR_IZR_INZ in E1.
    destruct (f64_div_err (f64_of_Z (Z.of_nat L)) (f64_of_f32 (b_rate b)) 19) as (F2 & _ & Er & _); [exact F1|fold Sb; lra|apply eok; lia| |].
    - rewrite E1. fold Sb. fold d. rewrite Rabs_pos_eq by lra. change (bpow radix2 19) with 524288. lra.
    - rewrite E1 in Er. fold Sb d in Er. split; [exact F2|]. exact Er. }
  destruct Dd as [Fd Dd]. apply Rabs_le_inv in Dd.
  (* the end of the quantum *)
  destruct (span_ieee M sr Hsr) as (Fs & As). fold span S in Fs, As. apply Rabs_le_inv in As. change (bpow radix2 (-50)) with (/ 1125899906842624) in As. assert (Sp : 0 < B2R span <= 1) by (unfold Rdiv in As; lra).
  destruct (f64_add_err x span 25) as (Fz & Ez & _ & _); [exact Fx|exact Fs|apply eok; lia| |]. { rewrite Rabs_pos_eq by lra. change (bpow radix2 25) with 33554432. lra. }
  assert (Hle : B2R (f64_add x span) <= B2R (b_duration A b)). { destruct (Rle_lt_dec (B2R (f64_add x span)) (B2R (b_duration A b))) as [C|C]; [exact C|]. apply f64_lt_R in C; try assumption. congruence. }
  assert (Gx : B2R x <= B2R (f64_add x span)) by (apply rnd_grow; [exact Fx|exact Fs|lra|rewrite Rabs_pos_eq by lra; change (bpow radix2 24) with 16777216; lra]).
  assert (Hz : B2R x + B2R span <= d + / 8589934592).
  { destruct (f64_add_err x span 19) as (_ & _ & Az & _); [exact Fx|exact Fs|apply eok; lia| |]. { rewrite Rabs_pos_eq by lra. change (bpow radix2 19) with 524288. lra. }
    apply Rabs_le_inv in Az. change (bpow radix2 (19 - 53)) with (/ 17179869184) in Az. lra. }
  assert (Ds : d * S <= INR L + / 1000). { assert (Ed : d * S = INR L * / q) by (unfold d, q; field; lra). rewrite Ed. assert (/ q <= 1 + / 100000000000000). { apply Rmult_le_reg_r with q; [lra|]. rewrite Rinv_l by lra. lra. } nra. }
  assert (Ss : 128 - / 1000 <= B2R span * S). { assert (128 / S - / 1125899906842624 <= B2R span) by lra. assert ((128 / S - / 1125899906842624) * S <= B2R span * S) by (apply Rmult_le_compat_r; lra). replace ((128 / S - / 1125899906842624) * S) with (128 - S / 1125899906842624) in H0 by (field; lra). lra. }
  assert (Xs : B2R x * S <= INR L - 128 + / 100). { assert ((B2R x + B2R span) * S <= (d + / 8589934592) * S) by (apply Rmult_le_compat_r; lra). lra. }
  (* the index *)
  assert (X0 : 0 <= B2R x * S) by (apply Rmult_le_pos; lra).
  destruct (f64_mul_err x (f64_of_f32 sr) 31) as (F2 & _ & Er & _); [exact Fx|exact (S_finite sr Hsr)|apply eok; lia| |]. { fold S. rewrite Rabs_pos_eq by lra. change (bpow radix2 31) with 2147483648. lra. }
  fold S in Er. apply Rabs_le_inv in Er. change (bpow radix2 (31 - 53)) with (/ 4194304) in Er. set (y := f64_mul x (f64_of_f32 sr)) in *.
  destruct (Bnearbyint_correct 53 1024 f64_emax mode_NA y) as (E1 & E2 & _). change (Bnearbyint mode_NA y) with (f64_round y) in *. rewrite f64_to_usize_val by (rewrite E2; exact F2).
  rewrite E1. cbn [round_mode]. rewrite round_FIX_IZR. rewrite Ztrunc_IZR. set (n := Znearest _ _). assert (Hn : (n + 128 <= Z.of_nat L)%Z).
  { unfold n. assert (H := Znearest_half (Zle_bool 0) (B2R y)). apply Rabs_le_inv in H. apply Z.lt_succ_r. apply lt_IZR. rewrite succ_IZR, plus_IZR, <- INR_IZR_INZ. lra. }
  assert (L128 : (128 <= Z.of_nat L)%Z). { apply Z.lt_succ_r. apply lt_IZR. rewrite succ_IZR, <- INR_IZR_INZ. lra. }
  lia.
Qed.

Definition sample_time (f : Z) (i : nat) : f64 := t_add A (block_time A sr f) (t_mul A (t_of_Z A (Z.of_nat i)) (dt A sr)).
Lemma sample_time_ieee : forall f i, early sr f -> (i < 128)%nat -> is_finite (sample_time f i) = true /\ Rabs (B2R (sample_time f i) - IZR (f + Z.of_nat i) / S) <= / 100000000.
Proof.
  intros f i He Hi. destruct (block_ieee M sr Hsr f He) as (Fb & Ab & Pb). fold S in Ab. destruct (dt_ieee M sr Hsr) as (Fd & Ad & Bd). fold S in Ad. pose proof (S_inv sr Hsr) as I. fold S in I.
  pose proof (early_time sr Hsr f He) as Et. fold S in Et. change (bpow radix2 (-29)) with (/ 536870912) in Ab. change (bpow radix2 (-64)) with (/ 18446744073709551616) in Ad. apply Rabs_le_inv in Ab. apply Rabs_le_inv in Ad.
  destruct (f64_of_Z_exact (Z.of_nat i)) as [Ei Fi]; [lia|]. rewrite <- INR_IZR_INZ in Ei. assert (N : 0 <= INR i <= 127). { split; [apply pos_INR|]. rewrite INR_IZR_INZ. apply (IZR_le _ 127). lia. }
  unfold sample_time. cbn [ieee t_add t_mul t_of_Z]. change (block_time (ieee M) sr f) with (block_time A sr f). change (dt (ieee M) sr) with (dt A sr).
  destruct (f64_mul_err (f64_of_Z (Z.of_nat i)) (dt A sr) 0) as (Fm & _ & Am & _); [exact Fi|exact Fd|apply eok; lia| |]. { rewrite Ei. change (bpow radix2 0) with 1. rewrite Rabs_pos_eq by (apply Rmult_le_pos; lra). nra. }
  rewrite Ei in Am. change (bpow radix2 (0 - 53)) with (/ 9007199254740992) in Am. apply Rabs_le_inv in Am. set (m := f64_mul (f64_of_Z (Z.of_nat i)) (dt A sr)) in *.
  assert (Bm : 0 - / 1000000 <= B2R m <= 1) by nra.
  destruct (f64_add_err (block_time A sr f) m 24) as (Fa & _ & Aa & _); [exact Fb|exact Fm|apply eok; lia| |]. { change (bpow radix2 24) with 16777216. apply Rabs_le. lra. }
  split; [exact Fa|]. change (bpow radix2 (24 - 53)) with (/ 536870912) in Aa. apply Rabs_le_inv in Aa.
  assert (Es : IZR (f + Z.of_nat i) / S = IZR f / S + INR i * / S) by (rewrite plus_IZR, <- INR_IZR_INZ; unfold Rdiv; ring). rewrite Es.
  assert (Id : - / 100000000000000 <= INR i * B2R (dt A sr) - INR i * / S <= / 100000000000000) by nra. apply Rabs_le. lra.
Qed.

(** the state of a source without a loop, before the quantum at frame [f]; [given]: the start message has been handled *)
Record nice (s : @absn f64 f32) (f : Z) (given : bool) : Prop := {
  n_loop : a_loop s = false;
  n_buffer : forall b, a_buffer s = Some b -> buffer_ok b;
  n_given : given = false -> p_start (a_play s) = f64_MAX /\ p_started (a_play s) = false;
  n_start : is_finite (p_start (a_play s)) = true;
  n_fresh : p_started (a_play s) = false -> p_time (a_play s) = f64_of_Z 0;
  n_started : p_started (a_play s) = true -> B2R (p_start (a_play s)) + / 1000000 <= IZR f / S;
  n_aligned : a_aligned s = true -> p_started (a_play s) = true /\ is_finite (p_time (a_play s)) = true /\ 0 <= B2R (p_time (a_play s)) <= 11 / 10 * (IZR f / S)
}.

Lemma nice_mono : forall s f given, nice s f given -> nice s (f + 128) given.
Proof.
  intros s f given []. pose proof (S_inv sr Hsr) as I. fold S in I. assert (E : IZR (f + 128) / S = IZR f / S + 128 * / S) by (rewrite plus_IZR; unfold Rdiv; ring).
  split; auto; [intros H; specialize (n_started0 H); rewrite E; lra|intros H; destruct (n_aligned0 H) as (H1 & H2 & H3); rewrite E; repeat split; auto; lra].
Qed.
Lemma nice_finished : forall s f given, nice s f given -> nice (finished s) f given.
Proof. intros s f given []. split; assumption. Qed.
Lemma nice_clamp : forall s f given, nice s f given -> nice (clamp A s) f given.
Proof. intros s f given H. unfold clamp. destruct (a_buffer s) eqn:E; [|exact H]. destruct H. split; cbn [a_play a_loop a_buffer a_aligned]; try assumption. rewrite <- E. assumption. Qed.

Lemma next_max : forall f, early sr f -> f64_le (next_block_time A sr f) f64_MAX = true.
Proof.
  intros f He. destruct (next_ieee M sr Hsr f He) as (Fn & An). fold S in An. apply Rabs_le_inv in An. change (bpow radix2 (-27)) with (/ 134217728) in An. destruct He as [_ He]. fold S in He.
  destruct (below_max (next_block_time A sr f) Fn) as [_ B2]; [lra|]. assert (Fm : is_finite f64_MAX = true) by reflexivity. apply f64_lt_R in B2; try assumption. apply f64_le_R; try assumption. lra.
Qed.

Lemma fast_safe : forall (s : @absn f64 f32) b f L, a_loop s = false -> shape b L -> rate_ok (b_rate b) -> (Z.of_nat L <= 2 ^ 30)%Z -> f64_eq (f64_div (f64_of_f32 (b_rate b)) (f64_of_f32 sr)) (f64_of_Z 1) = true ->
  is_finite (p_time (a_play s)) = true -> 0 <= B2R (p_time (a_play s)) <= 10000000 ->
  let p := if f64_eq (p_start (a_play s)) (block_time A sr f) then p_begin (a_play s) else a_play s in
  exists chs, fast_track A sr s b (block_time A sr f) span = Ok (with_play s (p_elapse (p_move p (f64_add (p_time (a_play s)) span)) (f64_add (p_elapsed p) span)), chs).
Proof.
  intros s b f L Hl Hb Rb HL Hq Fx Bx. unfold fast_track. cbv zeta. change (t_eq A (p_start (a_play s)) (block_time A sr f)) with (f64_eq (p_start (a_play s)) (block_time A sr f)). set (e := f64_eq (p_start (a_play s)) (block_time A sr f)). clearbody e.
  assert (Ep : p_time (if e then p_begin (a_play s) else a_play s) = p_time (a_play s)) by (destruct e; reflexivity). rewrite Ep, Hl, (shape_length b L Hb).
  change (t_lt A) with f64_lt. change (t_add A) with f64_add. change (t_to_Z A) with f64_to_usize. change (t_round A) with f64_round. change (t_mul A) with f64_mul. change (t_of_v A) with f64_of_f32.
  destruct (f64_lt (b_duration A b) (f64_add (p_time (a_play s)) span)) eqn:C.
  - destruct Hb as [_ HF]. rewrite fast_channels_value by exact HF. cbn [bind fst snd]. eexists; reflexivity.
  - pose proof (slice_safe b L _ Hb Rb HL Hq Fx Bx C) as Hi. destruct Hb as [_ HF]. rewrite Forall_forall in HF. set (i := Z.to_nat _) in *. clearbody i.
    destruct (map_res_exists _ _ (fun ch => slice ch i (i + RQ)) (b_channels b)) as (chs & E).
    { intros ch Hin. unfold slice, RQ. rewrite (HF ch Hin). replace (i <=? i + 128)%nat with true by (symmetry; apply Nat.leb_le; lia). replace (i + 128 <=? L)%nat with true by (symmetry; apply Nat.leb_le; lia). eexists; reflexivity. }
    rewrite E. cbn [bind fst snd]. eexists; reflexivity.
Qed.

Lemma process_nice : forall (s : @absn f64 f32) f given r d, nice s f given -> early sr f -> exists s' o, absn_process A sr almost_equal almost_zero fuel s f r d = Ok (s', o) /\ nice s' (f + 128) given.
Proof.
  intros s f given r d N He. unfold absn_process. cbv zeta. destruct (a_ended s); [do 2 eexists; split; [reflexivity|apply nice_mono; exact N]|].
  destruct (_ && negb (t_eq A (p_start (a_play s)) (t_MAX A))); [do 2 eexists; split; [reflexivity|apply nice_mono, nice_finished; exact N]|].
  change (t_add A (block_time A sr f) (t_mul A (dt A sr) (t_of_Z A (Z.of_nat RQ)))) with (next_block_time A sr f).
  destruct (t_le A (next_block_time A sr f) (p_start (a_play s))) eqn:Hnext.
  { destruct (t_le A (a_stop s) (next_block_time A sr f)); do 2 eexists; (split; [reflexivity|]); [apply nice_mono, nice_finished|apply nice_mono]; exact N. }
  destruct (a_buffer s) as [b|] eqn:Hbuf; [|do 2 eexists; split; [reflexivity|apply nice_mono; exact N]].
  fold span. pose proof (n_buffer _ _ _ N b Hbuf) as (Rb & L & Hb & HL).
  assert (Hg : given = true). { destruct given; [reflexivity|]. destruct (n_given _ _ _ N eq_refl) as [E _]. rewrite E in Hnext. change (t_le A (next_block_time A sr f) f64_MAX) with (f64_le (next_block_time A sr f) f64_MAX) in Hnext. rewrite (next_max f He) in Hnext. discriminate. }
  subst given. destruct (block_ieee M sr Hsr f He) as (Fb & Ab & Pb). fold S in Ab. apply Rabs_le_inv in Ab. change (bpow radix2 (-29)) with (/ 536870912) in Ab. pose proof (S_inv sr Hsr) as I. fold S in I.
  assert (En : IZR (f + 128) / S = IZR f / S + 128 * / S) by (rewrite plus_IZR; unfold Rdiv; ring). pose proof (early_time sr Hsr f He) as Et. fold S in Et.
  set (s1 := if negb (p_started (a_play s)) && t_lt A (p_start (a_play s)) (block_time A sr f) then with_play s (p_at (a_play s) (block_time A sr f)) else s).
  assert (N1 : nice s1 f true /\ a_buffer s1 = Some b).
  { unfold s1. destruct (negb (p_started (a_play s)) && _) eqn:E; [|auto]. apply andb_true_iff in E. destruct E as [E _]. apply negb_true_iff in E. split; [|exact Hbuf]. destruct N. split; cbn [with_play a_play p_at p_start p_started p_time a_loop a_buffer a_aligned]; auto; try discriminate. rewrite E. discriminate. }
  clearbody s1. destruct N1 as [N1 Hbuf1]. clear N Hbuf Hnext s. rename s1 into s. rename N1 into N. rename Hbuf1 into Hbuf.
  set (rate := t_mul A _ _). set (prate := t_of_v A r). set (ratio := t_div A (t_of_v A (b_rate b)) (t_of_v A sr)). clearbody rate prate.
  (* an equal start time means that the source has not started yet *)
  assert (Fresh : f64_eq (p_start (a_play s)) (block_time A sr f) = true -> p_started (a_play s) = false).
  { intros E. apply f64_eq_R in E; [|exact (n_start _ _ _ N)|exact Fb]. destruct (p_started (a_play s)) eqn:C; [|reflexivity]. pose proof (n_started _ _ _ N C). lra. }
  assert (Main : exists s' chs, (if decide A s b (block_time A sr f) span rate ratio then fast_track A sr (with_aligned s (decide A s b (block_time A sr f) span rate ratio)) b (block_time A sr f) span
     else slow_track A sr almost_equal almost_zero fuel (with_aligned s (decide A s b (block_time A sr f) span rate ratio)) b (block_time A sr f) rate prate ratio) = Ok (s', chs) /\ nice s' (f + 128) true).
  { destruct (decide A s b (block_time A sr f) span rate ratio) eqn:Hd.
    - unfold decide in Hd. apply andb_true_iff in Hd. destruct Hd as [Hd _]. apply andb_true_iff in Hd. destruct Hd as [Hd _]. apply andb_true_iff in Hd. destruct Hd as [Ha Hq].
      apply negb_true_iff in Hq. apply orb_false_iff in Hq. destruct Hq as [Hq _]. apply negb_false_iff in Hq. change (f64_eq (f64_div (f64_of_f32 (b_rate b)) (f64_of_f32 sr)) (f64_of_Z 1) = true) in Hq.
      assert (Px : is_finite (p_time (a_play s)) = true /\ 0 <= B2R (p_time (a_play s)) <= 11 / 10 * (IZR f / S) /\ (p_started (a_play s) = true \/ f64_eq (p_start (a_play s)) (block_time A sr f) = true)).
      { change (t_eq A) with f64_eq in Ha. destruct (f64_eq (p_start (a_play s)) (block_time A sr f) && _) eqn:C.
        - apply andb_true_iff in C. destruct C as [C _]. rewrite (n_fresh _ _ _ N (Fresh C)). destruct zero_val as [E0 F0]. rewrite E0. split; [exact F0|]. split; [lra|right; exact C].
        - destruct (n_aligned _ _ _ N Ha) as (P1 & P2 & P3). auto. }
      destruct Px as (Fx & Bx & St). destruct (fast_safe (with_aligned s true) b f L) as (chs & E); try assumption; [exact (n_loop _ _ _ N)|cbn [with_aligned a_play]; lra|].
      cbn [with_aligned a_play] in E. change (with_aligned s true) with (with_aligned s true) in E. do 2 eexists. split; [exact E|]. set (p := if f64_eq _ _ then _ else _).
      assert (Hp : p_started p = true /\ p_start p = p_start (a_play s)). { unfold p. destruct (f64_eq (p_start (a_play s)) (block_time A sr f)); [split; reflexivity|]. destruct St as [St|St]; [auto|discriminate]. } destruct Hp as [Hp1 Hp2].
      destruct (span_ieee M sr Hsr) as (Fs & As). fold span S in Fs, As. apply Rabs_le_inv in As. change (bpow radix2 (-50)) with (/ 1125899906842624) in As. unfold Rdiv in As.
      destruct (f64_add_err (p_time (a_play s)) span 24) as (Fz & _ & Az & _); [exact Fx|exact Fs|apply eok; lia| |]. { rewrite Rabs_pos_eq by lra. change (bpow radix2 24) with 16777216. lra. }
      apply Rabs_le_inv in Az. change (bpow radix2 (24 - 53)) with (/ 536870912) in Az.
      split; cbn [with_play with_aligned a_play a_loop a_buffer a_aligned p_elapse p_move p_start p_started p_time].
      + exact (n_loop _ _ _ N).
      + intros b' Eb. exact (n_buffer _ _ _ N b' Eb).
      + discriminate.
      + rewrite Hp2. exact (n_start _ _ _ N).
      + rewrite Hp1. discriminate.
      + intros _. rewrite Hp2, En. destruct St as [St|St]; [pose proof (n_started _ _ _ N St); lra|]. apply f64_eq_R in St; [|exact (n_start _ _ _ N)|exact Fb]. lra.
      + intros _. split; [exact Hp1|]. split; [exact Fz|]. rewrite En. assert (B2R (p_time (a_play s)) <= B2R (f64_add (p_time (a_play s)) span)) by (apply rnd_grow; [exact Fx|exact Fs|lra|rewrite Rabs_pos_eq by lra; change (bpow radix2 24) with 16777216; lra]). lra.
    - destruct (slow_track_safe A sr almost_equal almost_zero fuel usize_nonneg
        (fun j p => is_finite (p_start p) = true /\ (p_started p = false -> p_time p = f64_of_Z 0) /\ (p_started p = true -> B2R (p_start p) + / 1000000 <= IZR (f + 128) / S))
        (with_aligned s false) b L (block_time A sr f) rate prate ratio) as (p' & chs & E & Q1 & Q2 & Q3); [exact (n_loop _ _ _ N)|exact Hb| | |].
      + intros j p p' Hj (P1 & P2 & P3) (W1 & W2 & W3). fold (sample_time f j) in W2, W3. destruct (sample_time_ieee f j He Hj) as (Ft & At). fold S in At. apply Rabs_le_inv in At.
        assert (Ej : IZR (f + Z.of_nat j) / S <= IZR f / S + 127 * / S). { rewrite plus_IZR, <- INR_IZR_INZ. unfold Rdiv. rewrite Rmult_plus_distr_r. apply Rplus_le_compat_l. apply Rmult_le_compat_r; [lra|]. rewrite INR_IZR_INZ. apply (IZR_le _ 127). lia. }
        destruct (p_started p') eqn:C.
        * split; [|split; [discriminate|intros _]].
          -- destruct (W2 eq_refl) as [[_ ->]|(_ & _ & [->| ->])]; assumption.
          -- destruct (W2 eq_refl) as [[S0 ->]|(S0 & Lt & [E|E])]; [apply P3; exact S0|rewrite E, En; lra|]. change (t_lt A) with f64_lt in Lt. rewrite E in Lt |- *.
             assert (B2R (p_start p) <= B2R (sample_time f j)). { destruct (Rle_lt_dec (B2R (p_start p)) (B2R (sample_time f j))) as [H|H]; [exact H|]. apply f64_lt_R in H; try assumption. congruence. }
             rewrite En. lra.
        * destruct (W1 eq_refl) as [S0 T0]. split; [destruct (W3 S0 eq_refl) as [->| ->]; assumption|]. split; [intros _; rewrite T0; apply P2; exact S0|discriminate].
      + cbn [with_aligned a_play p_enter p_start p_started p_time]. split; [exact (n_start _ _ _ N)|]. split; [exact (n_fresh _ _ _ N)|]. intros H. pose proof (n_started _ _ _ N H). rewrite En. lra.
      + do 2 eexists. split; [exact E|]. split; cbn [with_play with_aligned a_play a_loop a_buffer a_aligned]; auto; try discriminate; [exact (n_loop _ _ _ N)|exact (n_buffer _ _ _ N)]. }
  change (a_aligned (with_aligned s (decide A s b (block_time A sr f) span rate ratio))) with (decide A s b (block_time A sr f) span rate ratio).
  destruct Main as (s' & chs & E & N'). rewrite E. cbn [bind fst snd]. do 2 eexists. split; [reflexivity|]. destruct (_ || _ || _); [apply nice_finished|]; exact N'.
Qed.

(** actions without a loop; [start] may be called once *)
Fixpoint plain (given : bool) (l : list (@absn_action f64 f32)) : Prop :=
  match l with
  | [] => True
  | A_start t o d :: l' => given = false /\ is_finite t = true /\ plain true l'
  | A_loop b :: l' => b = false /\ plain given l'
  | A_buffer b :: l' => buffer_ok b /\ plain given l'
  | _ :: l' => plain given l'
  end.
Fixpoint absn_quanta {T V} (l : list (@absn_action T V)) : nat := match l with [] => 0 | A_quantum _ _ :: l' => Datatypes.S (absn_quanta l') | _ :: l' => absn_quanta l' end.

Lemma run_nice : forall l (s : @absn f64 f32) f given, nice s f given -> plain given l -> (0 <= f)%Z -> early sr (f + 128 * Z.of_nat (absn_quanta l)) ->
  exists s' os, absn_run A sr almost_equal almost_zero fuel s f l = Ok (s', (f + 128 * Z.of_nat (absn_quanta l))%Z, os) /\ length os = absn_quanta l.
Proof.
  induction l as [|a l IH]; intros s f given N P Hf He; [do 2 eexists; split; [cbn [absn_run absn_quanta]; do 3 f_equal; lia|reflexivity]|]. cbn [plain] in P. destruct a; cbn [absn_run absn_quanta] in *.
  - destruct P as (-> & Ft & P). destruct (n_given _ _ _ N eq_refl) as [_ Ns]. eapply IH; [|exact P|exact Hf|exact He]. apply nice_clamp. destruct N. split; cbn [a_play p_start p_started p_time a_loop a_buffer a_aligned]; auto; try discriminate; rewrite Ns; discriminate.
  - eapply IH; [|exact P|exact Hf|exact He]. apply nice_clamp. destruct N. split; cbn [a_play a_loop a_buffer a_aligned]; assumption.
  - destruct P as [-> P]. eapply IH; [|exact P|exact Hf|exact He]. apply nice_clamp. destruct N. split; cbn [a_play a_loop a_buffer a_aligned]; auto.
  - eapply IH; [|exact P|exact Hf|exact He]. apply nice_clamp. destruct N. split; cbn [a_play a_loop a_buffer a_aligned]; assumption.
  - eapply IH; [|exact P|exact Hf|exact He]. apply nice_clamp. destruct N. split; cbn [a_play a_loop a_buffer a_aligned]; assumption.
  - destruct P as [Hb P]. eapply IH; [|exact P|exact Hf|exact He]. cbn [absn_message].
    assert (N' : nice (mk_absn (a_play s) (a_stop s) (a_duration s) (Some b) (a_loop s) (a_lstart s) (a_lend s) (a_aligned s) (a_ended s)) f given).
    { destruct N. split; cbn [a_play a_loop a_buffer a_aligned]; auto. intros b' E. injection E as <-. exact Hb. }
    destruct (a_buffer s); [exact N'|apply nice_clamp; exact N'].
  - destruct (process_nice s f given playback_rate detune N) as (s' & o & E & N'); [eapply early_less; [exact Hsr|exact He|lia]|]. rewrite E. cbn [bind fst snd]. change (Z.of_nat RQ) with 128%Z.
    destruct (IH s' (f + 128)%Z given N' P) as (s2 & os & E2 & Len); [lia|replace (f + 128 + 128 * Z.of_nat (absn_quanta l))%Z with (f + 128 * Z.of_nat (Datatypes.S (absn_quanta l)))%Z by lia; exact He|].
    rewrite E2. cbn [bind fst snd]. do 2 eexists. split; [do 3 f_equal; lia|cbn [length]; rewrite Len; reflexivity].
Qed.

Lemma safe_run : forall l ls le, plain false l -> early sr (128 * Z.of_nat (absn_quanta l)) ->
  exists s os, absn_run A sr almost_equal almost_zero fuel (absn_new A false ls le) 0 l = Ok (s, (128 * Z.of_nat (absn_quanta l))%Z, os) /\ length os = absn_quanta l.
Proof.
  intros l ls le P He. apply (run_nice l (absn_new A false ls le) 0 false); [|exact P|lia|exact He]. split; cbn [absn_new a_play p_start p_started p_time a_loop a_buffer a_aligned]; auto; try discriminate.
Qed.
End Ieee.
