(** The clock of a quantum in floating point arithmetic. *)
From Coq Require Import List Arith Bool ZArith Reals Lra Lia.
From Flocq Require Import Core BinarySingleNaN.
From Verif Require Import Float_Model Float_Proofs Float_BoundProofs Float_ErrorProofs Buffer_Model Buffer_ResampleProofs
  Arith_Model Arith_Real Source_Model Source_Spec Source_Proofs.
Import ListNotations.
Local Open Scope R_scope.

Section Clock.
Variable M : libm.
Variable sr : f32.
Hypothesis Hsr : rate_ok sr.
Notation A := (ieee M).
Let S : R := B2R (f64_of_f32 sr).

Lemma S_range : 3000 <= S <= 768000.
Proof. exact (proj2 (rate_val sr Hsr)). Qed.
Lemma S_finite : is_finite (f64_of_f32 sr) = true.
Proof. exact (proj1 (rate_val sr Hsr)). Qed.
Lemma S_inv : 1 / 768000 <= / S <= 1 / 3000.
Proof. pose proof S_range. unfold Rdiv. rewrite !Rmult_1_l. split; apply Rinv_le; lra. Qed.

Lemma eok : forall e, (-1000 <= e <= 1000)%Z -> exp_ok 1024 e.
Proof. intros e H. unfold exp_ok. lia. Qed.

(** the clock is used for 2^23 seconds (97 days) *)
Definition early (frame : Z) : Prop := (0 <= frame)%Z /\ IZR (frame + 128) / S <= 8388608.

Lemma early_frame : forall frame, early frame -> (Z.abs frame <= 2 ^ 53)%Z.
Proof.
  intros frame [H0 H]. pose proof S_range as R. assert (IZR (frame + 128) <= 8388608 * 768000).
  { apply Rle_trans with (8388608 * S); [|nra]. apply Rmult_le_reg_r with (/ S); [apply Rinv_0_lt_compat; lra|]. rewrite (Rmult_assoc 8388608), Rinv_r by lra. unfold Rdiv in H. lra. }
  rewrite <- mult_IZR in H1. apply le_IZR in H1. lia.
Qed.
Lemma early_time : forall frame, early frame -> 0 <= IZR frame / S <= 8388608.
Proof.
  intros frame [H0 H]. pose proof S_range as R. split; [apply Rmult_le_pos; [apply (IZR_le 0); exact H0|left; apply Rinv_0_lt_compat; lra]|].
  eapply Rle_trans; [|exact H]. apply Rmult_le_compat_r; [left; apply Rinv_0_lt_compat; lra|apply IZR_le; lia].
Qed.

Lemma block_ieee : forall frame, early frame ->
  is_finite (block_time A sr frame) = true /\ Rabs (B2R (block_time A sr frame) - IZR frame / S) <= bpow radix2 (-29) /\ 0 <= B2R (block_time A sr frame).
Proof.
  intros frame He. pose proof S_range as R. pose proof (early_time frame He) as Ht. destruct (f64_of_Z_exact frame (early_frame frame He)) as [E1 F1].
  unfold block_time. cbn [ieee t_div t_of_Z t_of_v].
  destruct (f64_div_err (f64_of_Z frame) (f64_of_f32 sr) 24) as (F & Er & Ab & Bd); [exact F1|fold S; lra|apply eok; lia| |].
  { rewrite E1. fold S. rewrite Rabs_pos_eq by lra. change (bpow radix2 24) with 16777216. lra. }
  rewrite E1 in *. fold S in Er, Ab. split; [exact F|]. split; [exact Ab|]. rewrite Er. change 0 with (IZR 0).
  apply (rnd_between 53 1024 f64_prec (IZR 0) (IZR 16777216)); [apply (format_int 53 1024 f64_prec f64_emax); lia|apply (format_int 53 1024 f64_prec f64_emax); lia|]. lra.
Qed.

Lemma dt_ieee : is_finite (dt A sr) = true /\ Rabs (B2R (dt A sr) - / S) <= bpow radix2 (-64) /\ 0 < B2R (dt A sr) <= 1 / 2048.
Proof.
  pose proof S_range as R. pose proof S_inv as I. unfold dt, t_one. cbn [ieee t_div t_of_Z t_of_v]. destruct (f64_of_Z_exact 1) as [E1 F1]; [lia|].
  destruct (f64_div_err (f64_of_Z 1) (f64_of_f32 sr) (-11)) as (F & Er & Ab & Bd); [exact F1|fold S; lra|apply eok; lia| |].
  { rewrite E1. fold S. unfold Rdiv. rewrite Rmult_1_l, Rabs_pos_eq by lra. change (bpow radix2 (-11)) with (/ 2048). lra. }
  rewrite E1 in *. fold S in Er, Ab. unfold Rdiv in Ab. rewrite Rmult_1_l in Ab. split; [exact F|]. split; [exact Ab|].
  change (bpow radix2 (-11 - 53)) with (/ 18446744073709551616) in Ab. apply Rabs_le_inv in Ab. apply Rabs_le_inv in Bd. change (bpow radix2 (-11)) with (/ 2048) in Bd. lra.
Qed.

Lemma span_ieee : is_finite (t_mul A (dt A sr) (t_of_Z A (Z.of_nat RQ))) = true /\ Rabs (B2R (t_mul A (dt A sr) (t_of_Z A (Z.of_nat RQ))) - 128 / S) <= bpow radix2 (-50).
Proof.
  destruct dt_ieee as (F & Ab & B). cbn [ieee t_mul t_of_Z]. change (Z.of_nat RQ) with 128%Z. destruct (f64_of_Z_exact 128) as [E1 F1]; [lia|].
  destruct (f64_mul_err (dt A sr) (f64_of_Z 128) 0) as (F2 & _ & Ab2 & _); [exact F|exact F1|apply eok; lia| |].
  { rewrite E1. rewrite Rabs_pos_eq by nra. change (bpow radix2 0) with 1. lra. }
  split; [exact F2|]. rewrite E1 in Ab2. change (bpow radix2 (-64)) with (/ 18446744073709551616) in Ab. change (bpow radix2 (0 - 53)) with (/ 9007199254740992) in Ab2.
  change (bpow radix2 (-50)) with (/ 1125899906842624). apply Rabs_le_inv in Ab. apply Rabs_le_inv in Ab2. apply Rabs_le. unfold Rdiv. lra.
Qed.

Lemma next_ieee : forall frame, early frame ->
  is_finite (next_block_time A sr frame) = true /\ Rabs (B2R (next_block_time A sr frame) - IZR (frame + 128) / S) <= bpow radix2 (-27).
Proof.
  intros frame He. destruct (block_ieee frame He) as (F1 & A1 & P1). destruct span_ieee as (F2 & A2). pose proof (early_time frame He) as Ht. pose proof S_inv as I.
  unfold next_block_time. set (b := block_time A sr frame) in *. set (d := t_mul A (dt A sr) (t_of_Z A (Z.of_nat RQ))) in *.
  change (bpow radix2 (-29)) with (/ 536870912) in A1. change (bpow radix2 (-50)) with (/ 1125899906842624) in A2. apply Rabs_le_inv in A1. apply Rabs_le_inv in A2.
  cbn [ieee t_add]. destruct (f64_add_err b d 24) as (F & _ & Ab & _); [exact F1|exact F2|apply eok; lia| |].
  { change (bpow radix2 24) with 16777216. apply Rabs_le. unfold Rdiv in *. lra. }
  split; [exact F|]. change (bpow radix2 (24 - 53)) with (/ 536870912) in Ab. change (bpow radix2 (-27)) with (/ 134217728). apply Rabs_le_inv in Ab. apply Rabs_le.
  rewrite plus_IZR. unfold Rdiv in *. rewrite Rmult_plus_distr_r. lra.
Qed.

Lemma rnd_grow : forall x d : f64, is_finite x = true -> is_finite d = true -> 0 <= B2R d -> Rabs (B2R x + B2R d) <= bpow radix2 24 -> B2R x <= B2R (f64_add x d).
Proof.
  intros x d Fx Fd P B. destruct (f64_add_err x d 24 Fx Fd (eok 24 ltac:(lia)) B) as (_ & E & _ & _). rewrite E.
  rewrite <- (round_generic radix2 (SpecFloat.fexp 53 1024) ZnearestE (B2R x)) at 1 by apply generic_format_B2R. apply rnd_mono; [exact f64_prec|lra].
Qed.

Lemma advance_last : forall n t, advance A sr (Datatypes.S n) t = t_add A (advance A sr n t) (dt A sr).
Proof. induction n as [|n IH]; intros t; [reflexivity|]. cbn [advance]. rewrite <- IH. reflexivity. Qed.

Lemma advance_ieee : forall frame i, early frame -> (i < 256)%nat ->
  is_finite (advance A sr i (block_time A sr frame)) = true /\
  Rabs (B2R (advance A sr i (block_time A sr frame)) - IZR (frame + Z.of_nat i) / S) <= (INR i + 1) * bpow radix2 (-28) /\
  B2R (block_time A sr frame) <= B2R (advance A sr i (block_time A sr frame)).
Proof.
  intros frame i He. destruct dt_ieee as (Fd & Ad & Bd). pose proof (early_time frame He) as Ht. pose proof S_inv as I. destruct (block_ieee frame He) as (F0 & A0 & P0).
  change (bpow radix2 (-28)) with (/ 268435456). change (bpow radix2 (-64)) with (/ 18446744073709551616) in Ad. apply Rabs_le_inv in Ad.
  induction i as [|i IH]; intros Hi.
  - cbn [advance]. rewrite Z.add_0_r. change (bpow radix2 (-29)) with (/ 536870912) in A0. apply Rabs_le_inv in A0. split; [exact F0|]. split; [apply Rabs_le; cbn [INR]; lra|lra].
  - destruct (IH ltac:(lia)) as (F & Ab & G). rewrite advance_last. set (t := advance A sr i (block_time A sr frame)) in *.
    assert (Bi : INR i <= 255) by (rewrite INR_IZR_INZ; apply IZR_le; lia). assert (P : 0 <= INR i) by apply pos_INR.
    assert (Ei : IZR (frame + Z.of_nat i) / S = IZR frame / S + INR i * / S) by (rewrite plus_IZR, <- INR_IZR_INZ; unfold Rdiv; ring).
    assert (Ei' : IZR (frame + Z.of_nat (Datatypes.S i)) / S = IZR frame / S + INR i * / S + / S) by (rewrite plus_IZR, <- INR_IZR_INZ, S_INR; unfold Rdiv; ring).
    rewrite Ei in Ab. rewrite Ei'. apply Rabs_le_inv in Ab. assert (Q : 0 <= INR i * / S <= 255 * (1 / 3000)) by (split; nra).
    assert (B : Rabs (B2R t + B2R (dt A sr)) <= bpow radix2 24). { change (bpow radix2 24) with 16777216. apply Rabs_le. lra. }
    cbn [ieee t_add]. destruct (f64_add_err t (dt A sr) 24 F Fd (eok 24 ltac:(lia)) B) as (F2 & _ & Ab2 & _).
    pose proof (rnd_grow t (dt A sr) F Fd ltac:(lra) B) as G2. split; [exact F2|]. split; [|lra].
    change (bpow radix2 (24 - 53)) with (/ 536870912) in Ab2. apply Rabs_le_inv in Ab2. apply Rabs_le. rewrite S_INR. lra.
Qed.

Lemma advance_before_next : forall frame i, early frame -> (i < 128)%nat -> B2R (advance A sr i (block_time A sr frame)) < B2R (next_block_time A sr frame).
Proof.
  intros frame i He Hi. destruct (advance_ieee frame i He ltac:(lia)) as (_ & Ab & _). destruct (next_ieee frame He) as (_ & An). pose proof S_inv as I.
  change (bpow radix2 (-28)) with (/ 268435456) in Ab. change (bpow radix2 (-27)) with (/ 134217728) in An. apply Rabs_le_inv in Ab. apply Rabs_le_inv in An.
  assert (Bi : INR i <= 127) by (rewrite INR_IZR_INZ; apply IZR_le; lia). assert (P : 0 <= INR i) by apply pos_INR.
  rewrite plus_IZR in An, Ab. rewrite <- INR_IZR_INZ in Ab. unfold Rdiv in *. rewrite Rmult_plus_distr_r in An, Ab.
  assert ((128 - INR i) * / S >= / S) by nra. lra.
Qed.

(** ** The output of a quantum *)
(** the order of times that are not NaN *)
Definition tval (x : f64) : R := val 53 1024 x.
Lemma lt_tval : forall x y, is_nan x = false -> is_nan y = false -> t_lt A x y = R_lt (tval x) (tval y).
Proof.
  intros x y Nx Ny. cbn [ieee t_lt]. unfold f64_lt, R_lt, tval. destruct (Rlt_dec _ _) as [H|H]; [apply (lt_val 53 1024); assumption|].
  apply (lt_val_false 53 1024); [assumption|assumption|lra].
Qed.
Lemma le_tval : forall x y, is_nan x = false -> is_nan y = false -> t_le A x y = R_le (tval x) (tval y).
Proof.
  intros x y Nx Ny. cbn [ieee t_le]. unfold f64_le, R_le, tval. destruct (Rle_dec _ _) as [H|H]; [apply (le_val 53 1024); assumption|].
  apply (le_val_false 53 1024); [assumption|assumption|lra].
Qed.
Lemma tval_finite : forall x, is_finite x = true -> tval x = B2R x.
Proof. intros. apply val_finite. assumption. Qed.

Lemma cs_output_ieee : forall (s : @csource f64) frame (offset : list f32) s' o, values_ok offset -> is_nan (cs_start s) = false -> is_nan (cs_stop s) = false -> early frame ->
  cs_process A sr s frame offset = (s', o) ->
  o_output o = map (fun i => if f64_le (cs_start s) (advance A sr i (block_time A sr frame)) && f64_lt (advance A sr i (block_time A sr frame)) (cs_stop s)
                             then value_at f32_zero offset i else f32_zero) (seq 0 128).
Proof.
  intros s frame offset s' o Vo Ns Np He H. assert (Ft : forall i, (i < 128)%nat -> is_finite (advance A sr i (block_time A sr frame)) = true) by (intros i Hi; apply (advance_ieee frame i He); lia).
  destruct (next_ieee frame He) as [Fn _]. destruct (block_ieee frame He) as (Fb & _ & _).
  assert (L1 : forall i, (i < 128)%nat -> tval (advance A sr i (block_time A sr frame)) < tval (next_block_time A sr frame)).
  { intros i Hi. rewrite !tval_finite by auto. apply advance_before_next; assumption. }
  assert (L2 : forall i, (i < 128)%nat -> tval (block_time A sr frame) <= tval (advance A sr i (block_time A sr frame))).
  { intros i Hi. rewrite !tval_finite by auto. apply (advance_ieee frame i He). lia. }
  rewrite (cs_output A sr (fun x => is_nan x = false) tval lt_tval le_tval s frame offset s' o Vo Ns Np (finite_not_nan _ _ _ Fn) (fun i Hi => finite_not_nan _ _ _ (Ft i Hi)) L1 L2 H).
  apply map_ext_in. intros i Hi. apply in_seq in Hi. assert (N : is_nan (advance A sr i (block_time A sr frame)) = false) by (apply finite_not_nan, Ft; lia).
  rewrite <- le_tval, <- lt_tval by assumption. reflexivity.
Qed.

(** the time the code assigns to frame [n] *)
Definition frame_time (n : Z) : f64 := advance A sr (Z.to_nat (n mod 128)) (block_time A sr (n / 128 * 128)).
Definition in_time_ieee (start stop : option f64) (n : Z) : bool :=
  match start with
  | None => false
  | Some s => f64_le s (frame_time n) && match stop with None => true | Some e => f64_lt (frame_time n) e end
  end.
Definition valid_time (x : f64) : Prop := is_finite x = true /\ f64_le f64_zero x = true.
Definition time_of (o : option f64) : f64 := match o with Some v => v | None => f64_MAX end.

Lemma frame_time_split : forall q i, (i < 128)%nat -> frame_time (128 * q + Z.of_nat i) = advance A sr i (block_time A sr (128 * q)).
Proof.
  intros q i Hi. unfold frame_time. replace ((128 * q + Z.of_nat i) mod 128)%Z with (Z.of_nat i).
  - rewrite Nat2Z.id. f_equal. f_equal. replace ((128 * q + Z.of_nat i) / 128)%Z with q; [lia|]. apply Z.div_unique with (Z.of_nat i); lia.
  - apply Z.mod_unique with q; lia.
Qed.

Lemma max_big : B2R f64_MAX = IZR (2 ^ 53 - 1) * bpow radix2 971.
Proof. unfold f64_MAX. reflexivity. Qed.
Lemma below_max : forall x : f64, is_finite x = true -> B2R x <= 16777216 -> f64_le f64_MAX x = false /\ f64_lt x f64_MAX = true.
Proof.
  intros x F B. assert (L : B2R x < B2R f64_MAX).
  { rewrite max_big. assert (1 <= bpow radix2 971) by (change 1 with (bpow radix2 0); apply bpow_le; lia). change (IZR (2 ^ 53 - 1)) with 9007199254740991. nra. }
  split; [|apply f64_lt_R; [exact F|reflexivity|exact L]]. destruct (f64_le f64_MAX x) eqn:E; [|reflexivity]. apply f64_le_R in E; [lra|reflexivity|exact F].
Qed.

Lemma expected_run_ieee : forall (l : list (@cs_action f64 f32)) (s : @csource f64) q start stop, Forall (action_ok valid_time) l -> (0 <= q)%Z ->
  cs_start s = time_of start -> cs_stop s = time_of stop -> is_finite (cs_start s) = true -> is_finite (cs_stop s) = true ->
  IZR (128 * (q + Z.of_nat (quanta l))) / S <= 8388608 ->
  map (@o_output f32) (snd (cs_run A sr s (128 * q) l)) = expected in_time_ieee f32_zero start stop (128 * q) l.
Proof.
  induction l as [|a l IH]; intros s q start stop Hl Hq Es Ep Fs Fp Hm; [reflexivity|]. apply Forall_cons_iff in Hl. destruct Hl as [Ha Hl].
  destruct a as [v|v|offset]; cbn [cs_run expected].
  - apply (IH (mk_csource v (cs_stop s) (cs_ended s)) q (Some v) stop); try assumption; try reflexivity. exact (proj1 Ha).
  - apply (IH (mk_csource (cs_start s) v (cs_ended s)) q start (Some v)); try assumption; try reflexivity. exact (proj1 Ha).
  - destruct (cs_process A sr s (128 * q) offset) as [s1 o] eqn:E. destruct (cs_process_event A sr _ _ _ _ _ E) as (_ & _ & E1 & E2).
    change (quanta (Quantum offset :: l)) with (Datatypes.S (quanta l)) in Hm.
    assert (He : early (128 * q)).
    { split; [lia|]. eapply Rle_trans; [|exact Hm]. pose proof S_range. apply Rmult_le_compat_r; [left; apply Rinv_0_lt_compat; lra|apply IZR_le; lia]. }
    specialize (IH s1 (q + 1)%Z start stop Hl ltac:(lia) ltac:(congruence) ltac:(congruence) ltac:(congruence) ltac:(congruence)).
    change (Z.of_nat RQ) with 128%Z. replace (128 * q + 128)%Z with (128 * (q + 1))%Z by lia.
    destruct (cs_run A sr s1 (128 * (q + 1)) l) as [[s2 f2] os] eqn:E3. cbn [snd map] in *.
    f_equal; [|apply IH; replace (q + 1 + Z.of_nat (quanta l))%Z with (q + Z.of_nat (Datatypes.S (quanta l)))%Z by lia; exact Hm].
    rewrite (cs_output_ieee _ _ _ _ _ Ha (finite_not_nan _ _ _ Fs) (finite_not_nan _ _ _ Fp) He E), Es, Ep. apply map_ext_in. intros i Hi. apply in_seq in Hi.
    rewrite <- frame_time_split by lia.
    destruct (below_max (frame_time (128 * q + Z.of_nat i))) as [M1 M2].
    { rewrite frame_time_split by lia. apply (advance_ieee _ i He). lia. }
    { rewrite frame_time_split by lia. pose proof (advance_before_next _ i He ltac:(lia)) as B1. destruct (next_ieee _ He) as [_ B2]. apply Rabs_le_inv in B2. change (bpow radix2 (-27)) with (/ 134217728) in B2. destruct He as [_ He]. lra. }
    unfold in_time_ieee, time_of. destruct start as [st|]; [|rewrite M1; reflexivity]. destruct stop as [sp|]; [reflexivity|]. rewrite M2, andb_true_r. reflexivity.
Qed.

(** how far that time is from [n/sr] *)
Lemma frame_time_error : forall n, (0 <= n)%Z -> IZR (n + 128) / S <= 8388608 ->
  is_finite (frame_time n) = true /\ Rabs (B2R (frame_time n) - IZR n / S) <= / 2097152.
Proof.
  intros n Hn Hb. assert (D : (n = 128 * (n / 128) + n mod 128)%Z) by (apply Z.div_mod; lia). pose proof (Z.mod_pos_bound n 128 ltac:(lia)) as B.
  assert (He : early (128 * (n / 128))).
  { split; [pose proof (Z.div_pos n 128); lia|]. eapply Rle_trans; [|exact Hb]. pose proof S_range. apply Rmult_le_compat_r; [left; apply Rinv_0_lt_compat; lra|apply IZR_le; lia]. }
  assert (E : frame_time n = advance A sr (Z.to_nat (n mod 128)) (block_time A sr (128 * (n / 128)))).
  { rewrite <- frame_time_split by lia. f_equal. lia. }
  destruct (advance_ieee _ (Z.to_nat (n mod 128)) He ltac:(lia)) as (F & Ab & _). rewrite E. split; [exact F|].
  replace (128 * (n / 128) + Z.of_nat (Z.to_nat (n mod 128)))%Z with n in Ab by lia. eapply Rle_trans; [exact Ab|].
  change (bpow radix2 (-28)) with (/ 268435456). assert (INR (Z.to_nat (n mod 128)) <= 127) by (rewrite INR_IZR_INZ; apply IZR_le; lia). lra.
Qed.

(** ** After the ended event only the first sample of the next quantum may sound *)
Definition late (s : @csource f64) (n : Z) : Prop :=
  cs_ended s = true /\ is_finite (cs_start s) = true /\ is_finite (cs_stop s) = true /\ B2R (cs_stop s) <= IZR n / S + bpow radix2 (-27).

Lemma event_late : forall (s : @csource f64) frame offset s' o, early frame -> is_finite (cs_start s) = true -> is_finite (cs_stop s) = true ->
  cs_process A sr s frame offset = (s', o) -> o_event o = true -> late s' (frame + 128).
Proof.
  intros s frame offset s' o He Fs Fp E Ev. destruct (next_ieee frame He) as [Fn Bn]. apply Rabs_le_inv in Bn. unfold cs_process in E.
  destruct (t_le A (next_block_time A sr frame) (cs_start s)).
  - destruct (t_le A (cs_stop s) (next_block_time A sr frame)) eqn:E1; injection E as <- <-; [|discriminate].
    split; [reflexivity|]. cbn [cs_start cs_stop]. split; [exact Fs|]. split; [exact Fp|]. apply (f64_le_R (cs_stop s) _ Fp Fn) in E1. lra.
  - cbv zeta in E. set (out := if (length offset =? 1)%nat && _ && _ then _ else _) in E. clearbody out.
    destruct (t_lt A (next_block_time A sr frame) (cs_stop s)) eqn:E1; injection E as <- <-; [discriminate|].
    split; [reflexivity|]. cbn [cs_start cs_stop]. split; [exact Fs|]. split; [exact Fp|].
    assert (B2R (cs_stop s) <= B2R (next_block_time A sr frame)); [|lra]. destruct (Rle_lt_dec (B2R (cs_stop s)) (B2R (next_block_time A sr frame))) as [L|L]; [exact L|].
    apply (f64_lt_R _ (cs_stop s) Fn Fp) in L. cbn [ieee t_lt] in E1. congruence.
Qed.

Lemma late_process : forall (s : @csource f64) n frame offset s' o, values_ok offset -> early frame -> late s n -> (n <= frame)%Z ->
  cs_process A sr s frame offset = (s', o) ->
  late s' n /\ o_event o = false /\ exists x xs, o_output o = x :: xs /\ Forall (eq f32_zero) xs /\ ((n < frame)%Z -> x = f32_zero).
Proof.
  intros s n frame offset s' o Vo He (Q1 & Q2 & Q3 & Q4) Hn E. pose proof (cs_output_ieee _ _ _ _ _ Vo (finite_not_nan _ _ _ Q2) (finite_not_nan _ _ _ Q3) He E) as Out.
  destruct (cs_process_event A sr _ _ _ _ _ E) as (E1 & E2 & E3 & E4).
  split; [unfold late; rewrite E1, E3, E4, Q1; auto|]. split; [destruct (o_event o); [rewrite E2 in Q1 by reflexivity; discriminate|reflexivity]|].
  set (f := fun i => _) in Out. change (seq 0 128) with (0%nat :: seq 1 127) in Out. cbn [map] in Out.
  assert (Z : forall i, (i < 128)%nat -> (n < frame + Z.of_nat i)%Z -> f i = f32_zero).
  { intros i Hi L. unfold f. destruct (advance_ieee frame i He ltac:(lia)) as (F & Ab & G). destruct (f64_lt _ (cs_stop s)) eqn:El; [|rewrite andb_false_r; reflexivity]. exfalso.
    apply f64_lt_R in El; [|exact F|exact Q3]. change (bpow radix2 (-28)) with (/ 268435456) in Ab. change (bpow radix2 (-27)) with (/ 134217728) in Q4. apply Rabs_le_inv in Ab. pose proof S_inv as I.
    pose proof S_range as R. pose proof (pos_INR i) as Pi.
    destruct (Z.eq_dec n frame) as [->|Ne].
    - rewrite plus_IZR, <- INR_IZR_INZ in Ab. unfold Rdiv in *. rewrite Rmult_plus_distr_r in Ab. assert (1 <= INR i) by (rewrite INR_IZR_INZ; apply IZR_le; lia).
      nra.
    - assert (IZR (n + 1) / S <= IZR frame / S) by (apply Rmult_le_compat_r; [left; apply Rinv_0_lt_compat; lra|apply IZR_le; lia]).
      rewrite plus_IZR in H. rewrite plus_IZR, <- INR_IZR_INZ in Ab. unfold Rdiv in *. rewrite Rmult_plus_distr_r in Ab, H. nra. }
  exists (f 0%nat), (map f (seq 1 127)). split; [exact Out|]. split.
  - apply Forall_map. apply Forall_forall. intros i Hi. apply in_seq in Hi. symmetry. apply Z; lia.
  - intros L. apply Z; lia.
Qed.

Lemma late_run : forall (l : list (@cs_action f64 f32)) (s : @csource f64) n q, Forall (action_ok valid_time) l -> (forall v, ~ In (Stop v) l) -> late s n -> (0 <= q)%Z -> (n <= 128 * q)%Z ->
  IZR (128 * (q + Z.of_nat (quanta l))) / S <= 8388608 ->
  let os := snd (cs_run A sr s (128 * q) l) in
  Forall (fun o => o_event o = false) os /\ Forall (eq f32_zero) (tl (concat (map (@o_output f32) os))) /\ ((n < 128 * q)%Z -> Forall (eq f32_zero) (concat (map (@o_output f32) os))).
Proof.
  induction l as [|a l IH]; intros s n q Hl Hn Q Hq Hnq Hm; [repeat split; constructor|]. apply Forall_cons_iff in Hl. destruct Hl as [Ha Hl].
  assert (Hn' : forall v, ~ In (Stop v) l) by (intros v C; apply (Hn v); right; exact C).
  destruct a as [v|v|offset]; cbn [cs_run].
  - apply (IH _ n q); try assumption. destruct Q as (Q1 & Q2 & Q3 & Q4). split; [exact Q1|]. split; [exact (proj1 Ha)|]. split; assumption.
  - exfalso. apply (Hn v). left. reflexivity.
  - change (quanta (Quantum offset :: l)) with (Datatypes.S (quanta l)) in Hm.
    assert (He : early (128 * q)).
    { split; [lia|]. eapply Rle_trans; [|exact Hm]. pose proof S_range. apply Rmult_le_compat_r; [left; apply Rinv_0_lt_compat; lra|apply IZR_le; lia]. }
    destruct (cs_process A sr s (128 * q) offset) as [s1 o] eqn:E. destruct (late_process _ _ _ _ _ _ Ha He Q Hnq E) as (Q1 & O1 & x & xs & O2 & O3 & O4).
    specialize (IH s1 n (q + 1)%Z Hl Hn' Q1 ltac:(lia) ltac:(lia)). replace (q + 1 + Z.of_nat (quanta l))%Z with (q + Z.of_nat (Datatypes.S (quanta l)))%Z in IH by lia.
    specialize (IH Hm). change (Z.of_nat RQ) with 128%Z. replace (128 * q + 128)%Z with (128 * (q + 1))%Z by lia.
    destruct (cs_run A sr s1 (128 * (q + 1)) l) as [[s2 f2] os] eqn:E3. cbn [snd map concat] in *. destruct IH as (I1 & _ & I3). specialize (I3 ltac:(lia)).
    rewrite O2. cbn [app tl]. split; [constructor; assumption|]. split; [apply Forall_app; split; assumption|].
    intros L. constructor; [symmetry; auto|apply Forall_app; split; assumption].
Qed.

Lemma run_finite : forall (l : list (@cs_action f64 f32)) (s : @csource f64) f s' f' os, Forall (action_ok valid_time) l -> is_finite (cs_start s) = true -> is_finite (cs_stop s) = true ->
  cs_run A sr s f l = (s', f', os) -> is_finite (cs_start s') = true /\ is_finite (cs_stop s') = true.
Proof.
  induction l as [|a l IH]; intros s f s' f' os Hl F1 F2 H; cbn [cs_run] in H; [injection H as <- <- <-; auto|]. apply Forall_cons_iff in Hl. destruct Hl as [Ha Hl].
  destruct a as [v|v|offset].
  - eapply IH; [exact Hl| | |exact H]; [exact (proj1 Ha)|exact F2].
  - eapply IH; [exact Hl| | |exact H]; [exact F1|exact (proj1 Ha)].
  - destruct (cs_process A sr s f offset) as [s1 o] eqn:E. destruct (cs_run A sr s1 _ l) as [[s2 f2] os2] eqn:E2. injection H as <- <- <-. destruct (cs_process_event A sr _ _ _ _ _ E) as (_ & _ & E3 & E4).
    eapply IH; [exact Hl| | |exact E2]; congruence.
Qed.

Lemma late_after_event : forall (l1 : list (@cs_action f64 f32)) offset l2 s f os o, Forall (action_ok valid_time) (l1 ++ Quantum offset :: l2) -> (forall v, ~ In (Stop v) l2) ->
  IZR (128 * Z.of_nat (quanta (l1 ++ Quantum offset :: l2))) / S <= 8388608 ->
  cs_run A sr (cs_new A) 0 (l1 ++ [Quantum offset]) = (s, f, os ++ [o]) -> o_event o = true ->
  let os := snd (cs_run A sr s f l2) in
  Forall (fun o' => o_event o' = false) os /\ Forall (eq f32_zero) (tl (concat (map (@o_output f32) os))).
Proof.
  intros l1 offset l2 s f os o Hl Hn Hm H Ev. assert (Qs : quanta (l1 ++ Quantum offset :: l2) = (quanta l1 + Datatypes.S (quanta l2))%nat) by (unfold quanta; rewrite filter_app, app_length; reflexivity).
  rewrite Qs in Hm. pose proof (cs_run_frame A sr l1 (cs_new A) 0) as Fr. rewrite cs_run_app in H.
  destruct (cs_run A sr (cs_new A) 0 l1) as [[s1 f1] o1] eqn:E1. cbn [fst snd] in Fr. cbn [cs_run] in H. apply Forall_app in Hl. destruct Hl as [Hl1 Hl]. apply Forall_cons_iff in Hl. destruct Hl as [Ha Hl].
  destruct (run_finite _ (cs_new A) _ _ _ _ Hl1 eq_refl eq_refl E1) as [F1 F2].
  destruct (cs_process A sr s1 f1 offset) as [s2 o2] eqn:E2. injection H as <- <- H. apply app_inj_tail in H. destruct H as [_ ->].
  replace f1 with (128 * Z.of_nat (quanta l1))%Z in * by lia. change (Z.of_nat RQ) with 128%Z. replace (128 * Z.of_nat (quanta l1) + 128)%Z with (128 * (Z.of_nat (quanta l1) + 1))%Z by lia.
  assert (L : late s2 (128 * (Z.of_nat (quanta l1) + 1))).
  { replace (128 * (Z.of_nat (quanta l1) + 1))%Z with (128 * Z.of_nat (quanta l1) + 128)%Z by lia. eapply event_late; [|exact F1|exact F2|exact E2|exact Ev].
    split; [lia|]. eapply Rle_trans; [|exact Hm]. pose proof S_range. apply Rmult_le_compat_r; [left; apply Rinv_0_lt_compat; lra|apply IZR_le; lia]. }
  destruct (late_run l2 s2 _ (Z.of_nat (quanta l1) + 1) Hl Hn L ltac:(lia) ltac:(lia)) as (R1 & R2 & _); [|split; assumption].
  replace (Z.of_nat (quanta l1) + 1 + Z.of_nat (quanta l2))%Z with (Z.of_nat (quanta l1 + Datatypes.S (quanta l2)))%Z by lia. exact Hm.
Qed.
End Clock.
