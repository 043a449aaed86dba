(** Proofs about parameters set at the current time. *)
From Coq Require Import List Arith Bool ZArith Lia Reals Lra Psatz.
From Flocq Require Import Core BinarySingleNaN.
From Verif Require Import Float_Model Float_Proofs Float_BoundProofs Float_ErrorProofs Param_Model Param_Inst Param_Spec Param_IeeeProofs Buffer_Model Buffer_ResampleProofs Osc_IeeeProofs.
From Verif Require Import Clock_Model Clock_Spec Clock_Proofs Now_Proofs.
From Verif Require Import NowParam_Spec.
Import ListNotations.
Local Open Scope R_scope.

Lemma combine_repeat {A B} (a : A) (b : B) n : combine (repeat a n) (repeat b n) = repeat (a, b) n.
Proof. induction n as [|n IH]; [reflexivity|]. cbn [repeat combine]. rewrite IH. reflexivity. Qed.
Lemma map_repeated {A B} (f : A -> B) a n : map f (repeat a n) = repeat (f a) n.
Proof. induction n as [|n IH]; [reflexivity|]. cbn [repeat map]. rewrite IH. reflexivity. Qed.
Lemma set_generic {T V} (P : @param_ops T V) (p : @param T V) v t bt dt silent cur :
  p_timeline p = [] -> p_arate p = true -> v_finite P v = true -> valid_time P t = true ->
  v_clamp P (p_intrinsic p) (p_min p) (p_max p) = Some cur ->
  let next := t_fma P dt (t_of_nat P 128) bt in
  let time := if t_eq P t (t_zero P) then bt else t in
  t_le P next t = false -> end_index P (mk_block bt dt 128 true next) time = 0%nat -> t_lt P next time = false ->
  exists p', prun P 128 p [Schedule (C_set_value_at_time v t); Quantum bt dt (repeat (v_zero P) 128) silent] = Ok (p', [repeat (limit P p (v_add P (v_zero P) v)) 128]).
Proof.
  intros HT HA HV Ht Hc next time H1 H2 H3.
  assert (E1 : pstep P 128 p (Schedule (C_set_value_at_time v t)) = Ok (set_timeline p [simple SetValueAtTime v t], [])).
  { cbn [pstep call_event]. rewrite HV, Ht. cbn [andb]. unfold handle_incoming_event, curve_checks. cbn [simple ev_type etype_eqb]. rewrite HT. cbn [forallb]. cbn [bind].
    destruct (p_last p); reflexivity. }
  remember (repeat (v_zero P) 128) as input eqn:HI. cbn [prun]. rewrite E1. cbn [bind fst snd]. cbn [pstep]. unfold process, compute_buffer.
  change (p_intrinsic (set_timeline p [simple SetValueAtTime v t])) with (p_intrinsic p). change (p_min (set_timeline p [simple SetValueAtTime v t])) with (p_min p).
  change (p_max (set_timeline p [simple SetValueAtTime v t])) with (p_max p). rewrite Hc. cbn [from_option bind].
  set (p1 := set_buffer (set_current (set_timeline p [simple SetValueAtTime v t]) cur) []).
  assert (T1 : p_timeline p1 = [simple SetValueAtTime v t]) by reflexivity. assert (A1 : p_arate p1 = true) by exact HA. rewrite T1. cbn [is_ramp ev_type simple ev_time]. fold next. rewrite H1, A1.
  cbn [negb orb bind]. rewrite T1, A1. cbn [length Nat.mul Nat.add do_events]. unfold do_event at 1. rewrite T1. cbn [ev_type simple].
  unfold do_set_value. cbn [ev_time simple b_time b_arate b_next]. fold time. rewrite H2, H3. cbn [Nat.sub repeat].
  assert (B1 : p_buffer p1 = []) by reflexivity. unfold extend at 1. rewrite B1. cbn [length Nat.add Nat.leb app bind fst snd].
  unfold do_event at 1. cbn [p_timeline set_last set_timeline set_intrinsic set_buffer]. cbn [b_arate b_count]. unfold extend.
  cbn [p_buffer p_intrinsic set_last set_timeline set_intrinsic set_buffer ev_value simple length]. rewrite repeat_length. 
  change (Nat.leb (0 + (128 - 0)) 128) with true. cbv iota. cbn [bind fst snd app Nat.sub]. unfold mix_to_output. cbn [p_buffer set_buffer set_last set_timeline set_intrinsic p_arate].
  rewrite repeat_length. change (Nat.eqb 128 1) with false. rewrite A1. cbn [negb orb]. cbn [bind fst snd].
  rewrite HI, combine_repeat, map_repeated, skipn_all2 by (rewrite repeat_length; lia). rewrite !app_nil_r. cbn [fst snd app]. eexists. reflexivity.
Qed.

Lemma combine_same {A B} (l : list A) (b : B) : combine l (repeat b (length l)) = map (fun x => (x, b)) l.
Proof. induction l as [|x l IH]; [reflexivity|]. cbn [length repeat combine map]. rewrite IH. reflexivity. Qed.
Lemma set_generic_in {T V} (P : @param_ops T V) (p : @param T V) v t bt dt silent cur input : length input = 128%nat ->
  p_timeline p = [] -> p_arate p = true -> v_finite P v = true -> valid_time P t = true ->
  v_clamp P (p_intrinsic p) (p_min p) (p_max p) = Some cur ->
  let next := t_fma P dt (t_of_nat P 128) bt in
  let time := if t_eq P t (t_zero P) then bt else t in
  t_le P next t = false -> end_index P (mk_block bt dt 128 true next) time = 0%nat -> t_lt P next time = false ->
  exists p', prun P 128 p [Schedule (C_set_value_at_time v t); Quantum bt dt input silent] = Ok (p', [map (fun i => limit P p (v_add P i v)) input]).
Proof.
  intros HL HT HA HV Ht Hc next time H1 H2 H3.
  assert (E1 : pstep P 128 p (Schedule (C_set_value_at_time v t)) = Ok (set_timeline p [simple SetValueAtTime v t], [])).
  { cbn [pstep call_event]. rewrite HV, Ht. cbn [andb]. unfold handle_incoming_event, curve_checks. cbn [simple ev_type etype_eqb]. rewrite HT. cbn [forallb]. cbn [bind].
    destruct (p_last p); reflexivity. }
  cbn [prun]. rewrite E1. cbn [bind fst snd]. cbn [pstep]. unfold process, compute_buffer.
  change (p_intrinsic (set_timeline p [simple SetValueAtTime v t])) with (p_intrinsic p). change (p_min (set_timeline p [simple SetValueAtTime v t])) with (p_min p).
  change (p_max (set_timeline p [simple SetValueAtTime v t])) with (p_max p). rewrite Hc. cbn [from_option bind].
  set (p1 := set_buffer (set_current (set_timeline p [simple SetValueAtTime v t]) cur) []).
  assert (T1 : p_timeline p1 = [simple SetValueAtTime v t]) by reflexivity. assert (A1 : p_arate p1 = true) by exact HA. rewrite T1. cbn [is_ramp ev_type simple ev_time]. fold next. rewrite H1, A1.
  cbn [negb orb bind]. rewrite T1, A1. cbn [length Nat.mul Nat.add do_events]. unfold do_event at 1. rewrite T1. cbn [ev_type simple].
  unfold do_set_value. cbn [ev_time simple b_time b_arate b_next]. fold time. rewrite H2, H3. cbn [Nat.sub repeat].
  assert (B1 : p_buffer p1 = []) by reflexivity. unfold extend at 1. rewrite B1. cbn [length Nat.add Nat.leb app bind fst snd].
  unfold do_event at 1. cbn [p_timeline set_last set_timeline set_intrinsic set_buffer]. cbn [b_arate b_count]. unfold extend.
  cbn [p_buffer p_intrinsic set_last set_timeline set_intrinsic set_buffer ev_value simple length]. rewrite repeat_length. 
  change (Nat.leb (0 + (128 - 0)) 128) with true. cbv iota. cbn [bind fst snd app Nat.sub]. unfold mix_to_output. cbn [p_buffer set_buffer set_last set_timeline set_intrinsic p_arate].
  rewrite repeat_length. change (Nat.eqb 128 1) with false. rewrite A1. cbn [negb orb]. cbn [bind fst snd].
  replace (combine input (repeat v 128)) with (combine input (repeat v (length input))) by (rewrite HL; reflexivity). rewrite combine_same, map_map, skipn_all2 by lia. rewrite !app_nil_r. cbn [fst snd app]. eexists. reflexivity.
Qed.

(** k-rate: the block after the message has the old value, the next one the new value *)
Lemma set_generic_k {T V} (P : @param_ops T V) (p : @param T V) v t bt bt2 dt silent silent2 cur cur2 i1 i2 zs zs2 :
  p_timeline p = [] -> p_arate p = false -> v_finite P v = true -> valid_time P t = true ->
  v_clamp P (p_intrinsic p) (p_min p) (p_max p) = Some cur -> v_clamp P v (p_min p) (p_max p) = Some cur2 ->
  let next := t_fma P dt (t_of_nat P 128) bt in
  let time := if t_eq P t (t_zero P) then bt else t in
  t_le P next t = false -> t_lt P next time = false ->
  exists p', prun P 128 p [Schedule (C_set_value_at_time v t); Quantum bt dt (i1 :: zs) silent; Quantum bt2 dt (i2 :: zs2) silent2] =
    Ok (p', [[limit P p (v_add P (p_intrinsic p) i1)]; [limit P p (v_add P v i2)]]).
Proof.
  intros HT HA HV Ht Hc Hc2 next time H1 H3.
  assert (E1 : pstep P 128 p (Schedule (C_set_value_at_time v t)) = Ok (set_timeline p [simple SetValueAtTime v t], [])).
  { cbn [pstep call_event]. rewrite HV, Ht. cbn [andb]. unfold handle_incoming_event, curve_checks. cbn [simple ev_type etype_eqb]. rewrite HT. cbn [forallb]. cbn [bind].
    destruct (p_last p); reflexivity. }
  set (last := Some (if t_eq P time t then simple SetValueAtTime v t else with_time (simple SetValueAtTime v t) time)).
  set (q := set_last (set_timeline (set_intrinsic (set_buffer (set_current (set_timeline p [simple SetValueAtTime v t]) cur) [p_intrinsic p]) v) []) last).
  assert (E2 : pstep P 128 (set_timeline p [simple SetValueAtTime v t]) (Quantum bt dt (i1 :: zs) silent) = Ok (q, [[limit P p (v_add P (p_intrinsic p) i1)]])).
  { cbn [pstep]. unfold process, compute_buffer.
    change (p_intrinsic (set_timeline p [simple SetValueAtTime v t])) with (p_intrinsic p). change (p_min (set_timeline p [simple SetValueAtTime v t])) with (p_min p).
    change (p_max (set_timeline p [simple SetValueAtTime v t])) with (p_max p). rewrite Hc. cbn [from_option bind].
    set (p1 := set_buffer (set_current (set_timeline p [simple SetValueAtTime v t]) cur) []).
    assert (T1 : p_timeline p1 = [simple SetValueAtTime v t]) by reflexivity. assert (A1 : p_arate p1 = false) by exact HA. rewrite T1. cbn [is_ramp ev_type simple ev_time]. fold next. rewrite H1, A1.
    cbn [negb orb]. unfold extend at 1. change (p_buffer p1) with (@nil V). cbn [length Nat.add Nat.leb app bind]. change (p_intrinsic p1) with (p_intrinsic p).
    set (p2 := set_buffer p1 [p_intrinsic p]). assert (T2 : p_timeline p2 = [simple SetValueAtTime v t]) by reflexivity. assert (A2 : p_arate p2 = false) by exact HA. rewrite T2, A2.
    cbn [length Nat.mul Nat.add do_events]. unfold do_event at 1. rewrite T2. cbn [ev_type simple]. unfold do_set_value. cbn [ev_time simple b_time b_arate b_next bind]. fold time. rewrite H3.
    cbn [bind fst snd]. unfold do_event at 1. cbn [p_timeline set_last set_timeline set_intrinsic]. cbn [b_arate bind fst snd]. unfold mix_to_output.
    cbn [p_buffer p_arate set_last set_timeline set_intrinsic]. rewrite A2. change (p_buffer p2) with [p_intrinsic p]. cbn [length Nat.eqb negb orb]. rewrite orb_true_r. cbn [bind fst snd]. reflexivity. }
  assert (E3 : exists q2, pstep P 128 q (Quantum bt2 dt (i2 :: zs2) silent2) = Ok (q2, [[limit P p (v_add P v i2)]])).
  { cbn [pstep]. unfold process, compute_buffer. change (p_intrinsic q) with v. change (p_min q) with (p_min p). change (p_max q) with (p_max p). rewrite Hc2. cbn [from_option bind].
    set (p1 := set_buffer (set_current q cur2) []). change (p_timeline p1) with (@nil (@event T V)). cbv iota. rewrite orb_true_r. unfold extend. change (p_buffer p1) with (@nil V). cbn [length Nat.add Nat.leb app bind].
    unfold mix_to_output. cbn [p_buffer p_arate set_buffer length Nat.eqb orb]. assert (A1 : p_arate p1 = false) by exact HA. change (p_intrinsic p1) with v. rewrite A1. cbn [negb]. rewrite orb_true_r.
    cbn [bind fst snd]. eexists. reflexivity. }
  destruct E3 as (q2 & E3). cbn [prun]. rewrite E1. cbn [bind fst snd]. rewrite E2. cbn [bind fst snd]. rewrite E3. cbn [bind fst snd app]. exists q2. reflexivity.
Qed.

Section Ieee.
Variable f64_exp : f64 -> f64.
Variable f32_powf : f32 -> f32 -> f32.
Notation P := (ieee_ops f64_exp f32_powf).

Lemma zero_of_val (x : f64) : is_nan x = false -> val 53 1024 x = 0 -> exists b, x = B754_zero b.
Proof.
  intros N E. destruct x as [b|b| |b m e Hb]; [exists b; reflexivity| |discriminate|].
  - exfalso. cbn [val] in E. pose proof (bpow_gt_0 radix2 1024). destruct b; lra.
  - exfalso. cbn [val B2R] in E. apply eq_0_F2R in E. destruct b; discriminate E.
Qed.
Lemma index_zero (t bt dt next : f64) a : is_finite t = true -> is_finite bt = true -> B2R t <= B2R bt -> is_finite dt = true -> 0 < B2R dt ->
  end_index P (mk_block bt dt 128 a next) t = 0%nat.
Proof.
  intros Ft Fb L Fd Pd. unfold end_index. cbn [t_to_nat t_round t_div t_max t_sub t_zero ieee_ops b_time b_dt b_count].
  assert (L' : val 53 1024 t <= val 53 1024 bt) by (rewrite !val_finite by assumption; exact L).
  destruct (minus_mono 53 1024 f64_prec f64_emax t bt bt Ft (finite_not_nan _ _ _ Fb) Fb L') as [_ L1].
  destruct (minus_val 53 1024 f64_prec f64_emax t bt Ft Fb) as [_ N1]. destruct (minus_val 53 1024 f64_prec f64_emax bt bt Fb Fb) as [V2 N2].
  assert (Z : val 53 1024 (Bminus mode_NE bt bt) <= 0).
  { destruct (minus_val 53 1024 f64_prec f64_emax bt bt Fb Fb) as [-> _]. replace (B2R bt - B2R bt) with 0 by ring. rewrite round_0 by apply valid_rnd_N.
    unfold sat. assert (0 < bpow radix2 1024) by apply bpow_gt_0. destruct (Rle_bool_spec (bpow radix2 1024) 0); [lra|]. destruct (Rle_bool_spec 0 (- bpow radix2 1024)); lra. }
  fold (f64_sub t bt) in *. destruct (f64_max0 (f64_sub t bt) N1) as [N3 V3]. rewrite Rmax_right in V3 by lra.
  destruct (zero_of_val _ N3 V3) as [b ->]. destruct dt as [s|s| |s m e Hm]; try discriminate Fd; [cbn [B2R] in Pd; lra|]. reflexivity.
Qed.
Lemma grid_parts (bt dt : f64) : grid bt dt 128 = true ->
  is_finite bt = true /\ is_finite dt = true /\ 0 < B2R dt /\ is_finite (f64_fma dt (f64_of_Z (Z.of_nat 128)) bt) = true /\ B2R bt < B2R (f64_fma dt (f64_of_Z (Z.of_nat 128)) bt).
Proof.
  intros G. unfold grid in G. set (next := f64_fma dt (f64_of_Z (Z.of_nat 128)) bt) in *. cbv zeta in G. apply andb_true_iff in G. destruct G as [G G5]. apply andb_true_iff in G. destruct G as [G G4].
  apply andb_true_iff in G. destruct G as [G G3]. apply andb_true_iff in G. destruct G as [G1 G2]. unfold f64_is_finite in *.
  assert (Pd : 0 < B2R dt). { apply f64_lt_R in G4; [|reflexivity|exact G2]. exact G4. }
  split; [exact G1|]. split; [exact G2|]. split; [exact Pd|]. split; [exact G3|]. apply Rnot_le_lt. intros L.
  pose proof (index_zero next bt dt next true G3 G1 L G2 Pd) as Z0. unfold end_index in Z0. cbn [t_to_nat t_round t_div t_max t_sub t_zero ieee_ops b_time b_dt b_count] in Z0.
  apply Nat.eqb_eq in G5. rewrite Z0 in G5. discriminate G5.
Qed.
Lemma add_zero (v : f32) : is_finite v = true -> is_finite (f32_add f32_zero v) = true /\ B2R (f32_add f32_zero v) = B2R v.
Proof. intros F. destruct v as [b|b| |b m e H]; try discriminate F; [destruct b; split; reflexivity|split; reflexivity]. Qed.
Lemma limit_inside (p : @param f64 f32) (x : f32) : is_finite x = true -> is_finite (p_min p) = true -> is_finite (p_max p) = true -> B2R (p_min p) <= B2R x <= B2R (p_max p) ->
  B2R (limit P p x) = B2R x.
Proof.
  intros F F1 F2 B. unfold limit. cbn [v_nan v_min v_max ieee_ops]. unfold f32_is_nan, f32_max, f32_min. rewrite (finite_not_nan _ _ _ F). unfold f32_is_nan. rewrite (finite_not_nan _ _ _ F), (finite_not_nan _ _ _ F1).
  assert (L1 : f32_lt x (p_min p) = false). { destruct (f32_lt x (p_min p)) eqn:E; [|reflexivity]. apply (lt_val 24 128) in E; try (apply finite_not_nan; assumption). rewrite !val_finite in E by assumption. lra. }
  rewrite L1, (finite_not_nan _ _ _ F), (finite_not_nan _ _ _ F2).
  assert (L2 : f32_lt (p_max p) x = false). { destruct (f32_lt (p_max p) x) eqn:E; [|reflexivity]. apply (lt_val 24 128) in E; try (apply finite_not_nan; assumption). rewrite !val_finite in E by assumption. lra. }
  rewrite L2. reflexivity.
Qed.
Lemma set_now sr l s r j (p : @param f64 f32) v silent : rate_ok sr -> acts (start sr) l = Some s -> Forall (fun a => forall x, a = New_stream x -> x = sr) l ->
  In r (readings s) -> (quanta s <= j)%nat -> (Z.of_nat j * 128 <= 2 ^ 48)%Z ->
  p_timeline p = [] -> p_arate p = true -> is_finite (p_min p) = true -> is_finite (p_max p) = true -> is_finite v = true -> B2R (p_min p) <= B2R v <= B2R (p_max p) ->
  exists p' out, prun P 128 p [Schedule (C_set_value_at_time v (shown r)); Quantum (time (thread_rate s) (Z.of_nat j * 128)) (f64_div f64_one (f64_of_f32 (thread_rate s))) (repeat f32_zero 128) silent] = Ok (p', [out]) /\
    length out = 128%nat /\ Forall (fun x => B2R x = B2R v) out.
Proof.
  intros H E F I K B HT HA F1 F2 Fv Bv. destruct (reach_same sr l s F E) as (-> & _). pose proof (reach_sound sr l s E) as (H1 & _). destruct (H1 r I) as (Sh & Kn & _). rewrite (reach_rate sr l s E) in Sh.
  pose proof (valid_usable sr H) as U. destruct (rate_val sr H) as [Fr Br].
  pose proof (grid_parts _ _ (clock_grid (Z.of_nat j * 128) (f64_of_f32 sr) ltac:(lia) Fr Br)) as (Ft & Fd & Pd & Fn & Ln). fold (time sr (Z.of_nat j * 128)) in *.
  set (bt := time sr (Z.of_nat j * 128)) in *. set (dt := f64_div f64_one (f64_of_f32 sr)) in *. set (next := f64_fma dt (f64_of_Z (Z.of_nat 128)) bt) in *.
  assert (Rj : in_range j) by (unfold in_range; lia). assert (Rk : in_range (known r)) by (unfold in_range in *; lia).
  destruct (time_val sr (known r) U Rk) as [Fs Vs]. pose proof (time_mono sr (known r) j U Rj ltac:(lia)) as Lt. fold bt in Lt. rewrite <- Sh in Fs, Vs, Lt.
  assert (Ps : 0 <= B2R (shown r)). { rewrite Vs. apply Rle_trans with (round radix2 (SpecFloat.fexp 53 1024) ZnearestE 0); [rewrite round_0 by apply valid_rnd_N; lra|]. apply rnd_mono; [exact f64_prec|].
    rewrite <- (seconds_0 sr). apply seconds_le; [exact U|lia]. }
  destruct (v_clamp P (p_intrinsic p) (p_min p) (p_max p)) as [cur|] eqn:C.
  2: { exfalso. revert C. apply ieee_clamp; try (apply finite_not_nan; assumption). destruct (f32_lt (p_max p) (p_min p)) eqn:X; [|reflexivity]. apply (lt_val 24 128) in X; try (apply finite_not_nan; assumption).
       rewrite !val_finite in X by assumption. lra. }
  destruct (set_generic P p v (shown r) bt dt silent cur HT HA) as (p' & R).
  - exact Fv.
  - unfold valid_time. cbn [t_finite t_le t_zero ieee_ops]. unfold f64_is_finite. rewrite Fs. cbn [andb]. apply f64_le_R; [reflexivity|exact Fs|exact Ps].
  - exact C.
  - cbn [t_le t_fma t_of_nat ieee_ops]. fold next. destruct (f64_le next (shown r)) eqn:X; [|reflexivity]. apply f64_le_R in X; [lra|exact Fn|exact Fs].
  - cbn [t_eq t_zero t_fma t_of_nat ieee_ops]. fold next. destruct (f64_eq (shown r) f64_zero); apply index_zero; try assumption; lra.
  - cbn [t_eq t_zero t_fma t_of_nat t_lt ieee_ops]. fold next. destruct (f64_eq (shown r) f64_zero).
    + destruct (f64_lt next bt) eqn:X; [|reflexivity]. apply f64_lt_R in X; [lra|exact Fn|exact Ft].
    + destruct (f64_lt next (shown r)) eqn:X; [|reflexivity]. apply f64_lt_R in X; [lra|exact Fn|exact Fs].
  - exists p', (repeat (limit P p (f32_add f32_zero v)) 128). split; [exact R|]. split; [apply repeat_length|]. apply Forall_forall. intros x Ix. apply repeat_spec in Ix. subst x.
    destruct (add_zero v Fv) as [G1 G2]. rewrite limit_inside; [exact G2|exact G1|exact F1|exact F2|rewrite G2; exact Bv].
Qed.
Lemma limit_clamps (p : @param f64 f32) (x : f32) : is_finite x = true -> is_finite (p_min p) = true -> is_finite (p_max p) = true ->
  B2R (limit P p x) = Rmin (Rmax (B2R x) (B2R (p_min p))) (B2R (p_max p)).
Proof.
  intros F F1 F2. unfold limit. cbn [v_nan v_min v_max ieee_ops]. unfold f32_is_nan at 1. rewrite (finite_not_nan _ _ _ F).
  assert (M1 : forall a b : f32, is_finite a = true -> is_finite b = true -> f32_lt a b = true <-> B2R a < B2R b).
  { intros a b Fa Fb. rewrite <- (val_finite 24 128 a Fa), <- (val_finite 24 128 b Fb). apply (lt_val 24 128); apply finite_not_nan; assumption. }
  assert (E1 : is_finite (f32_max x (p_min p)) = true /\ B2R (f32_max x (p_min p)) = Rmax (B2R x) (B2R (p_min p))).
  { unfold f32_max, f32_is_nan. rewrite (finite_not_nan _ _ _ F), (finite_not_nan _ _ _ F1). destruct (f32_lt x (p_min p)) eqn:L.
    - apply M1 in L; [|assumption|assumption]. split; [exact F1|]. rewrite Rmax_right by lra. reflexivity.
    - split; [exact F|]. rewrite Rmax_left; [reflexivity|]. apply Rnot_lt_le. intros X. apply M1 in X; [|assumption|assumption]. congruence. }
  destruct E1 as [G1 G2]. rewrite <- G2. unfold f32_min, f32_is_nan. rewrite (finite_not_nan _ _ _ G1), (finite_not_nan _ _ _ F2). destruct (f32_lt (p_max p) (f32_max x (p_min p))) eqn:L.
  - apply M1 in L; [|assumption|assumption]. rewrite Rmin_right by lra. reflexivity.
  - rewrite Rmin_left; [reflexivity|]. apply Rnot_lt_le. intros X. apply M1 in X; [|assumption|assumption]. congruence.
Qed.
Lemma limit_kept (p : @param f64 f32) (x : f32) : is_finite (p_min p) = true -> is_finite (p_max p) = true -> B2R (p_min p) <= B2R (p_max p) ->
  kept (p_min p) (p_max p) (p_default p) x (limit P p x).
Proof.
  intros F1 F2 L. destruct x as [b|b| |b m e B]; cbn [kept].
  - apply limit_clamps; [reflexivity|exact F1|exact F2].
  - unfold limit. cbn [v_nan v_min v_max ieee_ops]. unfold f32_is_nan at 1. cbn [is_nan]. destruct b.
    + assert (E : f32_max (B754_infinity true) (p_min p) = p_min p) by (destruct (p_min p); try discriminate; reflexivity). rewrite E.
      unfold f32_min, f32_is_nan. rewrite (finite_not_nan _ _ _ F1), (finite_not_nan _ _ _ F2). destruct (f32_lt (p_max p) (p_min p)) eqn:X; [|reflexivity].
      apply (lt_val 24 128) in X; try (apply finite_not_nan; assumption). rewrite !val_finite in X by assumption. lra.
    + assert (E : f32_max (B754_infinity false) (p_min p) = B754_infinity false) by (destruct (p_min p); try discriminate; reflexivity). rewrite E.
      destruct (p_max p); try discriminate; reflexivity.
  - reflexivity.
  - apply limit_clamps; [reflexivity|exact F1|exact F2].
Qed.
Lemma set_now_in sr l s r j (p : @param f64 f32) v input silent : length input = 128%nat -> rate_ok sr -> acts (start sr) l = Some s -> Forall (fun a => forall x, a = New_stream x -> x = sr) l ->
  In r (readings s) -> (quanta s <= j)%nat -> (Z.of_nat j * 128 <= 2 ^ 48)%Z ->
  p_timeline p = [] -> p_arate p = true -> is_finite (p_min p) = true -> is_finite (p_max p) = true -> is_finite v = true -> B2R (p_min p) <= B2R v <= B2R (p_max p) ->
  exists p' out, prun P 128 p [Schedule (C_set_value_at_time v (shown r)); Quantum (time (thread_rate s) (Z.of_nat j * 128)) (f64_div f64_one (f64_of_f32 (thread_rate s))) input silent] = Ok (p', [out]) /\
    Forall2 (fun i x => kept (p_min p) (p_max p) (p_default p) (f32_add i v) x) input out.
Proof.
  intros HL H E F I K B HT HA F1 F2 Fv Bv. destruct (reach_same sr l s F E) as (-> & _). pose proof (reach_sound sr l s E) as (H1 & _). destruct (H1 r I) as (Sh & Kn & _). rewrite (reach_rate sr l s E) in Sh.
  pose proof (valid_usable sr H) as U. destruct (rate_val sr H) as [Fr Br].
  pose proof (grid_parts _ _ (clock_grid (Z.of_nat j * 128) (f64_of_f32 sr) ltac:(lia) Fr Br)) as (Ft & Fd & Pd & Fn & Ln). fold (time sr (Z.of_nat j * 128)) in *.
  set (bt := time sr (Z.of_nat j * 128)) in *. set (dt := f64_div f64_one (f64_of_f32 sr)) in *. set (next := f64_fma dt (f64_of_Z (Z.of_nat 128)) bt) in *.
  assert (Rj : in_range j) by (unfold in_range; lia). assert (Rk : in_range (known r)) by (unfold in_range in *; lia).
  destruct (time_val sr (known r) U Rk) as [Fs Vs]. pose proof (time_mono sr (known r) j U Rj ltac:(lia)) as Lt. fold bt in Lt. rewrite <- Sh in Fs, Vs, Lt.
  assert (Ps : 0 <= B2R (shown r)). { rewrite Vs. apply Rle_trans with (round radix2 (SpecFloat.fexp 53 1024) ZnearestE 0); [rewrite round_0 by apply valid_rnd_N; lra|]. apply rnd_mono; [exact f64_prec|].
    rewrite <- (seconds_0 sr). apply seconds_le; [exact U|lia]. }
  destruct (v_clamp P (p_intrinsic p) (p_min p) (p_max p)) as [cur|] eqn:C.
  2: { exfalso. revert C. apply ieee_clamp; try (apply finite_not_nan; assumption). destruct (f32_lt (p_max p) (p_min p)) eqn:X; [|reflexivity]. apply (lt_val 24 128) in X; try (apply finite_not_nan; assumption).
       rewrite !val_finite in X by assumption. lra. }
  destruct (set_generic_in P p v (shown r) bt dt silent cur input HL HT HA) as (p' & R).
  - exact Fv.
  - unfold valid_time. cbn [t_finite t_le t_zero ieee_ops]. unfold f64_is_finite. rewrite Fs. cbn [andb]. apply f64_le_R; [reflexivity|exact Fs|exact Ps].
  - exact C.
  - cbn [t_le t_fma t_of_nat ieee_ops]. fold next. destruct (f64_le next (shown r)) eqn:X; [|reflexivity]. apply f64_le_R in X; [lra|exact Fn|exact Fs].
  - cbn [t_eq t_zero t_fma t_of_nat ieee_ops]. fold next. destruct (f64_eq (shown r) f64_zero); apply index_zero; try assumption; lra.
  - cbn [t_eq t_zero t_fma t_of_nat t_lt ieee_ops]. fold next. destruct (f64_eq (shown r) f64_zero).
    + destruct (f64_lt next bt) eqn:X; [|reflexivity]. apply f64_lt_R in X; [lra|exact Fn|exact Ft].
    + destruct (f64_lt next (shown r)) eqn:X; [|reflexivity]. apply f64_lt_R in X; [lra|exact Fn|exact Fs].
  - exists p', (map (fun i => limit P p (f32_add i v)) input). split; [exact R|]. clear R HL. induction input as [|i input IH]; [constructor|]. cbn [map]. constructor; [|exact IH].
    apply limit_kept; [exact F1|exact F2|lra].
Qed.
Lemma add_zero_r (v : f32) : is_finite v = true -> is_finite (f32_add v f32_zero) = true /\ B2R (f32_add v f32_zero) = B2R v.
Proof. intros F. destruct v as [b|b| |b m e H]; try discriminate F; [destruct b; split; reflexivity|split; reflexivity]. Qed.
Lemma clamp_some (p : @param f64 f32) x : is_finite (p_min p) = true -> is_finite (p_max p) = true -> B2R (p_min p) <= B2R (p_max p) -> exists c, v_clamp P x (p_min p) (p_max p) = Some c.
Proof.
  intros F1 F2 L. destruct (v_clamp P x (p_min p) (p_max p)) as [c|] eqn:C; [exists c; reflexivity|]. exfalso. revert C. apply ieee_clamp; try (apply finite_not_nan; assumption).
  destruct (f32_lt (p_max p) (p_min p)) eqn:X; [|reflexivity]. apply (lt_val 24 128) in X; try (apply finite_not_nan; assumption). rewrite !val_finite in X by assumption. lra.
Qed.
Lemma set_now_k sr l s r j (p : @param f64 f32) v zs silent silent2 : rate_ok sr -> acts (start sr) l = Some s -> Forall (fun a => forall x, a = New_stream x -> x = sr) l ->
  In r (readings s) -> (quanta s <= j)%nat -> (Z.of_nat j * 128 <= 2 ^ 48)%Z ->
  p_timeline p = [] -> p_arate p = false -> is_finite (p_min p) = true -> is_finite (p_max p) = true -> is_finite v = true -> B2R (p_min p) <= B2R v <= B2R (p_max p) ->
  is_finite (p_intrinsic p) = true -> B2R (p_min p) <= B2R (p_intrinsic p) <= B2R (p_max p) ->
  let dt := f64_div f64_one (f64_of_f32 (thread_rate s)) in
  exists p' x y, prun P 128 p [Schedule (C_set_value_at_time v (shown r)); Quantum (time (thread_rate s) (Z.of_nat j * 128)) dt (f32_zero :: zs) silent;
      Quantum (time (thread_rate s) (Z.of_nat (j + 1) * 128)) dt (f32_zero :: zs) silent2] = Ok (p', [[x]; [y]]) /\
    B2R x = B2R (p_intrinsic p) /\ B2R y = B2R v.
Proof.
  intros H E F I K B HT HA F1 F2 Fv Bv Fi Bi dt. subst dt. destruct (reach_same sr l s F E) as (-> & _). pose proof (reach_sound sr l s E) as (H1 & _). destruct (H1 r I) as (Sh & Kn & _). rewrite (reach_rate sr l s E) in Sh.
  pose proof (valid_usable sr H) as U. destruct (rate_val sr H) as [Fr Br].
  pose proof (grid_parts _ _ (clock_grid (Z.of_nat j * 128) (f64_of_f32 sr) ltac:(lia) Fr Br)) as (Ft & Fd & Pd & Fn & Ln). fold (time sr (Z.of_nat j * 128)) in *.
  set (bt := time sr (Z.of_nat j * 128)) in *. set (dt := f64_div f64_one (f64_of_f32 sr)) in *. set (next := f64_fma dt (f64_of_Z (Z.of_nat 128)) bt) in *.
  assert (Rj : in_range j) by (unfold in_range; lia). assert (Rk : in_range (known r)) by (unfold in_range in *; lia).
  destruct (time_val sr (known r) U Rk) as [Fs Vs]. pose proof (time_mono sr (known r) j U Rj ltac:(lia)) as Lt. fold bt in Lt. rewrite <- Sh in Fs, Vs, Lt.
  assert (Ps : 0 <= B2R (shown r)). { rewrite Vs. apply Rle_trans with (round radix2 (SpecFloat.fexp 53 1024) ZnearestE 0); [rewrite round_0 by apply valid_rnd_N; lra|]. apply rnd_mono; [exact f64_prec|].
    rewrite <- (seconds_0 sr). apply seconds_le; [exact U|lia]. }
  destruct (clamp_some p (p_intrinsic p) F1 F2 ltac:(lra)) as [c1 C1]. destruct (clamp_some p v F1 F2 ltac:(lra)) as [c2 C2].
  destruct (set_generic_k P p v (shown r) bt (time sr (Z.of_nat (j + 1) * 128)) dt silent silent2 c1 c2 f32_zero f32_zero zs zs HT HA) as (p' & R).
  - exact Fv.
  - unfold valid_time. cbn [t_finite t_le t_zero ieee_ops]. unfold f64_is_finite. rewrite Fs. cbn [andb]. apply f64_le_R; [reflexivity|exact Fs|exact Ps].
  - exact C1.
  - exact C2.
  - cbn [t_le t_fma t_of_nat ieee_ops]. fold next. destruct (f64_le next (shown r)) eqn:X; [|reflexivity]. apply f64_le_R in X; [lra|exact Fn|exact Fs].
  - cbn [t_eq t_zero t_fma t_of_nat t_lt ieee_ops]. fold next. destruct (f64_eq (shown r) f64_zero).
    + destruct (f64_lt next bt) eqn:X; [|reflexivity]. apply f64_lt_R in X; [lra|exact Fn|exact Ft].
    + destruct (f64_lt next (shown r)) eqn:X; [|reflexivity]. apply f64_lt_R in X; [lra|exact Fn|exact Fs].
  - exists p', (limit P p (f32_add (p_intrinsic p) f32_zero)), (limit P p (f32_add v f32_zero)). split; [exact R|].
    destruct (add_zero_r v Fv) as [G1 G2]. destruct (add_zero_r (p_intrinsic p) Fi) as [G3 G4]. split.
    + rewrite limit_inside; [exact G4|exact G3|exact F1|exact F2|rewrite G4; exact Bi].
    + rewrite limit_inside; [exact G2|exact G1|exact F1|exact F2|rewrite G2; exact Bv].
Qed.
Lemma set_now_k_in sr l s r j (p : @param f64 f32) v i1 i2 zs zs2 silent silent2 : rate_ok sr -> acts (start sr) l = Some s -> Forall (fun a => forall x, a = New_stream x -> x = sr) l ->
  In r (readings s) -> (quanta s <= j)%nat -> (Z.of_nat j * 128 <= 2 ^ 48)%Z ->
  p_timeline p = [] -> p_arate p = false -> is_finite (p_min p) = true -> is_finite (p_max p) = true -> is_finite v = true -> B2R (p_min p) <= B2R v <= B2R (p_max p) ->
  let dt := f64_div f64_one (f64_of_f32 (thread_rate s)) in
  exists p' x y, prun P 128 p [Schedule (C_set_value_at_time v (shown r)); Quantum (time (thread_rate s) (Z.of_nat j * 128)) dt (i1 :: zs) silent;
      Quantum (time (thread_rate s) (Z.of_nat (j + 1) * 128)) dt (i2 :: zs2) silent2] = Ok (p', [[x]; [y]]) /\
    kept (p_min p) (p_max p) (p_default p) (f32_add (p_intrinsic p) i1) x /\ kept (p_min p) (p_max p) (p_default p) (f32_add v i2) y.
Proof.
  intros H E F I K B HT HA F1 F2 Fv Bv dt. subst dt. destruct (reach_same sr l s F E) as (-> & _). pose proof (reach_sound sr l s E) as (H1 & _). destruct (H1 r I) as (Sh & Kn & _). rewrite (reach_rate sr l s E) in Sh.
  pose proof (valid_usable sr H) as U. destruct (rate_val sr H) as [Fr Br].
  pose proof (grid_parts _ _ (clock_grid (Z.of_nat j * 128) (f64_of_f32 sr) ltac:(lia) Fr Br)) as (Ft & Fd & Pd & Fn & Ln). fold (time sr (Z.of_nat j * 128)) in *.
  set (bt := time sr (Z.of_nat j * 128)) in *. set (dt := f64_div f64_one (f64_of_f32 sr)) in *. set (next := f64_fma dt (f64_of_Z (Z.of_nat 128)) bt) in *.
  assert (Rj : in_range j) by (unfold in_range; lia). assert (Rk : in_range (known r)) by (unfold in_range in *; lia).
  destruct (time_val sr (known r) U Rk) as [Fs Vs]. pose proof (time_mono sr (known r) j U Rj ltac:(lia)) as Lt. fold bt in Lt. rewrite <- Sh in Fs, Vs, Lt.
  assert (Ps : 0 <= B2R (shown r)). { rewrite Vs. apply Rle_trans with (round radix2 (SpecFloat.fexp 53 1024) ZnearestE 0); [rewrite round_0 by apply valid_rnd_N; lra|]. apply rnd_mono; [exact f64_prec|].
    rewrite <- (seconds_0 sr). apply seconds_le; [exact U|lia]. }
  destruct (clamp_some p (p_intrinsic p) F1 F2 ltac:(lra)) as [c1 C1]. destruct (clamp_some p v F1 F2 ltac:(lra)) as [c2 C2].
  destruct (set_generic_k P p v (shown r) bt (time sr (Z.of_nat (j + 1) * 128)) dt silent silent2 c1 c2 i1 i2 zs zs2 HT HA) as (p' & R).
  - exact Fv.
  - unfold valid_time. cbn [t_finite t_le t_zero ieee_ops]. unfold f64_is_finite. rewrite Fs. cbn [andb]. apply f64_le_R; [reflexivity|exact Fs|exact Ps].
  - exact C1.
  - exact C2.
  - cbn [t_le t_fma t_of_nat ieee_ops]. fold next. destruct (f64_le next (shown r)) eqn:X; [|reflexivity]. apply f64_le_R in X; [lra|exact Fn|exact Fs].
  - cbn [t_eq t_zero t_fma t_of_nat t_lt ieee_ops]. fold next. destruct (f64_eq (shown r) f64_zero).
    + destruct (f64_lt next bt) eqn:X; [|reflexivity]. apply f64_lt_R in X; [lra|exact Fn|exact Ft].
    + destruct (f64_lt next (shown r)) eqn:X; [|reflexivity]. apply f64_lt_R in X; [lra|exact Fn|exact Fs].
  - exists p', (limit P p (f32_add (p_intrinsic p) i1)), (limit P p (f32_add v i2)). split; [exact R|].
    split; (apply limit_kept; [exact F1|exact F2|lra]).
Qed.
End Ieee.
