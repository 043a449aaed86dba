(** Dynamics compressor: theorems.

    C32 The compressor delays its input by a fixed look-ahead and scales it.
    C48 The compressor follows its compression curve. *)
From Coq Require Import List Arith Bool ZArith Lia Reals Lra.
From Flocq Require Import Core BinarySingleNaN.
From Verif Require Import Float_Model Arith_Model Arith_Real Source_Props Route_Spec Comp_Model Comp_Spec Comp_Proofs Comp_ExactProofs Comp_CurveProofs Comp_IeeeProofs.
Import ListNotations.
Local Open Scope R_scope.

(** ** C32 *)
(** Any arithmetic, any input, any automation: quantum [k] plays the input of [capacity - 1] quanta before, each frame of all
    channels multiplied by one gain, the channels in arrays of their own; nothing before that. *)
Theorem C32_ring : forall T V (A : arith T V) size rate capacity ls, (0 < capacity)%nat -> Forall (fun l => snd l <> [] /\ Forall (fun c => length (c_val c) = size) (snd l)) ls ->
  exists st outs, comp_run A size capacity rate (comp_new A) ls = Ok (st, outs) /\ length outs = length ls /\
    forall k, (k < length ls)%nat -> let src := delayed (v_zero A) size (capacity - 1) (map snd ls) k in exists o reduction, nth_error outs k = Some (o, negb (is_silent src), reduction) /\
      if is_silent src then o = [mk_chan 0 (repeat (v_zero A) size)]
      else map c_name o = seq (snd (fst (nth k ls (mk_comp_params (v_zero A) (v_zero A) (v_zero A) (v_zero A) (v_zero A), 0%nat, [])))) (length src) /\
        exists gains, length gains = size /\ forall c t, (c < length src)%nat -> (t < size)%nat -> sample (v_zero A) o c t = v_mul A (sample (v_zero A) src c t) (nth t gains (v_zero A)).
Proof.
  intros T V A size rate capacity ls Hcap Hf. destruct (ring_runs A size rate capacity Hcap ls [] (comp_new A) (ring_start A size capacity Hcap) Hf) as (st & outs & E & L & Q). exists st, outs. split; [exact E|]. split; [exact L|].
  intros k Hk src. destruct (nth_error ls k) as [l|] eqn:Hn; [|apply nth_error_None in Hn; lia]. destruct (Q k _ Hn) as (r & Q'). cbv zeta in Q'. cbn [app length Nat.add] in Q'. fold src in Q'. destruct (is_silent src) eqn:Qs; cbn [negb].
  - exists (silence A size), r. split; [exact Q'|reflexivity].
  - do 2 eexists. split; [exact Q'|]. split; [rewrite (nth_error_nth _ _ _ Hn); apply apply_names|]. eexists. split; [|intros c t Hc Ht; apply apply_sample; [exact Hc| |]].
    + unfold gains_of. rewrite map_length, combine_length, scan_length, frames_length. cbn. lia.
    + assert (F : Forall (fun c => length (c_val c) = size) src).
      { unfold src, delayed. destruct (Nat.ltb_spec k (capacity - 1)) as [Hlt|Hge]; [repeat constructor; cbn; apply repeat_length|].
        destruct (nth_error ls (k - (capacity - 1))) as [l'|] eqn:G; [|apply nth_error_None in G; lia]. rewrite (nth_error_nth _ _ [] (map_nth_error snd _ _ G)). rewrite Forall_forall in Hf. apply (Hf _ (nth_error_In _ _ G)). }
      rewrite Forall_forall in F. rewrite (F (nth c src (mk_chan 0 []))) by (apply nth_In; exact Hc). exact Ht.
    + unfold gains_of. rewrite map_length, combine_length, scan_length, frames_length. cbn. lia.
Qed.
Print Assumptions C32_ring.

(** Exact arithmetic: the gain of a frame is given by the levels of all frames up to this one, across quanta: makeup gain
    less the smoothed attenuation. *)
Theorem C32_exact : forall size rate capacity ls, (0 < capacity)%nat -> Forall (fun l => snd l <> [] /\ Forall (fun c => length (c_val c) = size) (snd l)) ls ->
  Forall (fun l => silent_zero (sops_of exact) size (snd l)) ls -> Forall (fun l => 0 <= m_knee (fst (fst l))) ls ->
  exists st outs, comp_run exact size capacity rate (comp_new exact) ls = Ok (st, outs) /\ length outs = length ls /\
    forall k p s input, nth_error ls k = Some (p, s, input) -> let src := delayed 0 size (capacity - 1) (map snd ls) k in
      exists o r, nth_error outs k = Some (o, negb (is_silent src), r) /\
        forall c t, (t < size)%nat -> let d := nth (k * size + t) (scan (fun f d => follow rate (fst f) (attenuation (fst f) (snd f)) d) 0 (frames_of peak size ls)) 0 in
          sample 0 o c t = sample 0 src c t * of_decibels (makeup_straight p - d).
Proof. exact comp_exact. Qed.
Print Assumptions C32_exact.

(** The look-ahead is at least 6 ms and less than a quantum more. *)
Theorem C32_latency : forall size rate, (0 < size)%nat -> 0 < rate -> let frames := INR ((comp_capacity exact size rate - 1) * size) in 6 / 1000 <= frames / rate < 6 / 1000 + INR size / rate.
Proof.
  intros size rate Hs Hr. unfold comp_capacity. cbn [exact v_to_Z v_ceil v_div v_mul v_frac v_of_Z]. rewrite <- INR_IZR_INZ. assert (S0 : 0 < INR size) by (apply lt_0_INR; lia). set (x := rate * (6 / 1000) / INR size). assert (Hx : 0 < x) by (unfold x; apply Rdiv_lt_0_compat; lra).
  pose proof (Zceil_ub x) as U. pose proof (Zceil_lb x) as Lb. assert (Z0 : (0 <= Zceil x)%Z) by (apply le_IZR; lra). unfold R_to_Z. rewrite Ztrunc_IZR, Z.max_r by exact Z0. rewrite Nat.add_sub, mult_INR, INR_IZR_INZ, Z2Nat.id by exact Z0.
  assert (E : x * INR size / rate = 6 / 1000) by (unfold x; field; split; lra). set (z := IZR (Zceil x)) in *. split.
  - rewrite <- E. apply Rmult_le_compat_r; [apply Rlt_le, Rinv_0_lt_compat; exact Hr|]. apply Rmult_le_compat_r; lra.
  - rewrite <- E. replace (x * INR size / rate + INR size / rate) with ((x + 1) * INR size / rate) by (field; lra). apply Rmult_lt_compat_r; [apply Rinv_0_lt_compat; exact Hr|]. apply Rmult_lt_compat_r; [exact S0|]. lra.
Qed.
Print Assumptions C32_latency.

(** The node tells the graph that it has nothing more to say while a burst is still in its ring: with the input gone the
    graph removes it and the burst is lost. *)
Definition burst_call (size : nat) : comp_params (V := R) * nat * list (chan R) := (mk_comp_params (-24) 30 12 (3 / 1000) (1 / 4), 5%nat, [mk_chan 1 (repeat 1 size)]).
Definition quiet_call (size : nat) : comp_params (V := R) * nat * list (chan R) := (mk_comp_params (-24) 30 12 (3 / 1000) (1 / 4), 5%nat, [mk_chan 0 (repeat 0 size)]).
Theorem C32_tail_refuted : forall size rate capacity, (0 < size)%nat -> (2 < capacity)%nat ->
  exists ls st outs, comp_run exact size capacity rate (comp_new exact) ls = Ok (st, outs) /\
    (forall k, (0 < k < length ls)%nat -> is_silent (snd (nth k ls (burst_call size))) = true) /\
    (exists k o r, (0 < k)%nat /\ nth_error outs k = Some (o, false, r)) /\
    (exists k o r, nth_error outs k = Some (o, true, r) /\ sample 0 o 0 0 <> 0).
Proof.
  intros size rate capacity Hs Hc. set (ls := burst_call size :: repeat (quiet_call size) (capacity - 1)).
  assert (Hf : Forall (fun l : comp_params (V := R) * nat * list (chan R) => snd l <> [] /\ Forall (fun c => length (c_val c) = size) (snd l)) ls).
  { constructor; [split; [discriminate|repeat constructor; apply repeat_length]|]. rewrite Forall_forall. intros l Hl. apply repeat_spec in Hl. subst l. split; [discriminate|repeat constructor; apply repeat_length]. }
  assert (Hz : Forall (fun l : comp_params (V := R) * nat * list (chan R) => silent_zero (sops_of exact) size (snd l)) ls).
  { constructor; [constructor; [discriminate|constructor]|]. rewrite Forall_forall. intros l Hl. apply repeat_spec in Hl. subst l. constructor; [reflexivity|constructor]. }
  assert (Hk : Forall (fun l : comp_params (V := R) * nat * list (chan R) => 0 <= m_knee (fst (fst l))) ls).
  { constructor; [cbn; lra|]. rewrite Forall_forall. intros l Hl. apply repeat_spec in Hl. subst l. cbn. lra. }
  destruct (comp_exact size rate capacity ls ltac:(lia) Hf Hz Hk) as (st & outs & E & L & Q). exists ls, st, outs. split; [exact E|].
  assert (N : forall k, (0 < k < capacity)%nat -> nth_error ls k = Some (quiet_call size)). { intros k H. destruct k as [|k]; [lia|]. unfold ls. cbn [nth_error]. apply nth_error_repeat. lia. }
  split; [|split].
  - intros k H. unfold ls in H. cbn [length] in H. rewrite repeat_length in H. rewrite (nth_error_nth _ _ _ (N k ltac:(lia))). reflexivity.
  - destruct (Q 1%nat _ _ _ (N 1%nat ltac:(lia))) as (o & r & Qo & _). exists 1%nat, o, r. split; [lia|]. rewrite Qo. unfold delayed. destruct (Nat.ltb_spec 1 (capacity - 1)) as [_|H]; [reflexivity|lia].
  - destruct (Q (capacity - 1)%nat _ _ _ (N (capacity - 1)%nat ltac:(lia))) as (o & r & Qo & Qs). exists (capacity - 1)%nat, o, r. assert (D : delayed 0 size (capacity - 1) (map snd ls) (capacity - 1) = [mk_chan 1 (repeat 1 size)]). { unfold delayed. destruct (Nat.ltb_spec (capacity - 1) (capacity - 1)) as [H|_]; [lia|]. rewrite Nat.sub_diag. reflexivity. }
    rewrite D in Qo, Qs. split; [exact Qo|]. rewrite Qs by lia. unfold sample. cbn [nth c_val]. rewrite (nth_indep _ 0 1) by (rewrite repeat_length; lia). rewrite nth_repeat, Rmult_1_l. apply Rgt_not_eq, exp_pos.
Qed.
Print Assumptions C32_tail_refuted.

(** ** C48 *)
(** The curve is continuous and increasing, with a slope between 1/ratio and 1, and never above the input. *)
Theorem C48_curve : forall p, 0 <= m_knee p -> 1 <= m_ratio p -> let curve := compress (m_threshold p) (m_knee p) (m_ratio p) in
  (forall x, curve x <= x) /\ (forall x y, x <= y -> / m_ratio p * (y - x) <= curve y - curve x <= y - x) /\ (forall x, x <= m_threshold p -> curve x = x).
Proof.
  intros p Hk Hr. cbv zeta. split; [|split].
  - apply (compress_below _ _ _ Hk Hr _ eq_refl).
  - apply (compress_step _ _ _ Hk Hr _ eq_refl).
  - intros x Hx. unfold compress. destruct (Rle_dec x (m_threshold p)); [reflexivity|contradiction].
Qed.
Print Assumptions C48_curve.
(** The smoothed attenuation is never negative and never above the highest attenuation so far: before makeup no sample is
    amplified, and none is reduced by more than the curve asks for. *)
Theorem C48_range : forall rate B fs, 0 < rate -> 0 <= B -> Forall (fun f => in_range (fst f) /\ attenuation (fst f) (snd f) <= B) fs ->
  Forall (fun d => of_decibels (- B) <= of_decibels (- d) <= 1) (scan (fun f d => follow rate (fst f) (attenuation (fst f) (snd f)) d) 0 fs).
Proof.
  intros rate B fs Hr HB HF. pose proof (detector_range rate Hr B fs HB HF) as D. eapply Forall_impl; [|exact D]. cbv beta. intros d Hd. unfold of_decibels. split.
  - apply Rle_Rpower; lra.
  - rewrite <- (Rpower_O 10) by lra. apply Rle_Rpower; lra.
Qed.
Print Assumptions C48_range.
(** At a constant level the attenuation converges to that of the curve. *)
Theorem C48_converges : forall rate p level n d, 0 < rate -> in_range p -> let t := exp (- / (Rmax (m_attack p) (m_release p) * rate)) in
  0 < t < 1 /\ forall i, (i < n)%nat -> Rabs (nth i (scan (fun f d => follow rate (fst f) (attenuation (fst f) (snd f)) d) d (repeat (p, level) n)) 0 - attenuation p level) <= t ^ S i * Rabs (d - attenuation p level).
Proof. intros rate p level n d Hr. exact (detector_converges rate Hr p level n d). Qed.
Print Assumptions C48_converges.
(** The makeup gain is that of the specification unless 0 dB lies in the knee; with the default values it does. *)
Theorem C48_makeup_partial : forall p, 0 <= m_knee p -> m_ratio p <> 0 -> m_threshold p + m_knee p <= 0 -> makeup_straight p = makeup p.
Proof. intros p Hk Hr Ht. exact (makeup_agrees p Hk Ht Hr). Qed.
Print Assumptions C48_makeup_partial.
Theorem C48_makeup_refuted : let p := mk_comp_params (-24) 30 12 (3 / 1000) (1 / 4) in forall rate, u_makeup (comp_curve exact rate p) <> makeup p.
Proof. intros p rate. rewrite makeup_exact by (cbn; lra). exact makeup_differs. Qed.
Print Assumptions C48_makeup_refuted.
(** Floating point: after one infinite sample everything the compressor plays is NaN, for ever. *)
Theorem C48_infinite_refuted : forall M rate size capacity ls k0 s0 q0 i k p s q, m32_log10 M inf32 = inf32 -> (forall x, m32_pow M x B754_nan = B754_nan) ->
  (0 < capacity)%nat -> Forall (fun l => snd l <> [] /\ Forall (fun c => length (c_val c) = size) (snd l)) ls ->
  nth_error ls k0 = Some (defaults, s0, q0) -> (i < size)%nat -> Exists (fun c => f32_abs (nth i (c_val c) f32_zero) = inf32) q0 ->
  (k0 < k)%nat -> nth_error ls k = Some (p, s, q) -> let src := delayed f32_zero size (capacity - 1) (map snd ls) k in is_silent src = false ->
  exists st outs o more r, comp_run (ieee M) size capacity rate (comp_new (ieee M)) ls = Ok (st, outs) /\ nth_error outs k = Some (o, more, r) /\
    forall c t, (c < length src)%nat -> (t < size)%nat -> sample f32_zero o c t = B754_nan.
Proof. intros M rate size capacity ls k0 s0 q0 i k p s q H1 H2. exact (poison M H1 H2 rate size capacity ls k0 s0 q0 i k p s q). Qed.
Print Assumptions C48_infinite_refuted.

(** ** Cases *)
Example capacity_44100 : comp_capacity (ieee libm_one) 128 (f32_of_Z 44100) = 4%nat /\ comp_capacity (ieee libm_one) 128 (f32_of_Z 96000) = 6%nat.
Proof. split; vm_compute; reflexivity. Qed.
Example default_range : in_range (mk_comp_params (-24) 30 12 (3 / 1000) (1 / 4)). Proof. repeat split; cbn; lra. Qed.
(** 0 dB with the default values: 8.8 dB of attenuation *)
Example default_attenuation : attenuation (mk_comp_params (-24) 30 12 (3 / 1000) (1 / 4)) 1 = 44 / 5.
Proof. unfold attenuation, decibels, compress. cbn [m_threshold m_knee m_ratio]. destruct (Req_EM_T 1 0); [lra|]. rewrite ln_1. replace (20 * (0 / ln 10)) with 0 by (unfold Rdiv; ring). destruct (Rle_dec 0 (-24)); [lra|]. destruct (Rle_dec 0 (-24 + 30)); lra. Qed.
