(** Scheduled sources: theorems.

    C23 Constant source: offset for the frames in [start, stop), silent after the ended event, one event.
    C24 Oscillator: phase in [0,1), no table look-up out of bounds, one event. *)
From Coq Require Import List Arith Bool ZArith Reals Lra Lia.
From Flocq Require Import Core BinarySingleNaN.
From Verif Require Import Float_Model Float_Proofs Float_ErrorProofs Buffer_Model Buffer_ResampleProofs Common_Model Arith_Model Arith_Real
  Source_Model Source_Spec Source_Proofs Source_ClockProofs Osc_Proofs Osc_ExactProofs Osc_IeeeProofs.
Import ListNotations.
Local Open Scope R_scope.

(** ** C23 *)

(** Exact arithmetic, any sequence of calls: a new source outputs the offset for the frames whose time
    is in [start, stop) and zero for the others. *)
Theorem C23_exact : forall sr l, 0 < sr -> Forall (action_ok (fun _ => True)) l -> IZR (128 * Z.of_nat (quanta l)) / sr < t_MAX exact ->
  map (@o_output R) (snd (cs_run exact sr (cs_new exact) 0 l)) = expected (in_time sr) 0 None None 0 l.
Proof. intros sr l H Hl Hm. exact (expected_run sr H l (cs_new exact) 0 None None Hl eq_refl eq_refl Hm). Qed.

(** Exact arithmetic: after the ended event, and if there is no later call of stop, the source is silent. *)
Theorem C23_silent_after_ended : forall sr l1 offset l2 s f os o, 0 < sr -> Forall (action_ok (fun _ => True)) (l1 ++ Quantum offset :: l2) -> (forall v, ~ In (Stop v) l2) ->
  cs_run exact sr (cs_new exact) 0 (l1 ++ [Quantum offset]) = (s, f, os ++ [o]) -> o_event o = true ->
  Forall (fun o' => o_output o' = repeat 0 128 /\ o_event o' = false) (snd (cs_run exact sr s f l2)).
Proof. intros sr l1 offset l2 s f os o H. exact (silent_after_event sr H l1 offset l2 s f os o). Qed.

(** Exact arithmetic: once the clock has reached the stop time the event has been sent, once. *)
Theorem C23_ended_sent : forall sr l offset s f os v, 0 < sr -> cs_run exact sr (cs_new exact) 0 (l ++ [Quantum offset]) = (s, f, os) -> cs_stop s = v -> v <= IZR f / sr ->
  length (filter o_event os) = 1%nat.
Proof. intros sr l offset s f os v H. exact (event_sent sr H l offset s f os v). Qed.

(** In any arithmetic the event is sent at most once, counting the one when the node is dropped. *)
Theorem C23_ended_once : forall T V (A : arith T V) sr frame l, (cs_events A sr (cs_new A) frame l <= 1)%nat.
Proof. exact @cs_events_once. Qed.

(** Floating point: the same as in exact arithmetic, except that the time of frame [n] is [frame_time n] ... *)
Theorem C23_ieee_partial : forall M sr (l : list (@cs_action f64 f32)), rate_ok sr -> Forall (action_ok valid_time) l -> IZR (128 * Z.of_nat (quanta l)) / B2R (f64_of_f32 sr) <= 8388608 ->
  map (@o_output f32) (snd (cs_run (ieee M) sr (cs_new (ieee M)) 0 l)) = expected (in_time_ieee M sr) f32_zero None None 0 l.
Proof. intros M sr l H Hl Hm. exact (expected_run_ieee M sr H l (cs_new (ieee M)) 0 None None Hl (Z.le_refl 0) eq_refl eq_refl eq_refl eq_refl Hm). Qed.
(** ... which is less than half a microsecond away from [n/sr] (for 97 days). *)
Theorem C23_frame_time : forall M sr n, rate_ok sr -> (0 <= n)%Z -> IZR (n + 128) / B2R (f64_of_f32 sr) <= 8388608 ->
  is_finite (frame_time M sr n) = true /\ Rabs (B2R (frame_time M sr n) - IZR n / B2R (f64_of_f32 sr)) <= / 2097152.
Proof. intros M sr n H. exact (frame_time_error M sr H n). Qed.

(** Floating point: after the ended event, and without a later call of stop, at most one sample sounds: the first one. *)
Theorem C23_ieee_silent_after_ended_partial : forall M sr (l1 : list (@cs_action f64 f32)) offset l2 s f os o, rate_ok sr ->
  Forall (action_ok valid_time) (l1 ++ Quantum offset :: l2) -> (forall v, ~ In (Stop v) l2) ->
  IZR (128 * Z.of_nat (quanta (l1 ++ Quantum offset :: l2))) / B2R (f64_of_f32 sr) <= 8388608 ->
  cs_run (ieee M) sr (cs_new (ieee M)) 0 (l1 ++ [Quantum offset]) = (s, f, os ++ [o]) -> o_event o = true ->
  let later := snd (cs_run (ieee M) sr s f l2) in
  Forall (fun o' => o_event o' = false) later /\ Forall (eq f32_zero) (tl (concat (map (@o_output f32) later))).
Proof. intros M sr l1 offset l2 s f os o H. exact (late_after_event M sr H l1 offset l2 s f os o). Qed.

(** a libm in which every function is constant; it is used with exp2(0) only *)
Definition libm_one : libm := {|
  m64_exp2 := fun _ => f64_of_Z 1; m64_exp := fun _ => f64_of_Z 1; m64_sin := fun _ => f64_of_Z 1; m64_cos := fun _ => f64_of_Z 1; m64_pow := fun _ _ => f64_of_Z 1; m64_log10 := fun _ => f64_of_Z 1; m64_hypot := fun _ _ => f64_of_Z 1; m64_atan2 := fun _ _ => f64_of_Z 1;
  m32_exp2 := fun _ => f32_of_Z 1; m32_exp := fun _ => f32_of_Z 1; m32_sin := fun _ => f32_of_Z 1; m32_cos := fun _ => f32_of_Z 1; m32_acos := fun _ => f32_of_Z 1; m32_pow := fun _ _ => f32_of_Z 1; m32_log10 := fun _ => f32_of_Z 1; m32_hypot := fun _ _ => f32_of_Z 1 |}.
Definition k44 : f32 := f32_of_Z 44100.
Definition one32 : f32 := f32_of_Z 1.
(** the frames that are not silent *)
Definition sounding (outs : list (list f32)) : list nat :=
  map fst (filter (fun p : nat * f32 => negb (f32_eq (snd p) f32_zero)) (combine (seq 0 (length (concat outs))) (concat outs))).
Definition run44 (l : list (@cs_action f64 f32)) : list (@outcome f32) := snd (cs_run (ieee libm_one) k44 (cs_new (ieee libm_one)) 0 l).

(** Full statement (refuted): in floating point too, a source that is to start at frame 13 (at the time
    13/44100) and stop at frame 16 sounds in frames 13, 14, 15.  The code adds up the times of the frames,
    so the time of frame 13 is less than 13/44100. *)
Theorem C23_start_late_refuted : let at_frame n := f64_div (f64_of_Z n) (f64_of_Z 44100) in
  sounding (map (@o_output f32) (run44 [Start (at_frame 13%Z); Stop (at_frame 16%Z); Quantum [one32]])) <> [13; 14; 15]%nat.
Proof. cbv zeta. vm_compute. discriminate. Qed.

(** Full statement (refuted): after the ended event the source is silent, in floating point too. The event is
    sent when stop <= current_time + 128 dt, which may be more than the time of the next quantum. *)
Definition sound_after_event (os : list (@outcome f32)) : bool :=
  (fix go (ended : bool) (os : list (@outcome f32)) : bool :=
     match os with
     | [] => false
     | o :: os' => (ended && existsb (fun v => negb (f32_eq v f32_zero)) (o_output o)) || go (ended || o_event o) os'
     end) false os.
Theorem C23_sound_after_ended_refuted : exists stop, valid_time stop /\
  sound_after_event (run44 (Start f64_zero :: Stop stop :: repeat (Quantum [one32]) 40)) = true.
Proof.
  exists (next_block_time (ieee libm_one) k44 (22 * 128)). split; [split; vm_compute; reflexivity|]. vm_compute. reflexivity.
Qed.

(** Full statement (refuted): a source never sounds again once it has ended.  A later call of stop with a later
    time makes it sound again, in exact arithmetic as well.  (The ended event is not sent again.) *)
Theorem C23_stop_again_refuted :
  sound_after_event (run44 [Start f64_zero; Stop f64_zero; Quantum [one32]; Quantum [one32]; Stop (f64_of_Z 1); Quantum [one32]]) = true.
Proof. vm_compute. reflexivity. Qed.

Print Assumptions C23_exact. Print Assumptions C23_silent_after_ended. Print Assumptions C23_ended_sent. Print Assumptions C23_ended_once.
Print Assumptions C23_ieee_partial. Print Assumptions C23_frame_time. Print Assumptions C23_ieee_silent_after_ended_partial.
Print Assumptions C23_start_late_refuted. Print Assumptions C23_sound_after_ended_refuted. Print Assumptions C23_stop_again_refuted.

(** the hypotheses are met: a source that starts and stops within three quanta *)
Definition a_run : list (@cs_action f64 f32) := [Start (f64_of_Z 0); Quantum [one32]; Stop (f64_div (f64_of_Z 1) (f64_of_Z 256)); Quantum (repeat one32 128); Quantum [one32]].
Lemma k44_val : B2R (f64_of_f32 k44) = 44100.
Proof. destruct (f64_of_f32_val k44 eq_refl) as [-> _]. unfold k44. destruct (Float_BoundProofs.of_Z_exact 24 128 f32_prec f32_emax 44100) as [E _]; [lia|]. exact E. Qed.
Example a_run_ok : rate_ok k44 /\ Forall (action_ok valid_time) a_run /\ IZR (128 * Z.of_nat (quanta a_run)) / B2R (f64_of_f32 k44) <= 8388608.
Proof.
  split; [vm_compute; reflexivity|]. split; [|rewrite k44_val; change (IZR (128 * Z.of_nat (quanta a_run))) with 384; lra].
  repeat apply Forall_cons; try apply Forall_nil; cbn [action_ok]; try (split; vm_compute; reflexivity); try (left; reflexivity); right; reflexivity.
Qed.
Example a_run_sounds : sounding (map (@o_output f32) (run44 a_run)) = seq 0 173 /\ map (@o_event f32) (run44 a_run) = [false; true; false].
Proof. vm_compute. split; reflexivity. Qed.
Definition a_run_exact : list (@cs_action R R) := [Start 0; Stop (1/256); Quantum [1]; Quantum (repeat 1 128)].
Example a_run_exact_ok : 0 < 44100 /\ Forall (action_ok (fun _ : R => True)) a_run_exact /\ IZR (128 * Z.of_nat (quanta a_run_exact)) / 44100 < t_MAX exact.
Proof.
  split; [lra|]. split; [repeat apply Forall_cons; try apply Forall_nil; cbn [action_ok]; try exact I; [left|right]; reflexivity|]. change (IZR (128 * Z.of_nat (quanta a_run_exact))) with 256. apply Rlt_le_trans with 1; [lra|].
  cbn [exact t_MAX]. assert (1 <= bpow radix2 971) by (change 1 with (bpow radix2 0); apply bpow_le; lia). change (IZR (2 ^ 53 - 1)) with 9007199254740991. lra.
Qed.

(** ** C24 *)

(** Exact arithmetic: for all frequencies and detunes, all types, wave tables, start and stop times, the phase
    stays in [0,1) and the render thread does not panic (all look-ups are in bounds). *)
Theorem C24_exact : forall sr (table : list R) ty l, 0 < sr -> table <> [] -> ty <> Custom ->
  Forall (osc_action_ok exact (fun w => w <> []) (fun _ _ => True) (fun _ => True)) l ->
  exists s f os, osc_run exact sr table (osc_new exact ty) 0 l = Ok (s, f, os) /\ 0 <= os_phase s < 1 /\ length os = osc_quanta l /\ Forall (fun o => length (o_output o) = 128%nat) os.
Proof. intros sr table ty l H. exact (osc_exact sr H table ty l). Qed.

(** Floating point: for all finite frequencies that are not negative.  The tables have 2^k entries. *)
Theorem C24_ieee_partial : forall M sr (table : list f32) ty (l : list (@osc_action f64 f32)), rate_ok sr ->
  (forall x : f64, is_finite x = true -> Rabs (B2R x) <= 128 -> is_finite (m64_exp2 M x) = true /\ 0 <= B2R (m64_exp2 M x) <= bpow radix2 129) ->
  wave64 table -> ty <> Custom -> Forall (osc_action_ok (ieee M) wave64 freq_ok time_ok) l -> IZR (128 * Z.of_nat (osc_quanta l)) / B2R (f64_of_f32 sr) <= 8388608 ->
  exists s f os, osc_run (ieee M) sr table (osc_new (ieee M) ty) 0 l = Ok (s, f, os) /\ (is_finite (os_phase s) = true /\ 0 <= B2R (os_phase s) < 1) /\
    length os = osc_quanta l /\ Forall (fun o => length (o_output o) = 128%nat) os.
Proof. intros M sr table ty l H He. exact (osc_ieee M sr H He table ty l). Qed.

(** Full statement (refuted): for all frequencies of the nominal range.  A negative frequency close to zero: the
    phase becomes -2^-55, 1 - 2^-55 is rounded to 1, and the look-up at 1 * 2048 panics. *)
Definition panics {X} (r : res X) : bool := match r with Panic => true | _ => false end.
Theorem C24_negative_frequency_refuted : let f := f32_lit (-1) (-40) in
  panics (osc_run (ieee libm_one) (f32_of_Z 32768) (repeat f32_zero 2048) (osc_new (ieee libm_one) Sine) 0 [O_start f64_zero; O_quantum [f] [f32_zero]]) = true.
Proof. vm_compute. reflexivity. Qed.

(** Full statement (refuted): without the condition on the type.  OscillatorOptions with type Custom and no
    periodic wave are accepted; the first quantum panics. *)
Theorem C24_custom_without_wave_refuted :
  panics (osc_run (ieee libm_one) k44 (repeat f32_zero 2048) (osc_new (ieee libm_one) Custom) 0 [O_start f64_zero; O_quantum [f32_of_Z 440] [f32_zero]]) = true.
Proof. vm_compute. reflexivity. Qed.

(** The ended event is sent at most once, in any arithmetic. *)
Theorem C24_ended_once : forall T V (A : arith T V) sr table ty frame l s f os, osc_run A sr table (osc_new A ty) frame l = Ok (s, f, os) ->
  (length (filter o_event os) + (if osc_before_drop A sr s f then 1 else 0) <= 1)%nat.
Proof. exact @osc_events_once. Qed.

Print Assumptions C24_exact. Print Assumptions C24_ieee_partial. Print Assumptions C24_negative_frequency_refuted.
Print Assumptions C24_custom_without_wave_refuted. Print Assumptions C24_ended_once.

Definition an_osc : list (@osc_action f64 f32) := [O_start (f64_div (f64_of_Z 1) (f64_of_Z 1024)); O_quantum [f32_of_Z 440] [f32_zero]; O_wave (repeat one32 64); O_quantum (repeat (f32_of_Z 30000) 128) [f32_of_Z (-100)];
  O_type Square; O_stop (f64_div (f64_of_Z 1) (f64_of_Z 100)); O_quantum [f32_of_Z 440] [f32_zero]].
Example an_osc_ok : wave64 (repeat f32_zero 2048) /\ Forall (osc_action_ok (ieee libm_one) wave64 freq_ok time_ok) an_osc /\ IZR (128 * Z.of_nat (osc_quanta an_osc)) / B2R (f64_of_f32 k44) <= 8388608.
Proof.
  assert (Fz : forall n, (Z.abs n <= 2 ^ 24)%Z -> B2R (f32_of_Z n) = IZR n /\ is_finite (f32_of_Z n) = true) by (intros n H; destruct (Float_BoundProofs.of_Z_exact 24 128 f32_prec f32_emax n H) as [E1 E2]; split; assumption).
  assert (Q : forall f d, (0 <= f <= 2 ^ 24)%Z -> (Z.abs d <= 153600)%Z -> freq_ok (f32_of_Z f) (f32_of_Z d)).
  { intros f d Hf Hd. destruct (Fz f) as [E1 F1]; [lia|]. destruct (Fz d) as [E2 F2]; [lia|]. unfold freq_ok. rewrite E1, E2. split; [exact F1|]. split; [apply (IZR_le 0); lia|]. split; [exact F2|]. rewrite <- abs_IZR. apply IZR_le. lia. }
  change f32_zero with (f32_of_Z 0). split; [exists 11%Z; split; [lia|rewrite repeat_length; reflexivity]|]. split; [|rewrite k44_val; change (IZR (128 * Z.of_nat (osc_quanta an_osc))) with 384; lra].
  repeat apply Forall_cons; try apply Forall_nil; cbn [osc_action_ok]; try reflexivity; try discriminate.
  - split; [left; reflexivity|]. split; [left; reflexivity|]. intros j _. change (freq_ok (f32_of_Z 440) (f32_of_Z 0)). apply Q; lia.
  - exists 6%Z. split; [lia|rewrite repeat_length; reflexivity].
  - split; [right; rewrite repeat_length; reflexivity|]. split; [left; reflexivity|]. intros j Hj. replace (value_at _ (repeat (f32_of_Z 30000) 128) j) with (f32_of_Z 30000); [apply Q; lia|].
    change (value_at _ (repeat (f32_of_Z 30000) 128) j) with (nth j (repeat (f32_of_Z 30000) 128) (v_zero (ieee libm_one))). symmetry. apply (repeat_spec 128). apply nth_In. rewrite repeat_length. exact Hj.
  - split; [left; reflexivity|]. split; [left; reflexivity|]. intros j _. change (freq_ok (f32_of_Z 440) (f32_of_Z 0)). apply Q; lia.
Qed.
Example libm_one_ok : forall x : f64, is_finite x = true -> Rabs (B2R x) <= 128 -> is_finite (m64_exp2 libm_one x) = true /\ 0 <= B2R (m64_exp2 libm_one x) <= bpow radix2 129.
Proof. intros x _ _. destruct one_val as [E F]. cbn [libm_one m64_exp2]. split; [exact F|]. rewrite E. assert (1 <= bpow radix2 129) by (change 1 with (bpow radix2 0); apply bpow_le; lia). lra. Qed.
