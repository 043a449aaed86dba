(** Properties C17-C21: AudioParam. *)
From Coq Require Import List Arith Bool ZArith QArith Reals Lra Lia Sorted Permutation.
From Flocq Require Import BinarySingleNaN.
From Verif Require Import Float_Model Param_Model Param_Inst Param_Real Param_Spec Param_ClockSpec Param_CurveSpec
  Param_TimelineProofs Param_SafetyProofs Param_RangeProofs Param_IeeeProofs Param_ExactProofs Param_OrderProofs
  Param_CurveProofs Param_RealProofs Param_ClockProofs.
Import ListNotations.
Local Open Scope nat_scope.

(** ** C17: whatever is scheduled and connected, every value handed to the node is
    a number within the nominal range *)
Theorem C17_values_in_range : forall f64_exp f32_powf sr arate dflt lo hi l p outs,
  valid_sample_rate sr -> valid_range dflt lo hi -> valid_actions l ->
  running f64_exp f32_powf sr arate dflt lo hi l = Ok (p, outs) ->
  Forall (fun out => Forall (fun v => is_nan v = false /\ f32_le lo v = true /\ f32_le v hi = true) out /\ (length out = 1 \/ length out = 128)) outs.
Proof. intros f64_exp f32_powf sr arate dflt lo hi l p outs H1. exact (running_in_range f64_exp f32_powf sr H1 arate dflt lo hi l p outs). Qed.
Print Assumptions C17_values_in_range.

Definition f (n : Z) : f32 := f32_lit n 0.
Definition rate : f64 := f64_lit 4096 0.
(** time in quanta at that rate *)
Definition t (n : Z) : f64 := f64_lit n (-5).
Definition quiet : action f64 f32 := Render (repeat f32_zero 128) true.
Definition call (c : @Param_Model.call f64 f32) : action f64 f32 := Call c.

(** the first two values of every quantum *)
Definition shown (r : res (@param f64 f32 * list (list f32))) : option (list (list SpecFloat.spec_float)) :=
  match r with Ok (_, outs) => Some (map (fun out => map B2SF (firstn 2 out)) outs) | _ => None end.

Lemma rate_valid : valid_sample_rate rate.
Proof. split; [reflexivity|]. destruct (f64_of_Z_small 4096) as [E _]; [lia|]. change (B2R rate) with (B2R (f64_of_Z 4096)). rewrite E. lra. Qed.
Lemma range_valid : valid_range (f 0) (f (-10)) (f 10).
Proof. repeat split; try reflexivity; cbn; unfold Defs.F2R; cbn; lra. Qed.

(** a curve beyond the range, and a modulation by NaN and infinity *)
Definition loud : list (action f64 f32) :=
  [call (C_curve [f 0; f 90] (t 0) (t 1)); quiet; Render (B754_nan :: B754_infinity true :: repeat f32_zero 126) false].
Example C17_example : forall f64_exp f32_powf, valid_actions loud /\
  shown (running f64_exp f32_powf rate true (f 0) (f (-10)) (f 10) loud) = Some (map (map B2SF) [[f 0; f32_lit 90 (-7)]; [f 0; f (-10)]]).
Proof. intros. split; [split; [repeat constructor|cbn; lia]|vm_compute; reflexivity]. Qed.

(** ** C18: the timeline *)

(** In every state a parameter can reach, the pending events are sorted by time. *)
Theorem C18_always_sorted : forall f64_exp f32_powf sr arate dflt lo hi p, valid_sample_rate sr ->
  reached f64_exp f32_powf sr arate dflt lo hi p -> StronglySorted (fun e1 e2 => f64_le (ev_time e1) (ev_time e2) = true) (p_timeline p).
Proof. intros f64_exp f32_powf sr arate dflt lo hi p H1 H2. exact (ty_sorted _ _ (reached_tidy f64_exp f32_powf sr H1 arate dflt lo hi p H2)). Qed.
Print Assumptions C18_always_sorted.

(** A batch of calls, in any order: the result is the stable sort of the pending and
    the new events.  [l'] lists them with their position in the sequence of calls:
    sorted by time, and by that position where the times are equal. *)
Theorem C18_stable_sort : forall f64_exp f32_powf sr arate dflt lo hi p cs es p' outs, valid_sample_rate sr ->
  reached f64_exp f32_powf sr arate dflt lo hi p ->
  map (call_event (ieee_ops f64_exp f32_powf)) cs = map Some es ->
  Forall (fun e => ev_type e <> CancelScheduled /\ ev_type e <> CancelAndHold) es ->
  prun (ieee_ops f64_exp f32_powf) 128 p (map Schedule cs) = Ok (p', outs) ->
  exists old l', (old = p_timeline p \/ (p_timeline p = [] /\ exists v, old = [simple SetValue v f64_zero])) /\
    Permutation (combine (seq 0 (length (old ++ es))) (old ++ es)) l' /\
    StronglySorted (fun a b => f64_lt (ev_time (snd a)) (ev_time (snd b)) = true \/
                               (f64_le (ev_time (snd a)) (ev_time (snd b)) = true /\ fst a < fst b)) l' /\
    map snd l' = p_timeline p'.
Proof.
  intros f64_exp f32_powf sr arate dflt lo hi p cs es p' outs H1 H2. intros.
  eapply (batch (ieee_ops f64_exp f32_powf) 128 ltac:(lia) not_nan (ieee_time_order f64_exp f32_powf)); try eassumption.
  eapply reached_tidy; eassumption.
Qed.
Print Assumptions C18_stable_sort.

(** cancelScheduledValues(t) removes exactly the events at or after [t]. *)
Theorem C18_cancel : forall (f64_exp : f64 -> f64) (f32_powf : f32 -> f32 -> f32) (p : param) time p' outs,
  f64_is_finite time = true -> f64_le f64_zero time = true ->
  pstep (ieee_ops f64_exp f32_powf) 128 p (Schedule (C_cancel time)) = Ok (p', outs) ->
  p_timeline p' = filter (fun e => f64_lt (ev_time e) time) (p_timeline p).
Proof.
  intros f64_exp f32_powf p time p' outs H1 H2 H. cbn [pstep call_event] in H. unfold valid_time in H. cbn [t_finite t_le t_zero ieee_ops] in H. rewrite H1, H2 in H.
  cbn [andb] in H. apply bindO in H. destruct H as (q & H3 & H4). inversion H4; subst. exact (cancel_result _ _ _ _ H3).
Qed.
Print Assumptions C18_cancel.

(** Rendering consumes events from the front only.  (An event may be replaced, at
    the front, by the set-value event that has its effect.) *)
Theorem C18_processed_from_the_front : forall f64_exp f32_powf sr arate dflt lo hi p n input silent p' outs, valid_sample_rate sr ->
  reached f64_exp f32_powf sr arate dflt lo hi p -> (0 <= n < 2 ^ 41)%Z ->
  pstep (ieee_ops f64_exp f32_powf) 128 p (Quantum (clock sr n) (frame_length sr) input silent) = Ok (p', outs) ->
  consumed (p_timeline p) (p_timeline p').
Proof.
  intros f64_exp f32_powf sr arate dflt lo hi p n input silent p' outs H1 H2 H3 H. cbn [pstep] in H. apply bindO in H. destruct H as ([q o] & H4 & H5). inversion H5; subst.
  unfold process in H4. apply bindO in H4. destruct H4 as (q' & H4 & H6). apply bindO in H6. destruct H6 as (o' & _ & H6). inversion H6; subst.
  eapply (compute_order (ieee_ops f64_exp f32_powf) 128 ltac:(lia) not_nan (ieee_time_order f64_exp f32_powf) (ieee_to_nat_le f64_exp f32_powf)); [exact H4|apply clock_block; assumption|].
  eapply reached_tidy; eassumption.
Qed.
Print Assumptions C18_processed_from_the_front.

Example C18_example : forall f64_exp f32_powf,
  match prun (ieee_ops f64_exp f32_powf) 128 (new_param true (f 0) (f (-10)) (f 10))
    (map Schedule [C_set_value_at_time (f 1) (t 3); C_set_value_at_time (f 2) (t 1); C_linear_ramp (f 3) (t 3); C_set_value_at_time (f 4) (t 1)]) with
  | Ok (p', _) => map (fun e => B2SF (ev_value e)) (p_timeline p') = map B2SF [f 2; f 4; f 1; f 3]
  | _ => False
  end.
Proof. intros. vm_compute. reflexivity. Qed.
Definition waiting : list (action f64 f32) :=
  [call (C_set_value_at_time (f 1) (t 1)); call (C_set_value_at_time (f 1) (t 7)); call (C_linear_ramp (f 2) (t 9)); quiet; quiet; quiet].
Example C18_reached_example : forall f64_exp f32_powf, valid_actions waiting /\
  match running f64_exp f32_powf rate true (f 0) (f (-10)) (f 10) waiting with
  | Ok (p, _) => length (p_timeline p) = 2 /\ match p_last p with Some _ => True | None => False end
  | _ => False
  end.
Proof. intros. split; [split; [repeat constructor|cbn; lia]|]. vm_compute. split; reflexivity || exact I. Qed.

(** The value setter counts as an event at the current time.  If an event is pending for
    exactly the time of the next quantum, it takes effect after the setter
    although it was scheduled before: the new value is lost.  Here [value = 5] is set
    when the set-value event (value 2) is due; the parameter stays at 2. *)
Theorem C18_setter_order_refuted : forall f64_exp f32_powf, exists l, valid_actions l /\
  l = [call (C_set_value_at_time (f 2) (clock rate 1)); quiet; call (C_set_value (f 5)); quiet; quiet] /\
  shown (running f64_exp f32_powf rate true (f 0) (f (-10)) (f 10) l) = Some (map (map B2SF) [[f 0]; [f 2; f 2]; [f 2]]).
Proof. intros. eexists. split; [|split; [reflexivity|vm_compute; reflexivity]]. split; [repeat constructor|cbn; lia]. Qed.
Print Assumptions C18_setter_order_refuted.

(** The same happens when a target has just been reached: the code then plants an event of its own at the time of the next
    quantum, and a value set before this quantum is lost.  Here a target equal to the current value 5 is
    scheduled; [value = 2] afterwards has no effect. *)
Theorem C18_setter_after_target_refuted : forall f32_powf, exists l, valid_actions l /\
  l = [call (C_set_target (f 5) (t 0) (t 1)); quiet; call (C_set_value (f 2)); quiet; quiet] /\
  shown (running (fun _ => f64_one) f32_powf rate true (f 5) (f (-10)) (f 10) l) = Some (map (map B2SF) [[f 5; f 5]; [f 5; f 5]; [f 5]]).
Proof. intros. eexists. split; [|split; [reflexivity|vm_compute; reflexivity]]. split; [repeat constructor|cbn; lia]. Qed.
Print Assumptions C18_setter_after_target_refuted.

(** ** C19: the automation curve, in exact arithmetic *)

(** Set-value events and linear ramps, scheduled in any number of calls at any time
    (no event in the past, no ramp without a predecessor, none before the end of a ramp in
    progress), any number of quanta and any modulation: every frame has the value the
    specification assigns to it, clamped to the nominal range.
    Missing: rounding, k-rate parameters. *)
Theorem C19_automation_curve_partial : forall Q_exp Q_powf dt RQ dflt lo hi os,
  (0 < dt)%Q -> 0 < RQ -> (lo <= hi)%Q -> plans_ok dt RQ dflt 0 [] os ->
  exists p outs, prun (exact_ops Q_exp Q_powf) RQ (new_param true dflt lo hi) (to_ops dt RQ 0 os) = Ok (p, outs) /\
    Forall2 (Forall2 Qeq) (map (spread RQ) outs) (expected dt RQ dflt lo hi 0 [] os).
Proof.
  intros Q_exp Q_powf dt RQ dflt lo hi os H1 H2 H3 H.
  apply (automation_curve Q_exp Q_powf dt H1 RQ H2 dflt lo hi H3 os 0 [] (new_param true dflt lo hi)); [|exact H].
  apply st_new; assumption.
Qed.
Print Assumptions C19_automation_curve_partial.

(** For events on frames the sampled curve is the curve of the specification. *)
Theorem C19_sampled_curve_is_ideal : forall dt l dflt k, (0 < dt)%Q -> Forall (fun s => exists j, (s_time s == frame_time dt j)%Q) l ->
  frame_curve dt dflt l k = ideal_curve dflt l (frame_time dt k).
Proof. intros dt l dflt k H1 H2. exact (frame_curve_ideal dt H1 l dflt k H2). Qed.
Print Assumptions C19_sampled_curve_is_ideal.

(** two ramps across quanta of four frames; an event is added after two quanta *)
Definition demo : list sop :=
  [Plan (mk_sev Linear 6 6); Plan (mk_sev Jump 2 3); Play [0;0;0;0]%Q true; Play [0;0;0;1]%Q false; Plan (mk_sev Linear 0 12); Play [0;0;0;0]%Q true].
Example C19_example : plans_ok 1 4 0 0 [] demo /\
  map (map Qred) (expected 1 4 0 (-10) 10 0 [] demo) = [[0; 0; 0; 2]; [10#3; 14#3; 6; 7]; [4; 3; 2; 1]]%Q.
Proof.
  split; [|vm_compute; reflexivity]. unfold demo. cbn [plans_ok]. unfold plan_ok, input_ok.
  repeat match goal with |- _ /\ _ => split end.
  all: try (intros; discriminate).
  all: try (cbn; discriminate).
  all: try (intros; lia).
  all: try reflexivity.
  all: try (intros; repeat constructor).
  - congruence.
  - exists (mk_sev Jump 2 3). split; [vm_compute; auto|vm_compute; discriminate].
  - match goal with E : plan _ _ _ _ _ _ = ?l1 ++ ?r :: ?l2 |- _ => assert (I : In r (l1 ++ r :: l2)) by (apply in_or_app; right; left; reflexivity); rewrite <- E in I; vm_compute in I end.
    destruct I as [I|[I|[I|[]]]]; subst; vm_compute; discriminate.
Qed.

(** k-rate: a set-value event exactly at the beginning of a quantum, and first in the
    timeline, takes effect one whole quantum late. *)
Theorem C19_krate_boundary_refuted : exists p outs,
  prun (exact_ops (fun x => x) (fun x _ => x)) 4 (new_param false 0 (-10) 10)%Q
    [Schedule (C_set_value_at_time 5 4)%Q; Quantum 0%Q 1%Q (repeat 0%Q 4) true; Quantum 4%Q 1%Q (repeat 0%Q 4) true; Quantum 8%Q 1%Q (repeat 0%Q 4) true] = Ok (p, outs) /\
  map (map Qred) outs = [[0]; [0]; [5]]%Q /\
  frame_curve 1 0 [mk_sev Jump 5 4] 4 = 5%Q.
Proof. eexists _, _. split; [vm_compute; reflexivity|]. split; vm_compute; reflexivity. Qed.
Print Assumptions C19_krate_boundary_refuted.

(** cancelAndHold(5) on a ramp to 10 at time 10 should hold the value 5.  If another
    event (value 1 at time 7) is scheduled afterwards, the ramp, which keeps its
    old end time, is processed after it: the output never rises. *)
Theorem C19_event_after_hold_refuted : exists p outs,
  prun (exact_ops (fun x => x) (fun x _ => x)) 10 (new_param true 0 (-10) 10)%Q
    [Schedule (C_set_value_at_time 0 0)%Q; Schedule (C_linear_ramp 10 10)%Q; Schedule (C_cancel_and_hold 5)%Q; Schedule (C_set_value_at_time 1 7)%Q;
     Quantum 0%Q 1%Q (repeat 0%Q 10) true; Quantum 10%Q 1%Q (repeat 0%Q 10) true] = Ok (p, outs) /\
  map (map Qred) outs = [[0; 0; 0; 0; 0; 0; 0; -5; -5; -5]; [-5]]%Q.
Proof. eexists _, _. split; vm_compute; reflexivity. Qed.
Print Assumptions C19_event_after_hold_refuted.

(** A later cancelAndHold undoes an earlier one: after cancelAndHold(5) the value is to stay at 5;
    a further cancelAndHold(7) lets it rise to 7. *)
Theorem C19_second_hold_refuted : exists p outs,
  prun (exact_ops (fun x => x) (fun x _ => x)) 10 (new_param true 0 (-10) 10)%Q
    [Schedule (C_set_value_at_time 0 0)%Q; Schedule (C_linear_ramp 10 10)%Q; Schedule (C_cancel_and_hold 5)%Q; Schedule (C_cancel_and_hold 7)%Q;
     Quantum 0%Q 1%Q (repeat 0%Q 10) true; Quantum 10%Q 1%Q (repeat 0%Q 10) true] = Ok (p, outs) /\
  map (map Qred) outs = [[0; 1; 2; 3; 4; 5; 6; 7; 7; 7]; [7]]%Q.
Proof. eexists _, _. split; vm_compute; reflexivity. Qed.
Print Assumptions C19_second_hold_refuted.

(** A value curve that starts after the quantum in which the preceding event ends: its formula is
    evaluated before its start, at the end of this quantum, and the result becomes the value until
    the curve starts.  Here 5 is to hold until time 9; the value is 7.5 from time 4 on. *)
Theorem C19_future_curve_refuted : exists p outs,
  prun (exact_ops (fun x => x) (fun x _ => x)) 4 (new_param true 1 (-100) 100)%Q
    [Schedule (C_set_value_at_time 5 0)%Q; Schedule (C_curve [0; 10] 9 4)%Q;
     Quantum 0%Q 1%Q (repeat 0%Q 4) true; Quantum 4%Q 1%Q (repeat 0%Q 4) true; Quantum 8%Q 1%Q (repeat 0%Q 4) true] = Ok (p, outs) /\
  map (map Qred) outs = [[5; 5; 5; 5]; [15#2]; [15#2; 0; 5#2; 5]]%Q.
Proof. eexists _, _. split; vm_compute; reflexivity. Qed.
Print Assumptions C19_future_curve_refuted.

(** A ramp that starts after a frame and ends before the next one counts as reached from the nearest
    frame on: if this is the frame before, the ramp is extrapolated backwards, far out of the range between
    its ends.  Here the values are 1, 0 from time 0.49 on and a ramp to 1 at 0.51; the frame at time 0
    gets -24.5. *)
Theorem C19_short_ramp_refuted : exists p outs,
  prun (exact_ops (fun x => x) (fun x _ => x)) 4 (new_param true 1 (-100) 100)%Q
    [Schedule (C_set_value_at_time 0 (49#100))%Q; Schedule (C_linear_ramp 1 (51#100))%Q; Quantum 0%Q 1%Q (repeat 0%Q 4) true] = Ok (p, outs) /\
  map (map Qred) outs = [[-49#2; 1; 1; 1]]%Q /\
  ideal_curve 1 [mk_sev Jump 0 (49#100); mk_sev Linear 1 (51#100)] 0 = 1%Q.
Proof. eexists _, _. split; [vm_compute; reflexivity|]. split; vm_compute; reflexivity. Qed.
Print Assumptions C19_short_ramp_refuted.

(** A ramp behind a target that has not started: the specification lets the ramp begin at the start
    of the target (time 2), with the value before it (5).  The code begins it at the start of the quantum,
    with the exponential evaluated before its start: 4 + exp(2) at time 0 (here with the first four terms
    of the exponential series; it is 11.39). *)
Theorem C19_ramp_after_target_refuted : exists p outs,
  prun (exact_ops (fun x => 1 + x + x * x / 2 + x * x * x / 6) (fun x _ => x))%Q 4 (new_param true 1 (-100) 100)%Q
    [Schedule (C_set_value_at_time 5 0)%Q; Schedule (C_set_target 4 2 1)%Q; Schedule (C_linear_ramp 10 8)%Q; Quantum 0%Q 1%Q (repeat 0%Q 4) true] = Ok (p, outs) /\
  map (map Qred) outs = [[31#3; 247#24; 41#4; 245#24]]%Q.
Proof. eexists _, _. split; vm_compute; reflexivity. Qed.
Print Assumptions C19_ramp_after_target_refuted.

(** ** C20: no crash *)

(** Any number of quanta, any modulation, any calls but value curves: if no ramp or
    target is scheduled before all other events, and the cancelAndHold calls come in the
    order of their times, the render thread does not panic, and each quantum yields
    one or 128 values. *)
Theorem C20_never_crashes_partial : forall f64_exp f32_powf sr arate dflt lo hi l,
  valid_sample_rate sr -> valid_range dflt lo hi -> valid_actions l -> no_curves l ->
  calls_ok (ieee_ops f64_exp f32_powf) 128 (new_param arate dflt lo hi) (on_clock (clock sr) (frame_length sr) 0 l) ->
  exists p outs, running f64_exp f32_powf sr arate dflt lo hi l = Ok (p, outs) /\ Forall (fun out => length out = 1 \/ length out = 128) outs.
Proof. intros f64_exp f32_powf sr arate dflt lo hi l H1. exact (running_ok f64_exp f32_powf sr H1 arate dflt lo hi l). Qed.
Print Assumptions C20_never_crashes_partial.

(** With value curves, in exact arithmetic. *)
Theorem C20_never_crashes_exact_partial : forall Q_exp Q_powf RQ dt arate dflt lo hi l,
  0 < RQ -> (0 < dt)%Q -> (lo <= hi)%Q -> inputs_ok RQ l ->
  calls_ok (exact_ops Q_exp Q_powf) RQ (new_param arate dflt lo hi) (on_clock (exact_clock dt RQ) dt 0 l) ->
  exists p outs, prun (exact_ops Q_exp Q_powf) RQ (new_param arate dflt lo hi) (on_clock (exact_clock dt RQ) dt 0 l) = Ok (p, outs) /\
    Forall (fun out => length out = 1 \/ length out = RQ) outs.
Proof. exact exact_running_ok. Qed.
Print Assumptions C20_never_crashes_exact_partial.

Definition busy : list (action f64 f32) :=
  [call (C_linear_ramp (f 3) (t 2)); call (C_set_target (f 1) (t 3) (t 1)); quiet; Set_rate false; quiet; call (C_cancel_and_hold (t 3)); quiet; call (C_cancel (t 1)); quiet].
Example C20_example : valid_actions busy /\ no_curves busy /\
  calls_ok (ieee_ops (fun x => x) (fun x _ => x)) 128 (new_param true (f 0) (f (-10)) (f 10)) (on_clock (clock rate) (frame_length rate) 0 busy).
Proof.
  split; [split; [repeat constructor|cbn; lia]|]. split; [repeat constructor|]. apply calls_okb_ok. vm_compute. reflexivity.
Qed.
Example C20_exact_example :
  calls_ok (exact_ops (fun x => x) (fun x _ => x)) 4 (new_param true 0 (-10) 10)%Q
    (on_clock (exact_clock 1 4) 1%Q 0 [Call (C_curve [0; 5; 3] 1 6); Render (repeat 0 4) true; Call (C_cancel_and_hold 5); Call (C_linear_ramp 2 9); Render (repeat 0 4) true]%Q).
Proof. apply calls_okb_ok. vm_compute. reflexivity. Qed.

(** A ramp before an event that is already pending *)
Theorem C20_early_ramp_refuted : forall f64_exp f32_powf, exists l, valid_actions l /\
  l = [call (C_set_value_at_time (f 2) (t 10)); call (C_linear_ramp (f 3) (t 5)); quiet] /\
  running f64_exp f32_powf rate true (f 0) (f (-10)) (f 10) l = Panic.
Proof. intros. eexists. split; [|split; [reflexivity|vm_compute; reflexivity]]. split; [repeat constructor|cbn; lia]. Qed.
Print Assumptions C20_early_ramp_refuted.

(** An event inside a value curve: the assertion fails on the render thread *)
Theorem C20_event_in_curve_refuted : forall f64_exp f32_powf, exists l, valid_actions l /\
  l = [call (C_curve [f 0; f 1] (t 1) (t 2)); call (C_set_value_at_time (f 3) (t 2))] /\
  running f64_exp f32_powf rate true (f 0) (f (-10)) (f 10) l = Panic.
Proof. intros. eexists. split; [|split; [reflexivity|vm_compute; reflexivity]]. split; [repeat constructor|cbn; lia]. Qed.
Print Assumptions C20_event_in_curve_refuted.

(** Rounding: for this curve of four values the index exceeds the table just before the end *)
Theorem C20_curve_index_refuted : forall f64_exp f32_powf, exists start duration time,
  f64_lt f64_zero duration = true /\ f64_lt (f64_sub time start) duration = true /\
  value_curve_sample (ieee_ops f64_exp f32_powf) start duration [f 0; f 1; f 2; f 3] time = Panic.
Proof. intros. exists f64_zero, (f64_lit 0x19955ea4860883 (-52)), (f64_lit 0x19955ea4860882 (-52)). repeat split. Qed.
Print Assumptions C20_curve_index_refuted.

(** cancelAndHold calls out of order *)
Theorem C20_hold_order_refuted : forall f64_exp f32_powf, exists l, valid_actions l /\
  l = [call (C_curve [f 0; f 1; f 0] (t 0) (t 9)); call (C_cancel_and_hold (t 5)); call (C_linear_ramp (f 3) (t 12)); call (C_cancel_and_hold (t 3)); quiet] /\
  running f64_exp f32_powf rate true (f 0) (f (-10)) (f 10) l = Panic.
Proof. intros. eexists. split; [|split; [reflexivity|vm_compute; reflexivity]]. split; [repeat constructor|cbn; lia]. Qed.
Print Assumptions C20_hold_order_refuted.

(** ** C21: the formulas, over the real numbers *)

Local Open Scope R_scope.
Theorem C21_linear_ramp : forall t0 d s v, 0 < d ->
  let g := linear_ramp_sample real_ops t0 d s (v - s) in
  g t0 = s /\ g (t0 + d) = v /\ forall time, t0 <= time <= t0 + d -> Rmin s v <= g time <= Rmax s v.
Proof. intros t0 d s v H. exact (conj (linear_start t0 d s v H) (conj (linear_end t0 d s v H) (linear_between t0 d s v H))). Qed.
Print Assumptions C21_linear_ramp.

Theorem C21_exponential_ramp : forall t0 d s v, 0 < d -> 0 < s * v ->
  let g := exponential_ramp_sample real_ops t0 d s (v / s) in
  g t0 = s /\ g (t0 + d) = v /\ forall time, t0 <= time <= t0 + d -> Rmin s v <= g time <= Rmax s v.
Proof. intros t0 d s v H1 H2. exact (conj (exponential_start t0 d s v H1 H2) (conj (exponential_end t0 d s v H1 H2) (exponential_between t0 d s v H1 H2))). Qed.
Print Assumptions C21_exponential_ramp.

Theorem C21_set_target : forall t0 c s v, 0 < c ->
  let g := set_target_sample real_ops t0 c v (s - v) in
  g t0 = s /\
  (forall time, t0 <= time -> Rmin s v <= g time <= Rmax s v) /\
  (forall time, (s < v -> g time < v) /\ (v < s -> v < g time)) /\
  (forall t1 t2, t1 < t2 -> s <> v -> Rabs (g t2 - v) < Rabs (g t1 - v)) /\
  (forall eps, 0 < eps -> exists late, forall time, late <= time -> Rabs (g time - v) < eps).
Proof.
  intros t0 c s v H. exact (conj (target_start t0 c s v H) (conj (target_between t0 c s v H) (conj (target_side t0 c s v) (conj (target_decreasing t0 c s v H) (target_limit t0 c s v H))))).
Qed.
Print Assumptions C21_set_target.

(** A value curve takes its values at equal distances, is linear in between, keeps its last
    value, and stays within any bounds of its values. *)
Theorem C21_value_curve : forall t0 d vs, 0 < d -> (2 <= length vs)%nat ->
  let g := value_curve_sample real_ops t0 d vs in
  let n := length vs in
  (forall k, (k < n)%nat -> g (t0 + INR k * d / INR (n - 1)) = Ok (nth k vs 0)) /\
  (forall time k, (k + 1 < n)%nat -> t0 + INR k * d / INR (n - 1) <= time < t0 + INR (k + 1) * d / INR (n - 1) ->
     g time = Ok (nth k vs 0 + (nth (k + 1) vs 0 - nth k vs 0) * (INR (n - 1) * (time - t0) / d - INR k))) /\
  (forall time, t0 + d <= time -> g time = Ok (last vs 0)) /\
  (forall lo hi time, t0 <= time -> Forall (fun x => lo <= x <= hi) vs -> exists v, g time = Ok v /\ lo <= v <= hi).
Proof.
  intros t0 d vs H1 H2. exact (conj (curve_point t0 d vs H1 H2) (conj (curve_segment t0 d vs H1 H2) (conj (curve_after t0 d vs H2) (curve_range t0 d vs H1 H2)))).
Qed.
Print Assumptions C21_value_curve.

Example C21_example : linear_ramp_sample real_ops 1 4 2 (10 - 2) 2 = 4 /\ 0 < 2 * 10.
Proof. split; [unfold linear_ramp_sample; cbn; field|lra]. Qed.

(** The formula is used outside its domain: a target that starts after the end of a quantum
    in which another event is processed is evaluated at the end of that quantum.  A
    setTargetAtTime(1, 3, 1) on a fresh parameter (value 0) makes it jump
    to 1 - exp(2), about -6.4, in the second quantum.  (Times in quanta.) *)
Local Open Scope nat_scope.
Definition exp_2 (x : f64) : f64 := if f64_eq x (f64_lit 2 0) then f64_lit 8319337573440942 (-50) else f64_one.
Theorem C21_future_target_refuted : forall f32_powf, exists l, valid_actions l /\
  l = [call (C_set_target (f 1) (t 3) (t 1)); quiet; quiet] /\
  shown (running exp_2 f32_powf rate true (f 0) (f (-10)) (f 10) l) = Some (map (map B2SF) [[f 0; f 0]; [f32_lit (-13398822) (-21)]]).
Proof. intros. eexists. split; [|split; [reflexivity|vm_compute; reflexivity]]. split; [repeat constructor|cbn; lia]. Qed.
Print Assumptions C21_future_target_refuted.
