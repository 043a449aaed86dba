(** Delay: theorems.

    C27 The output is the input delayed by the delay time; fractions are interpolated; the ring never collides.
    C28 After the input is gone the reader plays what is left, then stops. *)
From Coq Require Import List Arith Bool ZArith Reals Lra Lia.
From Flocq Require Import Core BinarySingleNaN.
From Verif Require Import Float_Model Float_Proofs Float_ErrorProofs Common_Model Arith_Model Arith_Real Source_Model Source_Props Absn_Spec
  Delay_Model Delay_Spec Delay_Proofs Delay_ExactProofs Delay_RunProofs Buffer_Model Buffer_ResampleProofs Delay_IeeeProofs Delay_IeeeRunProofs.
Import ListNotations.
Local Open Scope R_scope.

(** ** C27 *)

(** Exact arithmetic.  [l] gives for each quantum the input, whether the graph runs the reader first (the delay
    is in a cycle), and the delay times, one for the quantum or one per frame, between 0 and the maximum given at
    construction.  [remix] is any mixing that keeps the length and silence of channels.  Frame [128 k + i] of the
    output is the input, as recorded at that time, [frames] earlier, with linear interpolation between two
    frames; there is silence before the first frame.  In a cycle the delay is at least a quantum. *)
Theorem C27_exact : forall sr remix max, 0 < sr -> 0 < max ->
  (forall C n b, good C b -> (0 < n)%nat -> good n (remix n b)) -> (forall C n b, good C b -> zeros exact b -> (0 < n)%nat -> zeros exact (remix n b)) ->
  forall l, Forall (fun x => chan_ok (fst (fst x)) /\ delays_ok max (snd x)) l ->
  exists s os, delay_run exact sr remix (delay_new (ring_size exact sr max)) 0 (map (fun x => D_both (fst (fst x)) (snd (fst x)) (snd x)) l) = Ok (s, os) /\ length os = length l /\
    forall k input (reader_first : bool) delays o, nth_error l k = Some (input, reader_first, delays) -> nth_error os k = Some o -> snd o = true /\
      let h := recorded remix (map (fun x => fst (fst x)) (firstn (if reader_first then k else S k) l)) in
      let in_cycle := existsb (fun x => snd (fst x)) (firstn (S k) l) in
      forall c i, (c < channels h)%nat -> (i < 128)%nat ->
        sample_at 0 (fst o) c i = lerp (signal 0 h c) (IZR (128 * Z.of_nat k + Z.of_nat i) - frames sr (delay_at delays i) in_cycle).
Proof.
  intros sr remix max Hs Hm Hg Hz l Hl. destruct (run_from_new sr Hs remix Hg Hz max Hm l Hl) as (s & os & E & _ & L & P). exists s, os. split; [exact E|]. split; [exact L|].
  intros k input rf delays o E1 E2. exact (P k _ o E1 E2).
Qed.
Print Assumptions C27_exact.

(** A delay of a whole number [n] of frames, the same in all quanta, not in a cycle, and an unchanging number of
    channels: the output is exactly the input [n] frames earlier. *)
Theorem C27_whole_frames : forall sr remix max, 0 < sr -> 0 < max ->
  (forall C n b, good C b -> (0 < n)%nat -> good n (remix n b)) -> (forall C n b, good C b -> zeros exact b -> (0 < n)%nat -> zeros exact (remix n b)) ->
  forall n C (inputs : list (list (list R))), (0 <= n)%Z -> IZR n / sr <= max -> (0 < C)%nat -> Forall (good C) inputs ->
  exists s os, delay_run exact sr remix (delay_new (ring_size exact sr max)) 0 (map (fun x => D_both x false [IZR n / sr]) inputs) = Ok (s, os) /\ length os = length inputs /\
    forall k o, nth_error os k = Some o -> snd o = true /\
      forall c i, (c < C)%nat -> (i < 128)%nat -> sample_at 0 (fst o) c i = signal 0 inputs c (128 * Z.of_nat k + Z.of_nat i - n).
Proof. exact whole_frames. Qed.
Print Assumptions C27_whole_frames.

(** a mixing with these properties: every channel gets the first one *)
Example C27_remix : let remix := fun n (b : list (list R)) => repeat (nth 0 b (repeat 0 128)) n in
  (forall C n b, good C b -> (0 < n)%nat -> good n (remix n b)) /\ (forall C n b, good C b -> zeros exact b -> (0 < n)%nat -> zeros exact (remix n b)).
Proof.
  cbv zeta. split.
  - intros C n b [G1 G2] Hn. split; [apply repeat_length|]. apply Forall_forall. intros x Hx. apply repeat_spec in Hx. subst x. destruct b as [|ch b]; [apply repeat_length|]. apply Forall_cons_iff in G2. apply G2.
  - intros C n b _ G Hn. apply Forall_forall. intros x Hx. apply repeat_spec in Hx. subst x. destruct b as [|ch b]; [apply Forall_forall; intros y Hy; apply repeat_spec in Hy; symmetry; exact Hy|]. apply Forall_cons_iff in G. apply G.
Qed.
Definition a_delay : list (list (list R) * bool * list R) := [([repeat 1 128], false, [/ 2]); ([repeat 1 128; repeat 3 128], true, repeat (/ 4) 128)].
Example C27_case : Forall (fun x => chan_ok (fst (fst x)) /\ delays_ok 1 (snd x)) a_delay.
Proof.
  repeat apply Forall_cons; [| |apply Forall_nil]; (split; [split; [cbn; lia|repeat apply Forall_cons; try apply Forall_nil; apply repeat_length]|]); (split; [cbn [snd length]; rewrite ?repeat_length; lia|]); cbn [snd].
  - apply Forall_cons; [lra|apply Forall_nil].
  - apply Forall_forall. intros x Hx. apply repeat_spec in Hx. lra.
Qed.

(** Floating point: never an access outside of the ring, whatever the order of the quanta of the reader and the
    writer, with delay times up to the parameter's limit; the output has as many frames as a quantum. *)
Theorem C27_safe : forall M sr max remix, rate_ok sr -> is_finite max = true /\ 0 < B2R max < 180 -> (forall C n b, good C b -> (0 < n)%nat -> good n (remix n b)) ->
  forall l, Forall (fun a : @delay_action f32 =>
    let input_ok b := exists C, (0 < C)%nat /\ good C b in
    let delays_ok delays := (length delays = 1 \/ length delays = 128)%nat /\ Forall (fun d : f32 => is_finite d = true /\ 0 <= B2R d <= B2R (f32_of_f64 max)) delays in
    match a with D_both input _ delays => input_ok input /\ delays_ok delays | D_reader delays => delays_ok delays | D_writer input => input_ok input | D_drop => True end) l ->
  exists s os, delay_run (ieee M) sr remix (delay_new (ring_size (ieee M) sr max)) 0 l = Ok (s, os) /\ Forall (fun o => exists C, (0 < C)%nat /\ good C (fst o)) os.
Proof.
  intros M sr max remix Hs Hm Hg l Hl. pose proof (N_pos M sr Hs _ max Hm eq_refl) as HN.
  destruct (run_safe M sr Hs _ HN max Hm eq_refl remix Hg l _ 0%Z (safe_new M sr Hs _ max Hm eq_refl) Hl) as (s & os & E & _ & G). exists s, os. split; assumption.
Qed.
Print Assumptions C27_safe.

(** Floating point, not in a cycle, delay times up to the maximum: sample [i] of quantum [k] is computed from the
    recorded frame [t] and the next one with weights [1 - w] and [w], where [t + w] is [delay] seconds before frame
    [128 k + i] up to 2^-22 frames.  When [t] is the present frame the weight of the next is 0 (the slot read is then
    an older one).  A quantum without any normal number is replaced by silence.
    Missing for the full claim: delays in a cycle, and between the maximum and the parameter's limit (refuted below). *)
Theorem C27_ieee_partial : forall M sr max remix, rate_ok sr -> is_finite max = true /\ 0 < B2R max < 180 ->
  (forall C n b, good C b -> (0 < n)%nat -> good n (remix n b)) -> (forall C n b, good C b -> zeros (ieee M) b -> (0 < n)%nat -> zeros (ieee M) (remix n b)) ->
  let N := ring_size (ieee M) sr max in
  forall l : list (list (list f32) * list f32), Forall (fun x => (exists C, (0 < C)%nat /\ good C (fst x)) /\
      (length (snd x) = 1 \/ length (snd x) = 128)%nat /\ Forall (fun d : f32 => is_finite d = true /\ 0 <= B2R d <= B2R max) (snd x)) l ->
  exists s os, delay_run (ieee M) sr remix (delay_new N) 0 (map (fun x => D_both (fst x) false (snd x)) l) = Ok (s, os) /\ length os = length l /\
    forall k x o, nth_error l k = Some x -> nth_error os k = Some o -> snd o = true /\
      let h := recorded remix (map fst (firstn (S k) l)) in
      forall c i, (c < channels h)%nat -> (i < 128)%nat -> let n := (128 * Z.of_nat k + Z.of_nat i)%Z in
        exists t (w : f32), is_finite w = true /\ 0 <= B2R w <= 1 /\ (t <= n)%Z /\ (t = n -> B2R w = 0) /\
          Rabs (IZR t + B2R w - (IZR n - B2R (delay_at32 (snd x) i) * B2R (f64_of_f32 sr))) <= / 4194304 /\
          let v := f32_fma (f32_sub (f32_of_Z 1) w) (signal (f32_of_Z 0) h c t) (f32_mul w (ghost (f32_of_Z 0) N h c (t + 1))) in
          sample_at f32_zero (fst o) c i = v \/ (fst o = silent_block (ieee M) /\ f32_is_normal v = false).
Proof. intros M sr max remix Hs Hm Hg Hz N l Hl. exact (run32 M sr Hs max Hm remix Hg Hz l Hl). Qed.
Print Assumptions C27_ieee_partial.

(** The parameter's limit is the maximum delay rounded to single precision; the ring is sized for the maximum in
    double precision.  For a maximum of 8 ms at 48 kHz the read position at the limit falls into the slot that
    was just written: the input is silent until frame 127 but the output is not silent at frame 0. *)
Definition k48 : f32 := f32_of_Z 48000.
Definition eight_ms : f64 := f64_div (f64_of_Z 8) (f64_of_Z 1000).
Definition late : list (list f32) := [repeat (f32_of_Z 0) 127 ++ [one32]].
Definition outputs {S} (r : res (S * list (list (list f32) * bool))) : list (list (list f32)) := match r with Ok (_, os) => map fst os | _ => [] end.
Theorem C27_output_before_input_refuted :
  (forall i, (i < 127)%nat -> sample_at (f32_of_Z 0) late 0 i = f32_of_Z 0) /\
  f32_lt (f32_of_Z 0) (sample_at (f32_of_Z 0)
    (nth 0 (outputs (delay_run (ieee libm_one) k48 (fun _ b => b) (delay_new (ring_size (ieee libm_one) k48 eight_ms)) 0 [D_both late false [f32_of_f64 eight_ms]])) []) 0 0) = true.
Proof.
  split; [|vm_compute; reflexivity]. intros i Hi. unfold late, sample_at. cbn [nth]. rewrite app_nth1 by (rewrite repeat_length; exact Hi). apply (nth_repeat (f32_of_Z 0)).
Qed.
Print Assumptions C27_output_before_input_refuted.

(** When the reader is muted for one quantum, as part of a cycle through its delay time, the indices of the reader
    and the writer stay apart: a delay of zero is one of a quantum from then on. *)
Definition constant_block (v : Z) : list (list f32) := [repeat (f32_of_Z v) 128].
Theorem C27_muted_reader_refuted :
  map (fun q => map (fun v => f32_eq (f32_of_Z v) (sample_at (f32_of_Z 0) q 0 5)) [1; 2; 3; 4; 5]%Z)
    (outputs (delay_run (ieee libm_one) k48 (fun _ b => b) (delay_new (ring_size (ieee libm_one) k48 eight_ms)) 0
      [D_both (constant_block 1) false [f32_of_Z 0]; D_writer (constant_block 2); D_both (constant_block 3) false [f32_of_Z 0]; D_both (constant_block 4) false [f32_of_Z 0]; D_both (constant_block 5) false [f32_of_Z 0]])) =
  [[true; false; false; false; false]; [false; true; false; false; false]; [false; false; true; false; false]; [false; false; false; true; false]].
Proof. vm_compute. reflexivity. Qed.
Print Assumptions C27_muted_reader_refuted.

(** ** C28 *)

(** Exact arithmetic: [l] is rendered, the input is dropped, then the reader runs.  It stops after as many quanta as
    the ring holds.  Until then it outputs the recorded input delayed, but [ghost]: after the end of the input the
    ring's content repeats.  The delay is at least a quantum from then on. *)
Theorem C28_tail_partial : forall sr remix max, 0 < sr -> 0 < max ->
  (forall C n b, good C b -> (0 < n)%nat -> good n (remix n b)) -> (forall C n b, good C b -> zeros exact b -> (0 < n)%nat -> zeros exact (remix n b)) ->
  let N := ring_size exact sr max in
  forall l m, Forall (fun x => chan_ok (fst (fst x)) /\ delays_ok max (snd x)) l -> (length m <= N)%nat -> Forall (delays_ok max) m ->
  let hist := recorded remix (map (fun x => fst (fst x)) l) in
  exists s os, delay_run exact sr remix (delay_new N) 0 (map (fun x => D_both (fst (fst x)) (snd (fst x)) (snd x)) l ++ D_drop :: map D_reader m) = Ok (s, os) /\ length os = (length l + length m)%nat /\
    forall k delays o, nth_error m k = Some delays -> nth_error os (length l + k) = Some o -> snd o = negb (k =? N - 1)%nat /\
      forall c i, (c < channels hist)%nat -> (i < 128)%nat ->
        sample_at 0 (fst o) c i = lerp (ghost 0 N hist c) (IZR (128 * Z.of_nat (length l + k) + Z.of_nat i) - frames sr (delay_at delays i) true).
Proof. intros sr remix max Hs Hm Hg Hz N l m. exact (run_drop sr Hs remix Hg Hz max Hm l m). Qed.
Print Assumptions C28_tail_partial.

(** What is left of the input is output at its time: there is no ghost before the end of the recorded input. *)
Theorem C28_rest_partial : forall N (hist : list (list (list R))) c p, p <= IZR (128 * Z.of_nat (length hist) - 1) -> lerp (ghost 0 N hist c) p = lerp (signal 0 hist c) p.
Proof. exact (fun N => lerp_signal N). Qed.
Print Assumptions C28_rest_partial.
(** ... and when the input ended with as many silent quanta as the ring holds there is none at all. *)
Theorem C28_silent_end_partial : forall N (hist : list (list (list R))) c p,
  (forall t, (128 * (Z.of_nat (length hist) - Z.of_nat N) <= t)%Z -> signal 0 hist c t = 0) -> IZR (128 * (Z.of_nat (length hist) - Z.of_nat N)) <= p ->
  lerp (ghost 0 N hist c) p = 0.
Proof. exact silent_end. Qed.
Print Assumptions C28_silent_end_partial.

(** The ghost echo.  The maximum delay is 10 ms, 441 frames.  The input is two quanta of ones and is dropped.  The
    output is silent for three quanta, then the input of 640 frames before is output once more. *)
Definition ten_ms : f64 := f64_div (f64_of_Z 1) (f64_of_Z 100).
Definition two_ms : f32 := f32_of_f64 (f64_div (f64_of_Z 2) (f64_of_Z 1000)).
Definition ones : list (list f32) := [repeat one32 128].
Definition ghost_run := delay_run (ieee libm_one) k44 (fun _ b => b) (delay_new (ring_size (ieee libm_one) k44 ten_ms)) 0
  ([D_both ones false [two_ms]; D_both ones false [two_ms]; D_drop] ++ repeat (D_reader [two_ms]) 5).
Definition all_of (v : f32) (q : list (list f32)) : bool := forallb (f32_eq v) (nth 0 q []).
Theorem C28_ghost_echo_refuted : map (all_of (f32_of_Z 0)) (skipn 3 (outputs ghost_run)) = [true; true; true; false] /\ all_of one32 (nth 6 (outputs ghost_run) []) = true.
Proof. split; vm_compute; reflexivity. Qed.
Print Assumptions C28_ghost_echo_refuted.

(** The delay of 2 ms, 88.2 frames, is not kept when the input is dropped: the first quantum after it should end with 39
    silent frames but is all ones. *)
Theorem C28_delay_jumps_refuted : map (f32_eq one32) (nth 0 (nth 0 (outputs ghost_run) []) []) = repeat false 89 ++ repeat true 39 /\ all_of one32 (nth 2 (outputs ghost_run) []) = true.
Proof. split; vm_compute; reflexivity. Qed.
Print Assumptions C28_delay_jumps_refuted.
