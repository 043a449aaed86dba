(** Buffer source: theorems.

    C25 At unit rate the source plays sample k exactly k frames after its start and is silent otherwise.
    C26 Reads are in bounds and the loops end. *)
From Coq Require Import List Arith Bool ZArith Reals Lra Lia.
From Flocq Require Import Core BinarySingleNaN.
From Verif Require Import Float_Model Float_Proofs Float_ErrorProofs Buffer_Model Buffer_ResampleProofs Common_Model Arith_Model Arith_Real
  Source_Model Source_ClockProofs Source_Props Absn_Model Absn_Spec Absn_ExactProofs Absn_IeeeProofs Absn_SafetyProofs Absn_LoopProofs Absn_LoopSpec Absn_LoopIeeeProofs Absn_HangProofs.
Import ListNotations.
Local Open Scope R_scope.

(** ** C25 *)

(** Exact arithmetic.  A buffer with the context's sample rate, a start on a frame [F], playback rate 1 and no
    detune; the calls come after [m] quanta, in either order.  [tol] is the tolerance of the comparisons that
    make the start sticky: it must be less than a frame.  Frame [n] of channel [c] is sample [n - G] of the
    buffer, where [G] is [F] or the present if [F] is past; the ended event is sent in the quantum in which the
    last sample is played. *)
Theorem C25_exact : forall sr almost_equal almost_zero tol fuel (chs : list (list R)) L, 0 < sr -> 0 <= tol <= / 2 ->
  (forall x y, almost_equal x y = true -> Rabs (x - y) <= tol * Rmax (Rabs x) (Rabs y)) -> (forall x, almost_zero x = true -> Rabs x < / sr) ->
  (0 < L)%nat -> chs <> [] /\ Forall (fun ch => length ch = L) chs ->
  forall m n F (swap : bool), (0 <= F)%Z -> let f := (128 * Z.of_nat m)%Z in let G := Z.max F f in
  tol * IZR G < 1 -> IZR G / sr * 2 < t_MAX exact -> IZR (f + 128 * Z.of_nat n) / sr * 2 < t_MAX exact ->
  let start := A_start (IZR F / sr) 0 (t_MAX exact) in let buffer := A_buffer (mk_buffer chs sr) in
  let quanta k := repeat (A_quantum 1 0) k in
  exists s os, absn_run exact sr almost_equal almost_zero fuel (absn_new exact false 0 0) 0 (quanta m ++ (if swap then [buffer; start] else [start; buffer]) ++ quanta n) = Ok (s, (f + 128 * Z.of_nat n)%Z, os) /\
    length os = (m + n)%nat /\
    forall k o, nth_error os k = Some o ->
      o_event o = ends_in G L (128 * Z.of_nat k) /\
      forall c i, (c < length chs)%nat -> (i < 128)%nat -> sample_at 0 (o_output o) c i = play 0 G (nth c chs []) (128 * Z.of_nat k + Z.of_nat i).
Proof.
  intros sr almost_equal almost_zero tol fuel chs L Hsr Htol Heq Hzero HL Hchs m n F swap HF f G H1 H2 H3 start buffer quanta.
  assert (P1 : (0 <= G)%Z) by (unfold G; lia). assert (P2 : (0 <= f + 128 * Z.of_nat n)%Z) by (unfold f; lia).
  unfold quanta. rewrite <- !unit_quanta_repeat. exact (start_exact sr Hsr almost_equal almost_zero tol Htol Heq Hzero fuel chs L HL Hchs m n F swap HF H1 (conj P1 H2) (conj P2 H3)).
Qed.

(** Floating point, bit for bit: a start that is not later than the present (e.g. start()), for buffers of up to
    2^30 samples and 2^21 quanta.  Missing: starts at a later frame, for which the sum of rounding errors
    may move the interpolation off the sample; and the event may come one quantum late when the
    buffer's length is a multiple of 128. *)
Theorem C25_ieee_partial : forall M sr (chs : list (list f32)) L almost_equal almost_zero fuel, rate_ok sr -> (0 < L)%nat /\ (Z.of_nat L <= 2 ^ 30)%Z ->
  chs <> [] /\ Forall (fun ch => length ch = L) chs -> m64_exp2 M (f64_of_Z 0) = f64_of_Z 1 ->
  forall m n (t : f64) (swap : bool), (Z.of_nat n <= 2 ^ 21)%Z -> early sr (128 * Z.of_nat (m + n)) -> is_finite t = true -> f64_le t (block_time (ieee M) sr (128 * Z.of_nat m)) = true ->
  let start := A_start t (f64_of_Z 0) f64_MAX in let buffer := A_buffer (mk_buffer chs sr) in let quanta k := repeat (A_quantum (f32_of_Z 1) (f32_of_Z 0)) k in
  exists s os e, absn_run (ieee M) sr almost_equal almost_zero fuel (absn_new (ieee M) false (f64_of_Z 0) (f64_of_Z 0)) 0
      (quanta m ++ (if swap then [buffer; start] else [start; buffer]) ++ quanta n) = Ok (s, (128 * Z.of_nat (m + n))%Z, os) /\
    length os = (m + n)%nat /\ (128 * e <= 128 * m + L <= 128 * (e + 1))%nat /\
    forall k o, nth_error os k = Some o -> o_event o = (k =? e)%nat /\
      forall c i, (c < length chs)%nat -> (i < 128)%nat -> sample_at f32_zero (o_output o) c i = play f32_zero (128 * Z.of_nat m) (nth c chs []) (128 * Z.of_nat k + Z.of_nat i).
Proof. intros M sr chs L ae az fuel Hsr HL Hchs He m n t swap H1 H2 H3 H4. cbv zeta. rewrite <- !unit_quanta64_repeat. exact (start_value M sr Hsr chs L HL Hchs He ae az fuel m n t swap H1 H2 H3 H4). Qed.

(** The ended event is sent at most once, in any arithmetic, for any calls. *)
Theorem C25_ended_once : forall T V (A : arith T V) sr almost_equal almost_zero fuel looping ls le f l s f' os, absn_run A sr almost_equal almost_zero fuel (absn_new A looping ls le) f l = Ok (s, f', os) ->
  (length (filter o_event os) + (if absn_before_drop A sr s f' then 1 else 0) <= 1)%nat.
Proof. exact @events_once. Qed.

(** Full statement (refuted): without the condition on the tolerance.  With a relative tolerance of 2^-26
    (the square root of the machine epsilon), a source started at frame 2^27 + 5 plays its first sample at
    frame 2^27 + 3 (50 minutes after the start of the context at 44.1 kHz). *)
Definition rough_equal (x y : f64) : bool := f64_le (f64_abs (f64_sub x y)) (f64_mul (f64_lit 1 (-26)) (f64_max (f64_abs x) (f64_abs y))).
Definition rough_zero (x : f64) : bool := f64_lt (f64_abs x) (f64_lit 1 (-26)).
Definition k32 : f32 := f32_of_Z 32768.
Definition sec (n : Z) : f64 := f64_lit n (-15).
Definition four (v : Z) : @buffer f32 := mk_buffer [[f32_of_Z v; f32_of_Z v; f32_of_Z v; f32_of_Z v]] k32.
Definition output (r : res (@absn f64 f32 * Z * list (@outcome (list f32)))) : list SpecFloat.spec_float :=
  match r with Ok (_, _, o :: _) => firstn 10 (map B2SF (nth 0 (o_output o) [])) | _ => [] end.
Theorem C25_early_start_refuted : let one := B2SF one32 in let zero := B2SF f32_zero in
  output (absn_run (ieee libm_one) k32 rough_equal rough_zero 0 (absn_new (ieee libm_one) false f64_zero f64_zero) (2 ^ 27)
    [A_buffer (four 1); A_start (sec (2 ^ 27 + 5)) f64_zero f64_MAX; A_quantum one32 f32_zero]) = [zero; zero; zero; one; one; one; one; zero; zero; zero].
Proof. vm_compute. reflexivity. Qed.

Print Assumptions C25_exact. Print Assumptions C25_ieee_partial. Print Assumptions C25_ended_once. Print Assumptions C25_early_start_refuted.

Example C25_exact_case : let sr := 8000 in let chs := [[1; 2; 3]; [4; 5; 6]] in
  (forall x y, R_eq x y = true -> Rabs (x - y) <= 0 * Rmax (Rabs x) (Rabs y)) /\ (forall x, R_eq x 0 = true -> Rabs x < / sr) /\ (chs <> [] /\ Forall (fun ch => length ch = 3%nat) chs) /\
  0 * IZR (Z.max 200 128) < 1 /\ IZR (Z.max 200 128) / sr * 2 < t_MAX exact /\ IZR (128 + 128 * 2) / sr * 2 < t_MAX exact.
Proof.
  assert (1 <= t_MAX exact). { cbn [exact t_MAX]. assert (1 <= bpow radix2 971) by (change 1 with (bpow radix2 0); apply bpow_le; lia). change (IZR (2 ^ 53 - 1)) with 9007199254740991. lra. }
  cbv zeta. split; [|split; [|split; [|split; [|split]]]].
  - intros x y. unfold R_eq. destruct (Req_EM_T x y) as [->|]; [|discriminate]. intros _. rewrite Rminus_diag_eq by reflexivity. rewrite Rabs_R0. lra.
  - intros x. unfold R_eq. destruct (Req_EM_T x 0) as [->|]; [|discriminate]. intros _. rewrite Rabs_R0. lra.
  - split; [discriminate|]. repeat apply Forall_cons; try apply Forall_nil; reflexivity.
  - lra.
  - change (Z.max 200 128) with 200%Z. lra.
  - change (128 + 128 * 2)%Z with 384%Z. lra.
Qed.
Example C25_ieee_case : rate_ok k44 /\ m64_exp2 libm_one (f64_of_Z 0) = f64_of_Z 1 /\ early k44 (128 * Z.of_nat 10) /\ f64_le f64_zero (block_time (ieee libm_one) k44 (128 * Z.of_nat 3)) = true.
Proof.
  split; [vm_compute; repeat split|]. split; [apply B2SF_inj; vm_compute; reflexivity|]. split; [|vm_compute; reflexivity]. split; [lia|]. rewrite k44_val. change (IZR (128 * Z.of_nat 10 + 128)) with 1408. lra.
Qed.

(** ** C26 *)

(** Floating point: a source that does not loop.  For all finite start times, all offsets, durations, stop times, playback rates
    and detunes (NaN and infinities included), changes of buffer (of any sample rate and length, also between quanta), the render thread does not panic or hang. *)
Theorem C26_no_loop : forall M sr almost_equal almost_zero fuel l ls le, rate_ok sr -> plain false l -> early sr (128 * Z.of_nat (absn_quanta l)) ->
  exists s os, absn_run (ieee M) sr almost_equal almost_zero fuel (absn_new (ieee M) false ls le) 0 l = Ok (s, (128 * Z.of_nat (absn_quanta l))%Z, os) /\ length os = absn_quanta l.
Proof. intros M sr ae az fuel l ls le Hsr. exact (safe_run M sr Hsr ae az fuel l ls le). Qed.

(** Exact arithmetic, looping or not: for all offsets, durations, stop times, loop ends and rates that are not negative; the
    buffers have the context's sample rate and at least [Lmin] frames, and the loop start is not
    after the last frame.  All reads are in bounds and the loops end (with enough fuel). *)
Theorem C26_loop_partial : forall sr almost_equal almost_zero Lmin l looping ls le, 0 < sr -> (0 < Lmin)%nat -> loops sr Lmin false l -> ls * sr <= INR Lmin - 1 -> IZR (128 * Z.of_nat (absn_quanta l)) / sr <= t_MAX exact ->
  exists n0 s os, length os = absn_quanta l /\ forall n, (n0 <= n)%nat -> absn_run exact sr almost_equal almost_zero n (absn_new exact looping ls le) 0 l = Ok (s, (128 * Z.of_nat (absn_quanta l))%Z, os).
Proof. intros sr ae az Lmin l looping ls le Hsr HL. exact (loop_run sr Hsr ae az Lmin HL l looping ls le). Qed.

(** Floating point, looping or not, the loop and the buffer changing at any time: for all finite start times and all offsets,
    durations and stop times (NaN and infinities included), any comparisons [almost_equal], [almost_zero], and any function exp2 of
    the platform.  The loop starts are at most [lo], which is not after the last frame of a buffer of [Lmin] frames;
    the loop ends (and the buffers) are at least [hi] seconds.  The playback rates, including detune, are at most 2^k, and the loop
    is at least 2^(k-26) s long: 1 microsecond for a rate of up to 64, during the 97 days of [early].  All reads are in bounds
    and the loops that search the position end. *)
Theorem C26_loop_ieee_partial : forall M sr almost_equal almost_zero k lo hi Lmin l looping ls le, rate_ok sr -> (0 <= k <= 100)%Z ->
  0 <= lo -> lo * B2R (f64_of_f32 sr) <= INR Lmin - 1 -> is_finite hi = true -> lo + bpow radix2 (k - 26) <= B2R hi ->
  start_ok lo ls -> end_ok hi le -> looped M k lo hi Lmin false l -> early sr (128 * Z.of_nat (absn_quanta l)) ->
  exists n0 s os, length os = absn_quanta l /\ forall n, (n0 <= n)%nat -> absn_run (ieee M) sr almost_equal almost_zero n (absn_new (ieee M) looping ls le) 0 l = Ok (s, (128 * Z.of_nat (absn_quanta l))%Z, os).
Proof. intros M sr ae az k lo hi Lmin l looping ls le Hsr Hk Hlo Flo Fhi Hhi Hs He P E. exact (loop_run_ieee M sr Hsr ae az k Hk lo hi Lmin Hlo Flo Hhi l looping ls le P Hs He E). Qed.

(** Full statement (refuted): without these conditions. *)
(** A negative playback rate with the default loop boundaries reads at index [length]. *)
Theorem C26_negative_rate_refuted : panics (absn_run (ieee libm_one) k32 rough_equal rough_zero 10 (absn_new (ieee libm_one) true f64_zero f64_zero) 0
  [A_buffer (four 1); A_start f64_zero f64_zero f64_MAX; A_quantum (f32_of_Z (-1)) f32_zero]) = true.
Proof. vm_compute. reflexivity. Qed.
(** A loop start between the last frame and the end of the buffer reads at index [length]. *)
Theorem C26_loop_start_refuted : panics (absn_run (ieee libm_one) k32 rough_equal rough_zero 10 (absn_new (ieee libm_one) true (f64_lit 7 (-16)) f64_zero) 0
  [A_buffer (four 1); A_start f64_zero f64_zero f64_MAX; A_quantum one32 f32_zero]) = true.
Proof. vm_compute. reflexivity. Qed.
(** The index of the loop start is computed with the context's sample rate, not the buffer's. *)
Theorem C26_sample_rate_refuted : panics (absn_run (ieee libm_one) k32 rough_equal rough_zero 10 (absn_new (ieee libm_one) true (f64_lit 3 (-14)) f64_zero) 0
  [A_buffer (mk_buffer [[one32; one32; one32; one32]] (f32_of_Z 16384)); A_start f64_zero f64_zero f64_MAX; A_quantum one32 f32_zero]) = true.
Proof. vm_compute. reflexivity. Qed.
(** An empty buffer that loops is read at index 0. *)
Theorem C26_empty_loop_refuted : panics (absn_run (ieee libm_one) k32 rough_equal rough_zero 10 (absn_new (ieee libm_one) true f64_zero f64_zero) 0
  [A_buffer (mk_buffer [[]] k32); A_start f64_zero f64_zero f64_MAX; A_quantum one32 f32_zero]) = true.
Proof. vm_compute. reflexivity. Qed.
(** A very large playback rate (within the nominal range): subtracting the length of the loop does not
    change the position, and the render thread hangs. *)
Theorem C26_large_rate_refuted : forall fuel, absn_run (ieee libm_one) k32 rough_equal rough_zero fuel (absn_new (ieee libm_one) true f64_zero f64_zero) 0
  [A_buffer (four 1); A_start f64_zero f64_zero f64_MAX; A_quantum (f32_lit 1 100) f32_zero] = Stuck.
Proof.
  intros fuel. cbn [absn_run]. set (s := absn_message _ _ _). unfold absn_process.
  change (a_ended s) with false. cbv iota. change (a_buffer s) with (Some (four 1)). cbv iota zeta. cbn [andb].
  match goal with |- context [t_le ?A ?x (p_start (a_play s))] => replace (t_le A x (p_start (a_play s))) with false by (vm_compute; reflexivity) end.
  match goal with |- context [negb (p_started (a_play s)) && ?c] => replace (negb (p_started (a_play s)) && c) with false by (vm_compute; reflexivity) end. cbv iota. cbn [with_aligned a_aligned].
  match goal with |- context [decide ?A s ?b ?x ?y ?z ?t] => replace (decide A s b x y z t) with false by (vm_compute; reflexivity) end. cbv iota.
  unfold slow_track. cbv zeta. cbn [with_aligned a_loop a_play a_stop a_duration a_lstart a_lend]. change (a_loop s) with true. cbv iota. unfold RQ.
  match goal with |- context [slow_samples ?A ?sr ?ae ?az fuel ?stop ?dur true ?ls ?le ?rate ?bdur ?ratio ?len 128 0 ?p ?block] =>
    rewrite (slow_samples_stuck A sr ae az stop dur ls le rate bdur ratio len fuel 126 0 p block
      (match slow_sample A sr ae az 0 stop dur true ls le rate bdur ratio len p (t_add A block (t_mul A (t_of_Z A (Z.of_nat 0)) (dt A sr))) with Ok r => r | _ => (p, None) end)); [reflexivity| | |] end.
  - match goal with |- ?x = Ok (match ?x with Ok r => r | _ => _ end) => assert (E : match x with Ok _ => true | _ => false end = true) by (vm_compute; reflexivity); destruct x; [reflexivity|discriminate|discriminate] end.
  - vm_compute. reflexivity.
  - unfold fixed. apply B2SF_inj. vm_compute. reflexivity.
Qed.

Print Assumptions C26_loop_ieee_partial. Print Assumptions C26_no_loop. Print Assumptions C26_loop_partial. Print Assumptions C26_negative_rate_refuted. Print Assumptions C26_loop_start_refuted.
Print Assumptions C26_sample_rate_refuted. Print Assumptions C26_empty_loop_refuted. Print Assumptions C26_large_rate_refuted.

Example C26_no_loop_case : let l := [A_quantum one32 f32_zero; A_start (f64_of_Z (-3)) (f64_div f64_zero f64_zero) f64_MAX; A_buffer (four 1); A_quantum (f32_of_Z (-100)) f32_zero; A_lstart (f64_div f64_zero f64_zero); A_buffer (mk_buffer [[]] k44); A_stop (f64_div f64_zero f64_zero); A_quantum one32 one32] in
  plain false l /\ early k44 (128 * Z.of_nat (absn_quanta l)).
Proof.
  cbv zeta. split; [|split; [lia|rewrite k44_val; match goal with |- IZR ?z / _ <= _ => change z with 512%Z end; lra]].
  assert (B1 : buffer_ok (four 1)). { split; [vm_compute; split; reflexivity|]. exists 4%nat. split; [split; [discriminate|unfold four; cbn [b_channels]; apply Forall_cons; [reflexivity|apply Forall_nil]]|vm_compute; discriminate]. }
  assert (B2 : buffer_ok (mk_buffer [[]] k44)). { split; [vm_compute; split; reflexivity|]. exists 0%nat. split; [split; [discriminate|cbn [b_channels]; apply Forall_cons; [reflexivity|apply Forall_nil]]|vm_compute; discriminate]. }
  cbn [plain]. split; [reflexivity|]. split; [vm_compute; reflexivity|]. exact (conj B1 (conj B2 I)).
Qed.
Example C26_loop_case : let l := [A_start (1/3) 100 (t_MAX exact); A_quantum 1 0; A_loop true; A_buffer (mk_buffer [[1; 2; 3]] 8000); A_quantum (1000000) 1200; A_lstart (1/8000); A_lend (3/16000); A_quantum 0 0] in
  loops 8000 2 false l /\ 0 * 8000 <= INR 2 - 1 /\ IZR (128 * Z.of_nat (absn_quanta l)) / 8000 <= t_MAX exact.
Proof.
  assert (1 <= t_MAX exact). { cbn [exact t_MAX]. assert (1 <= bpow radix2 971) by (change 1 with (bpow radix2 0); apply bpow_le; lia). change (IZR (2 ^ 53 - 1)) with 9007199254740991. lra. }
  cbv zeta. split; [|split]; [|cbn [INR]; lra|match goal with |- IZR ?z / _ <= _ => change z with 384%Z end; lra].
  cbn [loops INR]. repeat split; try lra. exists 3%nat. split; [split; [discriminate|repeat constructor]|lia].
Qed.
Lemma finite_val : forall (x : f64) s m e, B2SF x = SpecFloat.S754_finite s m e -> B2R x = IZR (cond_Zopp s (Zpos m)) * bpow radix2 e.
Proof. intros x s m e H. rewrite <- SF2R_B2SF, H. reflexivity. Qed.
Example C26_loop_ieee_case : let l := [A_start f64_zero (f64_div f64_zero f64_zero) f64_MAX; A_quantum one32 f32_zero; A_loop true; A_buffer (four 1); A_quantum (f32_of_Z 5) (f32_of_Z (-700)); A_lstart (f64_lit 1 (-14)); A_lend (f64_lit 3 (-15)); A_quantum one32 f32_zero; A_lend (f64_of_Z (-1)); A_quantum one32 f32_zero] in
  let lo := / 16384 in let hi := f64_lit 3 (-15) in
  looped libm_one 3 lo hi 4 false l /\ start_ok lo f64_zero /\ end_ok hi f64_zero /\ 0 <= lo /\ lo * B2R (f64_of_f32 k32) <= INR 4 - 1 /\ lo + bpow radix2 (3 - 26) <= B2R hi /\ early k32 (128 * Z.of_nat (absn_quanta l)).
Proof.
  intros l lo hi. assert (Eh : B2R hi = 3 / 32768). { rewrite (finite_val hi false 6755399441055744 (-66)) by (vm_compute; reflexivity). change (bpow radix2 (-66)) with (/ 73786976294838206464). cbn [cond_Zopp]. lra. }
  assert (El : B2R (f64_lit 1 (-14)) = lo). { rewrite (finite_val (f64_lit 1 (-14)) false 4503599627370496 (-66)) by (vm_compute; reflexivity). change (bpow radix2 (-66)) with (/ 73786976294838206464). cbn [cond_Zopp]. unfold lo. lra. }
  assert (E32 : B2R (f64_of_f32 k32) = 32768). { rewrite (finite_val (f64_of_f32 k32) false 4503599627370496 (-37)) by (vm_compute; reflexivity). change (bpow radix2 (-37)) with (/ 137438953472). cbn [cond_Zopp]. lra. }
  assert (Sp : forall z d, (z = 1 \/ z = 5)%Z -> speed_ok libm_one 3 (f32_of_Z z) d).
  { intros z d Hz. destruct (Float_BoundProofs.of_Z_exact 24 128 f32_prec f32_emax z) as [E F]; [lia|]. change (binary_normalize 24 128 f32_prec f32_emax mode_NE z 0 false) with (f32_of_Z z) in *.
    assert (P : 0 <= IZR z <= 8) by (destruct Hz as [->| ->]; lra). split; [exact F|]. split; [rewrite E; lra|]. cbv zeta. change (m64_exp2 libm_one (f64_div (f64_of_f32 d) (f64_of_Z 1200))) with (f64_of_Z 1). change (bpow radix2 3) with 8.
    destruct (Osc_IeeeProofs.f64_of_f32_val (f32_of_Z z) F) as [Ev Fv]. destruct (f64_of_Z_exact 1) as [E1 F1]; [lia|].
    destruct (Float_BoundProofs.mult_between 53 1024 f64_prec f64_emax (f64_of_f32 (f32_of_Z z)) (f64_of_Z 1) 0 8) as (G1 & _ & G2); [exact Fv|exact F1|lia|lia|rewrite Ev, E, E1; lra|].
    split; [exact G1|]. unfold f64_mul. rewrite Rabs_pos_eq; lra. }
  assert (Bf : loop_buffer hi 4 (four 1)).
  { split; [vm_compute; split; reflexivity|]. exists 4%nat. split; [split; [discriminate|unfold four; cbn [b_channels]; apply Forall_cons; [reflexivity|apply Forall_nil]]|]. split; [lia|]. split; [vm_compute; discriminate|]. rewrite Eh. change (b_rate (four 1)) with k32. rewrite E32. cbn [INR]. lra. }
  assert (S1 : start_ok lo (f64_lit 1 (-14))). { destruct (f64_lit 1 (-14)) eqn:E; try (assert (X : is_finite (f64_lit 1 (-14)) = true) by (vm_compute; reflexivity); rewrite E in X; discriminate); cbn [start_ok]; rewrite El; lra. }
  split; [|split; [unfold lo; cbn; lra|split; [intros _; left; cbn; lra|split; [unfold lo; lra|split; [rewrite E32; unfold lo; cbn [INR]; lra|split; [rewrite Eh; unfold lo; change (bpow radix2 (3 - 26)) with (/ 8388608); lra|]]]]]].
  - unfold l. cbn [looped]. split; [reflexivity|]. split; [reflexivity|]. split; [apply (Sp 1%Z); lia|]. split; [exact Bf|]. split; [apply (Sp 5%Z); lia|]. split; [exact S1|]. split; [intros _; right; fold hi; lra|]. split; [apply (Sp 1%Z); lia|]. split; [|split; [apply (Sp 1%Z); lia|exact I]].
    intros _. left. destruct (f64_of_Z_exact (-1)) as [E _]; [lia|]. rewrite E. lra.
  - unfold l. cbn [absn_quanta]. split; [lia|]. rewrite E32. match goal with |- IZR ?z / _ <= _ => change z with 640%Z end. lra.
Qed.
