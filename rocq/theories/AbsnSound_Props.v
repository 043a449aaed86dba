(** C74 The sound of a buffer source: whatever the playback rates, the offset, the duration, the loop and the stop times. *)
From Coq Require Import List Arith Bool ZArith Reals Lra Lia Psatz.
From Flocq Require Import Core BinarySingleNaN.
From Verif Require Import Float_Model Common_Model Arith_Model Arith_Real Source_Model Source_Props Absn_Model Absn_Spec Absn_ExactProofs Absn_SoundSpec Absn_SoundProofs Absn_SoundCaseProofs Absn_Props.
Import ListNotations.
Local Open Scope R_scope.

(** Exact arithmetic (the comparisons with a tolerance are exact comparisons or always false).
    - [before]: what happens before the call of start: quanta are rendered, loop, loopStart, loopEnd and the buffer are set;
    - [after]: settings between the call of start and the next quantum; the buffer is set before or after the call, once;
    - [steps]: the quanta that follow, each with a playback rate, a detune and calls of stop before it.
    Frame n of channel c is [sample]: the buffer read at [position], see Absn_SoundSpec.v; the ended event comes with the quantum
    [ends_with] tells.  If loop is set, then:
    - the buffer has the sample rate of the context and the loop does not begin after the last frame (C26_sample_rate_refuted and
      C26_loop_start_refuted: otherwise the renderer may panic);
    - with a negative rate the loop ends before the end of the buffer (C26_negative_rate_refuted);
    - no duration is given, or an offset, or the loop is not the whole buffer (C74_loop_duration_refuted).
    Missing: rounding (C25_ieee_partial, C26_no_loop); changes of the loop after the first quantum of the playback. *)
Theorem C74_sound_partial : forall sr brate L almost_equal almost_zero (chs : list (list R)), 0 < sr -> 0 < brate -> (0 < L)%nat ->
  (forall x y, almost_equal x y = true -> x = y) -> (forall x, almost_zero x = true -> x = 0) -> chs <> [] /\ Forall (fun ch => length ch = L) chs ->
  forall looping ls le before after w o d steps,
  forallb is_waiting before = true -> forallb is_setting after = true -> buffers (before ++ after) = [mk_buffer chs brate] ->
  let m := quanta_in before in let call := mk_start m w o d in let sets := before ++ after in
  let lp := loop_within (length_s brate L) (last_of set_loop sets looping) (last_of set_lstart sets ls) (last_of set_lend sets le) in
  let rate := rates m steps in let stop := stops (t_MAX exact) m steps in
  (l_on lp = true -> brate = sr /\ l_start lp * brate <= INR L - 1 /\ (t_MAX exact <= d \/ o <> 0 \/ l_start lp <> 0 \/ l_end lp <> length_s brate L) /\
    forall g, In g steps -> step_rate g < 0 -> l_end lp * brate < INR L) ->
  INR (128 * (m + length steps)) / sr < t_MAX exact ->
  exists n0 s os, (forall n, (n0 <= n)%nat -> absn_run exact sr almost_equal almost_zero n (absn_new exact looping ls le) 0 (before ++ A_start w o d :: after ++ steps_actions steps) = Ok (s, Z.of_nat (128 * (m + length steps)), os)) /\
    length os = (m + length steps)%nat /\
    forall k out, nth_error os k = Some out -> o_event out = ends_with sr brate L call lp rate stop k /\
      forall c i, (c < length chs)%nat -> (i < 128)%nat -> sample_at 0 (o_output out) c i = sample sr brate L call lp rate stop (nth c chs []) (128 * k + i).
Proof. intros sr brate L ae az chs Hsr Hbr HL He Hz Hc. exact (source_sound sr brate L Hsr Hbr HL ae az He Hz chs Hc). Qed.

(** Without a loop: a source started at a frame that plays with a constant rate r >= 0 (playback rate and detune may vary, but not
    the product) reads the buffer at offset + (t - when) * r for the given duration. *)
Theorem C74_constant_rate : forall sr brate L almost_equal almost_zero (chs : list (list R)), 0 < sr -> 0 < brate -> (0 < L)%nat ->
  (forall x y, almost_equal x y = true -> x = y) -> (forall x, almost_zero x = true -> x = 0) -> chs <> [] /\ Forall (fun ch => length ch = L) chs ->
  forall l F o d r steps ls le, let m := length l in (128 * m <= F)%nat -> 0 <= o <= INR L / brate -> 0 <= r -> Forall (fun g => s_stops g = [] /\ step_rate g = r) steps ->
  INR (128 * (m + length steps)) / sr < t_MAX exact ->
  exists n0 s os, (forall n, (n0 <= n)%nat -> absn_run exact sr almost_equal almost_zero n (absn_new exact false ls le) 0
      (quiet l ++ A_buffer (mk_buffer chs brate) :: A_start (INR F / sr) o d :: steps_actions steps) = Ok (s, Z.of_nat (128 * (m + length steps)), os)) /\
    length os = (m + length steps)%nat /\
    forall k out, nth_error os k = Some out -> forall c i, (c < length chs)%nat -> (i < 128)%nat -> let n := (128 * k + i)%nat in let moved := INR (n - F) * r / sr in
      sample_at 0 (o_output out) c i = if (F <=? n)%nat && is_lt moved d && is_lt (o + moved) (INR L / brate) then read (nth c chs []) None ((o + moved) * brate) else 0.
Proof.
  intros sr brate L ae az chs Hsr Hbr HL He Hz Hc l F o d r steps ls le m HF Ho Hr Hs Hmax.
  pose proof (source_sound sr brate L Hsr Hbr HL ae az He Hz chs Hc false ls le (quiet l ++ [A_buffer (mk_buffer chs brate)]) [] (INR F / sr) o d steps (quiet_waiting _ _) eq_refl (quiet_buffers _ _)) as H.
  cbv zeta in H. rewrite !quiet_last, quiet_quanta in H by reflexivity. fold m in H.
  assert (Off : forall D a b, l_on (loop_within D false a b) = false) by (intros D a b; unfold loop_within; cbv zeta; destruct (Rlt_dec _ _); reflexivity).
  destruct (H ltac:(rewrite Off; discriminate) Hmax) as (n0 & s & os & E & Hl & Ho'). clear H. exists n0, s, os. split; [|split; [exact Hl|]].
  - intros n Hn. rewrite <- (E n Hn). rewrite <- app_assoc. reflexivity.
  - intros k out Hk c i Hc0 Hi n moved. destruct (Ho' k out Hk) as [_ Sm]. rewrite (Sm c i Hc0 Hi). fold n. assert (K : (k < m + length steps)%nat) by (rewrite <- Hl; apply nth_error_Some; rewrite Hk; discriminate).
    set (call := mk_start m (INR F / sr) o d). set (lp := loop_within _ _ _ _). destruct (Nat.lt_ge_cases n (128 * m)) as [C|C].
    + unfold sample, sounding. rewrite (first_is sr Hsr call F eq_refl HF). destruct (Nat.leb_spec F n); [lia|reflexivity].
    + apply (once_is sr brate L Hsr call lp (rates m steps) (stops (t_MAX exact) m steps) r (m + length steps) F Hr).
      * intros q Hq. apply rates_const; [|exact Hq]. eapply Forall_impl; [|exact Hs]. intros g [_ G]; exact G.
      * reflexivity.
      * exact HF.
      * intros q Hq. rewrite stops_none; [exact Hmax|]. eapply Forall_impl; [|exact Hs]. intros g [G _]; exact G.
      * apply Off.
      * exact Ho.
      * change (c_quanta call) with m. unfold n in *. lia.
Qed.

(** With a loop [a, c) that contains the offset: the position is offset + (t - when) * r up to a multiple of the length of the
    loop, and lies in the loop.  The frame after the last frame of the buffer is the first one of the loop. *)
Theorem C74_loop : forall sr L almost_equal almost_zero (chs : list (list R)), 0 < sr -> (0 < L)%nat ->
  (forall x y, almost_equal x y = true -> x = y) -> (forall x, almost_zero x = true -> x = 0) -> chs <> [] /\ Forall (fun ch => length ch = L) chs ->
  forall l F a c o d r steps, let m := length l in (128 * m <= F)%nat -> 0 <= a < c -> c <= INR L / sr -> a * sr <= INR L - 1 -> a <= o < c -> 0 <= r -> Forall (fun g => s_stops g = [] /\ step_rate g = r) steps ->
  (t_MAX exact <= d \/ o <> 0 \/ a <> 0 \/ c <> INR L / sr) -> INR (128 * (m + length steps)) / sr < t_MAX exact ->
  exists n0 s os, (forall n, (n0 <= n)%nat -> absn_run exact sr almost_equal almost_zero n (absn_new exact true a c) 0
      (quiet l ++ A_buffer (mk_buffer chs sr) :: A_start (INR F / sr) o d :: steps_actions steps) = Ok (s, Z.of_nat (128 * (m + length steps)), os)) /\
    length os = (m + length steps)%nat /\
    forall k out, nth_error os k = Some out -> forall ch i, (ch < length chs)%nat -> (i < 128)%nat -> let n := (128 * k + i)%nat in (F <= n)%nat -> INR (n - F) * r / sr < d ->
      exists p j, p = o + INR (n - F) * r / sr + IZR j * (c - a) /\ a <= p < c /\ sample_at 0 (o_output out) ch i = read (nth ch chs []) (Some (Z.to_nat (Zceil (a * sr)))) (p * sr).
Proof.
  intros sr L ae az chs Hsr HL He Hz Hc l F a c o d r steps m HF Ha Hcl Hal Ho Hr Hs Hd Hmax.
  pose proof (source_sound sr sr L Hsr Hsr HL ae az He Hz chs Hc true a c (quiet l ++ [A_buffer (mk_buffer chs sr)]) [] (INR F / sr) o d steps (quiet_waiting _ _) eq_refl (quiet_buffers _ _)) as H.
  cbv zeta in H. rewrite !quiet_last, quiet_quanta in H by reflexivity. fold m in H.
  assert (Lp : loop_within (length_s sr L) true a c = mk_loop true a c). { unfold loop_within. destruct (Rlt_dec a 0); [lra|]. destruct (Rle_dec c 0); [lra|]. cbv zeta. unfold length_s. rewrite (Rmin_left a) by lra. rewrite (Rmin_left c) by lra. destruct (Rlt_dec a c); [reflexivity|lra]. }
  rewrite Lp in H. cbn [l_on l_start l_end] in H.
  destruct H as (n0 & s & os & E & Hl & Ho').
  { intros _. split; [reflexivity|]. split; [exact Hal|]. split; [exact Hd|]. intros g Hg Hneg. rewrite Forall_forall in Hs. destruct (Hs g Hg) as [_ G]. lra. }
  { exact Hmax. }
  exists n0, s, os. split; [|split; [exact Hl|]].
  - intros n Hn. rewrite <- (E n Hn). rewrite <- app_assoc. reflexivity.
  - intros k out Hk ch i Hc0 Hi n HFn Hdn. destruct (Ho' k out Hk) as [_ Sm]. rewrite (Sm ch i Hc0 Hi). fold n. assert (K : (k < m + length steps)%nat) by (rewrite <- Hl; apply nth_error_Some; rewrite Hk; discriminate).
    set (x := o + INR (n - F) * r / sr). destruct (wrapped_cong a c x) as [j Hj]. exists (wrapped a c x), j. split; [exact Hj|]. split; [apply wrapped_range; lra|].
    set (call := mk_start m (INR F / sr) o d). set (lp := mk_loop true a c).
    apply (looped_is sr sr L Hsr call lp (rates m steps) (stops (t_MAX exact) m steps) r (m + length steps) F Hr).
    + intros q Hq. apply rates_const; [|exact Hq]. eapply Forall_impl; [|exact Hs]. intros g [_ G]; exact G.
    + reflexivity.
    + exact HF.
    + intros q Hq. rewrite stops_none; [exact Hmax|]. eapply Forall_impl; [|exact Hs]. intros g [G _]; exact G.
    + reflexivity.
    + cbn [lp l_start]; lra.
    + exact Hcl.
    + exact Ho.
    + unfold n in *. lia.
    + exact Hdn.
Qed.

(** The sound is at most three times as loud as the buffer, and with a loop not louder than the buffer. *)
Theorem C74_loudness : forall sr brate L call lp rate stop ch B n, 0 <= B -> Forall (fun v => Rabs v <= B) ch ->
  Rabs (sample sr brate L call lp rate stop ch n) <= (if l_on lp then 1 else 3) * B.
Proof. exact sample_bound. Qed.

Print Assumptions C74_sound_partial. Print Assumptions C74_constant_rate. Print Assumptions C74_loop. Print Assumptions C74_loudness.

(** ** Deviations, in floating point *)
Definition floats (r : res (@absn f64 f32 * Z * list (@outcome (list f32)))) : list SpecFloat.spec_float :=
  match r with Ok (_, _, os) => map B2SF (concat (map (fun o => nth 0 (o_output o) []) os)) | _ => [] end.
Definition spread (l : list Z) : @buffer f32 := mk_buffer [map f32_of_Z l] k32.
Definition run_ieee (loop : bool) (a c : f64) (l : list (@absn_action f64 f32)) := absn_run (ieee libm_one) k32 rough_equal rough_zero 1000 (absn_new (ieee libm_one) loop a c) 0 l.
Definition q1 : @absn_action f64 f32 := A_quantum one32 f32_zero.
(** frames [from .. from + n) *)
Definition part (from n : nat) (l : list SpecFloat.spec_float) := firstn n (skipn from l).
Definition i32 (z : Z) : SpecFloat.spec_float := B2SF (f32_of_Z z).

(** Full statement (refuted): with a loop too, the source plays for the given duration.  A duration of 192 frames, the whole buffer
    looped at rate 1: 256 frames are played. *)
Theorem C74_loop_duration_refuted :
  part 190 66 (floats (run_ieee true f64_zero f64_zero [A_buffer (four 1); A_start f64_zero f64_zero (sec 192); q1; q1; q1])) = repeat (i32 1) 66.
Proof. vm_compute. reflexivity. Qed.
(** ... and without a loop, or at another loop end, 192 frames *)
Example C74_duration_case :
  part 190 6 (floats (run_ieee true f64_zero (sec 2) [A_buffer (four 1); A_start f64_zero f64_zero (sec 192); q1; q1; q1])) = [i32 1; i32 1; i32 0; i32 0; i32 0; i32 0].
Proof. vm_compute. reflexivity. Qed.

(** Full statement (refuted): a source with a loop that is started behind the end of the loop continues in the loop.  It plays
    the rest of the buffer once, is silent afterwards, and never ends. *)
Theorem C74_offset_behind_loop_refuted :
  let r := run_ieee true f64_zero (sec 2) [A_buffer (spread [1; 2; 3; 4]%Z); A_start f64_zero (sec 3) f64_MAX; q1; q1] in
  floats r = [i32 3; i32 4] ++ repeat (i32 0) 254 /\ match r with Ok (s, _, os) => (a_ended s, map o_event os) = (false, [false; false]) | _ => False end.
Proof. vm_compute. split; reflexivity. Qed.

(** Full statement (refuted): a source that is started a frame later plays the same sound a frame later.  A start half a frame before
    the first frame of a quantum is moved to that frame. *)
Theorem C74_shift_refuted : let play t := floats (run_ieee false f64_zero f64_zero [A_buffer (spread [0; 4; 8; 12]%Z); A_start t f64_zero f64_MAX; q1; q1]) in
  part 127 3 (play (f64_lit 253 (-16))) = [i32 2; i32 6; i32 10] /\ part 128 3 (play (f64_lit 255 (-16))) = [i32 0; i32 4; i32 8].
Proof. vm_compute. split; reflexivity. Qed.

(** Full statement (refuted): the sound is not louder than the buffer.  At half the rate, the value after the last sample is
    extrapolated. *)
Theorem C74_louder_refuted : part 0 5 (floats (run_ieee false f64_zero f64_zero [A_buffer (spread [-1; 1]%Z); A_start f64_zero f64_zero f64_MAX; A_quantum (f32_lit 1 (-1)) f32_zero])) = [i32 (-1); i32 0; i32 1; i32 2; i32 0].
Proof. vm_compute. reflexivity. Qed.

Print Assumptions C74_loop_duration_refuted. Print Assumptions C74_offset_behind_loop_refuted. Print Assumptions C74_shift_refuted. Print Assumptions C74_louder_refuted.

(** ** Cases *)
Lemma never_late : 1 <= t_MAX exact.
Proof. cbn [exact t_MAX]. assert (1 <= bpow radix2 971) by (change 1 with (bpow radix2 0); apply bpow_le; lia). change (IZR (2 ^ 53 - 1)) with 9007199254740991. lra. Qed.

(** A quantum, then start, with the buffer and the loop set afterwards; a rate, a detune, a negative rate, a stop.  The third sample of the
    buffer is at 2 / 8000 s; the first frame of the second quantum is the first one of the sound. *)
Example C74_sound_case : let sr := 8000 in let chs := [[1; 2; 3; 4]; [5; 6; 7; 8]] in let before := [A_quantum 1 0; A_lend (3 / 8000)] in let after := [A_buffer (mk_buffer chs sr); A_loop true] in
  let steps := [mk_step [] 2 1200; mk_step [1] (-1) 0; mk_step [2; 3 / 100] 1 0] in
  let m := quanta_in before in let lp := loop_within (length_s sr 4) (last_of set_loop (before ++ after) false) (last_of set_lstart (before ++ after) 0) (last_of set_lend (before ++ after) 0) in
  forallb is_waiting before = true /\ forallb is_setting after = true /\ buffers (before ++ after) = [mk_buffer chs sr] /\ m = 1%nat /\ lp = mk_loop true 0 (3 / 8000) /\
  l_start lp * sr <= INR 4 - 1 /\ l_end lp <> length_s sr 4 /\ (forall g, In g steps -> step_rate g < 0 -> l_end lp * sr < INR 4) /\ INR (128 * (m + length steps)) / sr < t_MAX exact /\
  sample sr sr 4 (mk_start m 0 (1 / 8000) 1) lp (rates m steps) (stops (t_MAX exact) m steps) [1; 2; 3; 4] 128 = 2.
Proof.
  pose proof never_late as Mx. cbv zeta. assert (Lp : forall b : bool, loop_within (length_s 8000 4) b 0 (3 / 8000) = mk_loop b 0 (3 / 8000)).
  { intros b. unfold loop_within, length_s. destruct (Rlt_dec 0 0); [lra|]. destruct (Rle_dec (3 / 8000) 0); [lra|]. cbv zeta. cbn [INR]. rewrite !Rmin_left by lra. destruct (Rlt_dec 0 (3 / 8000)); [reflexivity|lra]. }
  cbn [app last_of set_loop set_lstart set_lend]. rewrite Lp. cbn [l_on l_start l_end]. split; [reflexivity|]. split; [reflexivity|]. split; [reflexivity|]. split; [reflexivity|]. split; [reflexivity|].
  split; [cbn [INR]; lra|]. split; [unfold length_s; cbn [INR]; lra|]. split; [intros; cbn [INR]; lra|]. split; [rewrite INR_IZR_INZ; cbn; lra|].
  change (quanta_in [A_quantum 1 0; A_lend (3 / 8000)]) with 1%nat. set (call := mk_start 1 0 (1 / 8000) 1). set (lp := mk_loop true 0 (3 / 8000)). set (st := [mk_step [] 2 1200; mk_step [1] (-1) 0; mk_step [2; 3 / 100] 1 0]).
  assert (F : first 8000 call = 128%nat) by (unfold first, call; cbn [c_when c_quanta]; rewrite Rmult_0_l, (Zceil_IZR 0); reflexivity).
  assert (R4 : rate_at (rates 1 st) 128 = 2 * Rpower 2 1) by (unfold rate_at, rates, st; change (128 / 128 - 1)%nat with 0%nat; cbn [map nth]; unfold step_rate; cbn [s_rate s_detune]; do 2 f_equal; lra). rewrite Rpower_1 in R4 by lra.
  assert (Or : origin 8000 8000 4 call lp (rates 1 st) = 1 / 8000).
  { unfold origin, lead. rewrite F, R4. change ((128 mod 128 =? 0)%nat) with true. unfold length_s. cbn [l_on lp c_offset call l_end INR]. cbv zeta. rewrite is_le_true by lra. rewrite Rmax_left by lra. replace (1 / 8000 + 0 * (2 * 2)) with (1 / 8000) by lra. rewrite (Rmin_left (1 / 8000) ((1 + 1 + 1 + 1) / 8000)) by lra. apply Rmin_left. lra. }
  assert (U : unlooped 8000 8000 4 call lp (rates 1 st) 128 = 1 / 8000) by (unfold unlooped; rewrite F, Or; cbn [travelled Nat.sub]; lra).
  unfold sample, sounding, position, entered, continues, played, alive. rewrite F, R4. change ((128 <=? 128)%nat) with true. change (128 / 128 - c_quanta call)%nat with 0%nat. cbn [seq forallb existsb lp l_on l_start Nat.sub andb].
  unfold enters. rewrite Or, U. cbn [l_end lp l_start]. rewrite (is_lt_true (1 / 8000)) by lra. rewrite (is_le_true 0 (1 / 8000)) by lra. cbn [andb orb].
  replace (stops (t_MAX exact) 1 st (128 / 128)) with (t_MAX exact) by reflexivity. rewrite (is_lt_true (time 8000 128)) by (unfold time; rewrite INR_IZR_INZ; change (Z.of_nat 128) with 128%Z; lra). cbn [c_duration call andb]. rewrite (is_lt_true 0) by lra.
  assert (W : wrap (mk_loop true 0 (3 / 8000)) (1 / 8000) = 1 / 8000) by (apply (wrapped_id 0 (3 / 8000)); lra). fold lp in W. rewrite W.
  rewrite (is_le_true 0 (1 / 8000)) by lra. unfold length_s. cbn [INR]. rewrite (is_lt_true (1 / 8000)) by lra. cbn [andb]. rewrite (is_le_true 0 (2 * 2)) by lra.
  replace (1 / 8000 * 8000) with (INR 1) by (cbn [INR]; lra). apply read_whole. cbn [length]. lia.
Qed.

Example C74_constant_rate_case : let sr := 48000 in let brate := 44100 in let chs := [[1; 2; 3; 4; 5]] in let steps := [mk_step [] (1 / 2) 1200; mk_step [] 1 0] in
  0 < brate /\ (chs <> [] /\ Forall (fun ch => length ch = 5%nat) chs) /\ (128 * 1 <= 200)%nat /\ 0 <= 1 / 44100 <= INR 5 / brate /\ Forall (fun g => s_stops g = [] /\ step_rate g = 1) steps /\ INR (128 * (1 + length steps)) / sr < t_MAX exact.
Proof.
  pose proof never_late as Mx. cbv zeta. split; [lra|]. split; [split; [discriminate|repeat constructor]|]. split; [lia|]. split; [cbn [INR]; lra|]. split; [|rewrite INR_IZR_INZ; cbn; lra].
  assert (step_rate (mk_step [] (1 / 2) 1200) = 1). { unfold step_rate. cbn [s_rate s_detune]. replace (1200 / 1200) with 1 by lra. rewrite Rpower_1 by lra. lra. }
  assert (step_rate (mk_step [] 1 0) = 1). { unfold step_rate. cbn [s_rate s_detune]. replace (0 / 1200) with 0 by lra. rewrite Rpower_O by lra. lra. }
  constructor; [split; [reflexivity|assumption]|]. constructor; [split; [reflexivity|assumption]|constructor].
Qed.

Example C74_loop_case : let sr := 8000 in let chs := [[1; 2; 3; 4; 5]] in let a := 1 / 8000 in let c := 4 / 8000 in
  (128 * 1 <= 200)%nat /\ 0 <= a < c /\ c <= INR 5 / sr /\ a * sr <= INR 5 - 1 /\ a <= 5 / 2 / 8000 < c /\ 5 / 2 / 8000 <> 0 /\ Forall (fun g => s_stops g = [] /\ step_rate g = 1) [mk_step [] (1 / 2) 1200].
Proof.
  cbv zeta. cbn [INR]. split; [lia|]. split; [lra|]. split; [lra|]. split; [lra|]. split; [lra|]. split; [lra|]. constructor; [|constructor]. split; [reflexivity|].
  unfold step_rate. cbn [s_rate s_detune]. replace (1200 / 1200) with 1 by lra. rewrite Rpower_1 by lra. lra.
Qed.
Example C74_loudness_case : Forall (fun v => Rabs v <= 1) [-1; 1; 0].
Proof. constructor; [|constructor; [|constructor; [|constructor]]]; apply Rabs_le; lra. Qed.
