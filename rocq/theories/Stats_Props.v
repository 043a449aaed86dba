(** Playback statistics and render capacity: theorems.

    C40 Minimum, average and maximum latency are in order for any series of recordings and resets; underrun events
        never exceed underruns, which never exceed callbacks; the ratios of the capacity event are in range.
    C54 The latency statistics describe the latencies measured since the last reset.
    C55 The capacity event describes the callbacks of its interval.
    C56 The exposed statistics change at most once per second, and only while the context runs. *)
From Coq Require Import List ZArith Bool Lia Reals Lra.
From Flocq Require Import Core BinarySingleNaN.
From Verif Require Import Float_Model Arith_Model Source_Props Stats_Model Stats_Spec Stats_Proofs Stats_IeeeProofs.
Import ListNotations.
Local Open Scope Z_scope.

(** Whole operations, one after the other, in nanoseconds: the statistics are in order, and are those of the
    latencies that count.  The sum of these latencies must fit 64 bits (it covers 584 years). *)
Theorem C40_latency_partial : forall ops, Forall legal ops -> let l := latencies ops 0 [] in total l < u64_MAX -> Z.of_nat (length l) < 2 ^ 64 ->
  let s := snapshot_of (after new_memory ops) in
  s_min s <= average_ns s <= s_max s /\
  (l <> [] -> is_minimum (s_min s) l /\ is_maximum (s_max s) l /\ average_ns s = total l / Z.of_nat (length l)).
Proof. intros ops L l T N s. destruct (latency_snapshot ops L T N) as (_ & H & _ & _ & G). split; [exact H|exact G]. Qed.
Print Assumptions C40_latency_partial.
Example C40_latency_case : let ops := [Reset; Latency 7; Callback 3 5; Latency 9; Reset; Latency 2; Latency 8] in
  Forall legal ops /\ latencies ops 0 [] = [9; 2; 8] /\ snapshot_of (after new_memory ops) = mk_snapshot 1 3 5 0 0 0 19 3 2 9.
Proof. split; [repeat constructor; cbn; lia|]. vm_compute. split; reflexivity. Qed.

(** The same in seconds, as the user reads them: three finite numbers in order. *)
Theorem C40_seconds_partial : forall M ops, Forall legal ops -> let l := latencies ops 0 [] in total l < u64_MAX -> Z.of_nat (length l) < 2 ^ 64 ->
  let s := snapshot_of (after new_memory ops) in
  (is_finite (minimum_seconds (ieee M) s) = true /\ is_finite (average_seconds (ieee M) s) = true /\ is_finite (maximum_seconds (ieee M) s) = true /\
   0 <= B2R (minimum_seconds (ieee M) s) <= B2R (average_seconds (ieee M) s) /\ B2R (average_seconds (ieee M) s) <= B2R (maximum_seconds (ieee M) s))%R.
Proof.
  intros M ops L l T N s. destruct (latency_snapshot ops L T N) as (H0 & H1 & H2 & _). fold s in H0, H1, H2.
  assert (E : exists a, a = average_ns s /\ is_finite (average_seconds (ieee M) s) = true /\ B2R (average_seconds (ieee M) s) = B2R (ns_to_seconds (ieee M) a)).
  { exists (average_ns s). split; [reflexivity|]. unfold average_seconds, average_ns in *. destruct (Z.eqb_spec (s_count s) 0) as [Q|Q].
    - destruct (small_val 0 ltac:(lia)) as [Z1 Z2]. split; [exact Z2|]. change (t_zero (ieee M)) with (f64_of_Z 0). rewrite Z1. destruct (seconds_val M 0 ltac:(lia)) as (_ & -> & _). rewrite Z1. unfold Rdiv. rewrite Rmult_0_l. symmetry. apply Pan_IeeeProofs.zero64.
    - split; [apply seconds_val; lia|reflexivity]. }
  destruct E as (a & Ea & Fa & Va). rewrite Va. rewrite <- Ea in H1. unfold minimum_seconds, maximum_seconds.
  split; [apply seconds_val; lia|]. split; [exact Fa|]. split; [apply seconds_val; lia|]. split; [split; [apply seconds_val; lia|]|]; apply seconds_mono; lia.
Qed.
Print Assumptions C40_seconds_partial.
(** Every latency that is recorded at all is recorded as 64 bit nanoseconds; infinite, undefined and negative ones are not. *)
Theorem C40_accepted : forall M x n, latency_ns (ieee M) x = Some n -> legal (Latency n) /\ is_finite x = true /\ (0 <= B2R x)%R.
Proof. intros M x n E. exact (latency_ns_range M x n E). Qed.
Print Assumptions C40_accepted.

(** Whole operations: the counters count callbacks, those over budget, and maximal runs of these. *)
Theorem C40_counters : forall ops, let cs := callbacks_of ops in Z.of_nat (length cs) < 2 ^ 64 ->
  let s := snapshot_of (after new_memory ops) in
  s_callbacks s = Z.of_nat (length cs) /\ s_underruns s = late_count cs /\ s_events s = late_runs false cs /\ (time_lost cs < 2 ^ 64 -> s_duration s = time_lost cs) /\
  s_events s <= s_underruns s <= s_callbacks s.
Proof.
  intros ops cs N s. destruct (callback_snapshot ops N) as (H1 & H2 & H3 & _ & _ & H6). fold cs s in H1, H2, H3, H6. pose proof (late_count_range cs). pose proof (late_runs_range cs false).
  split; [exact H1|]. split; [exact H2|]. split; [exact H3|]. split; [|lia]. intros T. rewrite H6. apply wrap_small. split; [|exact T]. unfold time_lost, total. clear. induction cs as [|c cs IH]; cbn [map fold_right]; lia.
Qed.
Print Assumptions C40_counters.
Example C40_counters_case : let cs := callbacks_of [Callback 3 2; Callback 5 2; Latency 4; Callback 1 2; Callback 2 2; Callback 9 2] in late_count cs = 3 /\ late_runs false cs = 2 /\ time_lost cs = 11.
Proof. repeat split. Qed.

(** At every moment of every interleaving of the recording thread with resets and readers, underrun events do not
    exceed underruns, which do not exceed callbacks. *)
Theorem C40_any_moment : forall ops reqs c p q, forallb recording ops = true -> interleaving (flat_map program ops) (flat_map request_program reqs) c -> c = p ++ q -> Z.of_nat (length (callbacks_of ops)) + 1 < 2 ^ 64 ->
  let s := shared (exec_all new_memory p) in underrun_events s <= underrun_count s <= callback_count s.
Proof. intros ops reqs c p q _ I E N s. destruct (inter_core ops reqs c p q I E N) as [H1 H2]. fold s in H1, H2. lia. Qed.
Print Assumptions C40_any_moment.

(** The capacity event for the callbacks between two snapshots that are not interrupted: all values are finite and
    not negative, the underrun ratio is at most one, zero when there was no underrun, positive when there was one,
    one when all callbacks were late; it is the true ratio rounded up to hundredths, up to 2^-50. *)
Theorem C40_capacity : forall M ops1 ops2 ppm, let cs := callbacks_of ops2 in let all := callbacks_of (ops1 ++ ops2) in
  Z.of_nat (length all) < 2 ^ 64 -> cs <> [] -> 0 <= ppm < 2 ^ 64 ->
  let previous := snapshot_of (after new_memory ops1) in let next := snapshot_of (after new_memory (ops1 ++ ops2)) in
  let e := render_capacity_event (ieee M) previous next ppm in let n := Z.of_nat (length cs) in
  (is_finite (average_load e) = true /\ is_finite (peak e) = true /\ is_finite (underrun_ratio e) = true /\ 0 <= B2R (average_load e) /\ 0 <= B2R (peak e) /\
   0 <= B2R (underrun_ratio e) <= 1 /\ (late_count cs = 0%Z -> B2R (underrun_ratio e) = 0) /\ ((0 < late_count cs)%Z -> 1 / 128 <= B2R (underrun_ratio e)) /\ (late_count cs = n -> B2R (underrun_ratio e) = 1) /\
   ((n <= 2 ^ 53)%Z -> IZR (late_count cs) / IZR n - / 1125899906842624 <= B2R (underrun_ratio e) <= IZR (late_count cs) / IZR n + / 100 + / 1125899906842624))%R.
Proof.
  intros M ops1 ops2 ppm cs all N NE Hp previous next e n.
  assert (A : all = callbacks_of ops1 ++ cs) by apply flat_map_app. assert (La : length all = (length (callbacks_of ops1) + length cs)%nat) by (rewrite A; apply app_length).
  destruct (callback_snapshot ops1) as (P1 & P2 & _ & P4 & P5 & _); [lia|]. destruct (callback_snapshot (ops1 ++ ops2) N) as (N1 & N2 & _ & N4 & N5 & _). fold all in N1, N2, N4, N5. fold previous in P1, P2, P4, P5. fold next in N1, N2, N4, N5.
  assert (Lc : late_count all = late_count (callbacks_of ops1) + late_count cs) by (unfold late_count; rewrite A, filter_app, app_length; lia).
  assert (Ln : (1 <= length cs)%nat) by (destruct cs; [congruence|cbn; lia]). pose proof (late_count_range cs) as R.
  assert (W : forall x, 0 <= wrap x < 2 ^ 64) by (intros x; apply Z.mod_pos_bound; lia).
  assert (U : s_underruns next - s_underruns previous = late_count cs) by lia. assert (C : s_callbacks next - s_callbacks previous = n) by (unfold n; lia).
  pose proof (W (total (map fst all))). pose proof (W (total (map fst (callbacks_of ops1)))). pose proof (W (total (map snd all))). pose proof (W (total (map snd (callbacks_of ops1)))).
  pose proof (event_ieee M previous next ppm) as E. cbv zeta in E. rewrite U, C in E.
  destruct E as ((E1 & E2) & (E3 & E4) & E5 & E6 & E7 & E8 & E9 & E10); try (unfold n; lia). fold e in E1, E2, E3, E4, E5, E6, E7, E8, E9, E10.
  repeat (split; [assumption|]). exact E10.
Qed.
Print Assumptions C40_capacity.

(** Full statement (refuted): a reset while a latency is being recorded leaves statistics out of order, until the
    next reset.  Here 5 was recorded before, and 100 is recorded during the reset. *)
Theorem C40_reset_race_refuted : exists c, interleaving (latency_program 100) reset_program c /\
  let s := snapshot_of (exec_all (after new_memory [Latency 5]) c) in s_max s < average_ns s.
Proof.
  exists [Load_latest; Store_sum; Store_latest 100; Add_sum 100; Add_count; Store_count; Store_min; Store_max; Fetch_min 100; Fetch_max 100]. split; [|reflexivity].
  unfold latency_program, reset_program. do 2 apply inter_right. do 3 apply inter_left. do 3 apply inter_right. do 2 apply inter_left. apply inter_nil.
Qed.
Print Assumptions C40_reset_race_refuted.
(** Full statement (refuted): the sum wraps.  Two latencies of 2^63 ns have average 0. *)
Theorem C40_wrap_refuted : let s := snapshot_of (after new_memory [Latency (2 ^ 63); Latency (2 ^ 63)]) in average_ns s < s_min s.
Proof. reflexivity. Qed.
Print Assumptions C40_wrap_refuted.
(** Full statement (refuted): a snapshot taken while a callback records mixes old and new counters, and the underrun
    ratio is 2. *)
Theorem C40_ratio_race_refuted : exists c, interleaving (flat_map program [Callback 2 1; Callback 2 1]) snapshot_program c /\
  let next := snap (exec_all new_memory c) in s_callbacks next < s_underruns next /\
  f64_eq (underrun_ratio (render_capacity_event (ieee libm_one) (snapshot_of new_memory) next 0)) (f64_of_Z 2) = true.
Proof.
  exists (callback_program 2 1 ++ [Read_min; Read_callbacks; Read_render; Read_budget] ++ callback_program 2 1 ++ [Read_underruns; Read_duration; Read_events; Read_sum; Read_count; Read_max]). split; [|split; vm_compute; reflexivity].
  cbn. do 8 apply inter_left. do 4 apply inter_right. do 8 apply inter_left. do 6 apply inter_right. apply inter_nil.
Qed.
Print Assumptions C40_ratio_race_refuted.

(** C54, what holds: with a reset made when a latency had already been measured, and in general as soon as every
    latency that counts was measured, the statistics are those of measured latencies. *)
Theorem C54_measured_partial : forall before n ops, Forall legal (before ++ Latency n :: Reset :: ops) -> ~ In Reset ops ->
  let measured := n :: flat_map (fun o => match o with Latency k => [k] | _ => [] end) ops in
  total measured < u64_MAX -> Z.of_nat (length measured) < 2 ^ 64 ->
  let s := snapshot_of (after new_memory (before ++ Latency n :: Reset :: ops)) in
  is_minimum (s_min s) measured /\ is_maximum (s_max s) measured /\ average_ns s = total measured / Z.of_nat (length measured).
Proof.
  intros before n ops L NR measured T N s.
  assert (E : forall b a seen, latencies (b ++ Latency n :: Reset :: ops) a seen = latencies ops n [n]) by (induction b as [|o b IH]; intros a seen; [reflexivity|]; destruct o; cbn [latencies app]; apply IH).
  assert (G : forall o a seen, ~ In Reset o -> latencies o a seen = seen ++ flat_map (fun o => match o with Latency k => [k] | _ => [] end) o).
  { induction o as [|x o IH]; intros a seen H; [cbn; rewrite app_nil_r; reflexivity|]. destruct x as [r b|k|]; cbn [latencies flat_map app].
    - apply IH. intros I. apply H. right. exact I.
    - rewrite IH by (intros I; apply H; right; exact I). rewrite <- app_assoc. reflexivity.
    - exfalso. apply H. left. reflexivity. }
  assert (M : latencies (before ++ Latency n :: Reset :: ops) 0 [] = measured) by (rewrite E, (G ops n [n] NR); reflexivity).
  pose proof (latency_snapshot (before ++ Latency n :: Reset :: ops) L) as Q. cbv zeta in Q. rewrite M in Q. destruct (Q T N) as (_ & _ & _ & _ & H). apply H. unfold measured. discriminate.
Qed.
Print Assumptions C54_measured_partial.
(** Full statement (refuted): the reset made when the context is created (playback_stats.rs 51) counts a latency of
    zero that was never measured: the minimum stays 0 and the average is too low. *)
Theorem C54_initial_refuted : let s := snapshot_of (after new_memory [Reset; Latency 5000; Latency 7000]) in s_min s = 0 /\ average_ns s = 4000 /\ s_max s = 7000.
Proof. repeat split. Qed.
Print Assumptions C54_initial_refuted.

(** C55, what holds: in one interval without interruption, the average load never exceeds the peak by more than
    the millionth lost in recording: total render time * 10^6 <= (peak in millionths + 1) * total budget. *)
Theorem C55_peak_partial : forall cs, Forall (fun c => 0 <= fst c /\ 0 < snd c /\ fst c * 1000000 <= u64_MAX) cs ->
  let m := after (mk_memory (mk_stats 0 0 0 0 0 0 0 false 0 0 0 0 0) false 0 no_snapshot 0) (map (fun c => Callback (fst c) (snd c)) cs) in
  total (map fst cs) * 1000000 <= (peak_load (shared m) + 1) * total (map snd cs) /\ forall c, In c cs -> load_ppm (fst c) (snd c) <= peak_load (shared m).
Proof.
  intros cs F m. assert (P : forall l m0, let s := shared (after m0 (map (fun c => Callback (fst c) (snd c)) l)) in peak_load (shared m0) <= peak_load s /\ forall c, In c l -> load_ppm (fst c) (snd c) <= peak_load s).
  { induction l as [|c l IH]; intros m0 s; [split; [apply Z.le_refl|intros c []]|]. unfold s. cbn [map]. rewrite after_cons. cbn [program]. destruct (IH (exec_all m0 (callback_program (fst c) (snd c)))) as [H1 H2]. rewrite callback_effect in H1. cbn [peak_load] in H1.
    split; [lia|]. intros d [<-|I]; [|apply H2; exact I]. lia. }
  destruct (P cs (mk_memory (mk_stats 0 0 0 0 0 0 0 false 0 0 0 0 0) false 0 no_snapshot 0)) as [_ H]. fold m in H. split; [|exact H].
  clear P. generalize dependent (peak_load (shared m)). clear m. intros p H. induction cs as [|c cs IH]; [cbn; lia|]. inversion F as [|? ? Fc Fs]; subst.
  cbn [map total fold_right]. fold (total (map fst cs)). fold (total (map snd cs)). specialize (IH Fs ltac:(intros d I; apply H; right; exact I)). specialize (H c (or_introl eq_refl)). unfold load_ppm in H.
  rewrite (proj2 (Z.eqb_neq (snd c) 0)) in H by lia. rewrite Z.min_r in H by lia. pose proof (Z.mul_succ_div_gt (fst c * 1000000) (snd c) ltac:(lia)). nia.
Qed.
Print Assumptions C55_peak_partial.
(** Full statement (refuted): the ratio is rounded up to hundredths.  7 late callbacks of 100 give 0.08. *)
Theorem C55_rounding_refuted : let next := snapshot_of (after new_memory (repeat (Callback 2 1) 7 ++ repeat (Callback 1 2) 93)) in
  s_underruns next = 7 /\ s_callbacks next = 100 /\ f64_eq (underrun_ratio (render_capacity_event (ieee libm_one) (snapshot_of new_memory) next 0)) (f64_frac 8 100) = true.
Proof. vm_compute. repeat split. Qed.
Print Assumptions C55_rounding_refuted.
(** Full statement (refuted): a callback between the snapshot and the reading of the peak (capacity.rs 111-116) counts
    in the peak of one event and in the average of the next, where the average is then above the peak. *)
Theorem C55_peak_race_refuted :
  let m1 := exec_all new_memory (callback_program 1 10 ++ snapshot_program) in
  let m2 := exec_all m1 (callback_program 9 10 ++ [Swap_peak] ++ callback_program 1 10 ++ snapshot_program ++ [Swap_peak]) in
  let e := render_capacity_event (ieee libm_one) (snap m1) (snap m2) (taken_peak m2) in f64_lt (peak e) (average_load e) = true.
Proof. vm_compute. reflexivity. Qed.
Print Assumptions C55_peak_race_refuted.

(** C56: a query of a context that does not run, or less than a second after the last update, shows the values of the
    last update; after a second of running it shows fresh values. *)
Theorem C56_exposed : forall X (e : exposed X) now running fresh,
  let '(e', shown) := current_values e now running fresh in
  shown = values e' /\
  (running = false -> e' = e) /\
  (forall last, last_update e = Some last -> now - last < update_interval -> e' = e) /\
  (running = true -> (forall last, last_update e = Some last -> update_interval <= now - last) -> shown = fresh /\ last_update e' = Some now) /\
  (forall last', last_update e' = Some last' -> last' = now \/ last_update e = Some last').
Proof.
  intros X e now running fresh. unfold current_values. destruct running; cbn [andb].
  - destruct (last_update e) as [last|] eqn:E.
    + destruct (Z.leb_spec update_interval (now - last)) as [H|H]; (split; [reflexivity|]); (split; [discriminate|]).
      * split; [intros l Q; injection Q as <-; lia|]. split; [split; reflexivity|]. intros l Q. injection Q as <-. left. reflexivity.
      * split; [reflexivity|]. split; [intros _ Q; specialize (Q last eq_refl); lia|]. intros l Q. right. congruence.
    + split; [reflexivity|]. split; [discriminate|]. split; [discriminate|]. split; [split; reflexivity|]. intros l Q. injection Q as <-. left. reflexivity.
  - split; [reflexivity|]. split; [reflexivity|]. split; [reflexivity|]. split; [discriminate|]. intros l Q. right. exact Q.
Qed.
Print Assumptions C56_exposed.
(** Two queries that show different values are a second apart, or a reset came between: for any series of queries. *)
Fixpoint queries {X} (e : exposed X) (l : list (Z * bool * X)) : exposed X * list (Z * X) :=
  match l with
  | [] => (e, [])
  | (now, running, fresh) :: l' => let '(e1, v) := current_values e now running fresh in let '(e2, vs) := queries e1 l' in (e2, (now, v) :: vs)
  end.
Theorem C56_once_per_second : forall X (e : exposed X) start l, (forall q, In q l -> start <= fst (fst q) < start + update_interval) -> last_update e = Some start ->
  forall shown, In shown (snd (queries e l)) -> snd shown = values e.
Proof.
  intros X e start l. induction l as [|[[now running] fresh] l IH]; intros H E shown I; [destruct I|]. cbn [queries] in I.
  assert (C : current_values e now running fresh = (e, values e)). { unfold current_values. rewrite E. specialize (H _ (or_introl eq_refl)). cbn in H. rewrite (proj2 (Z.leb_gt update_interval (now - start))) by lia. rewrite andb_false_r. reflexivity. }
  rewrite C in I. destruct (queries e l) as [e2 vs] eqn:Q. cbn [snd] in I. destruct I as [<-|I]; [reflexivity|]. apply IH; [intros q Hq; apply H; right; exact Hq|exact E|exact I].
Qed.
Print Assumptions C56_once_per_second.
Example C56_case : snd (queries (mk_exposed Z 7 (Some 100)) [(200, true, 8); (1000000099, true, 9); (1000000100, true, 10); (1500000000, false, 11)]) = [(200, 7); (1000000099, 7); (1000000100, 10); (1500000000, 10)].
Proof. reflexivity. Qed.
