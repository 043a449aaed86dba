(** The script processor: theorems.

    C34 Each block of input is handed to the callback exactly once, in order; answers that come in time are
    played once, in order, two blocks later. *)
From Coq Require Import List Arith Bool ZArith Reals Lra Lia.
From Verif Require Import Common_Model Float_Model Arith_Model Arith_Real Analyser_Model Script_Model Script_Spec Script_Proofs Source_Props.
Import ListNotations.
Local Open Scope nat_scope.

(** The documented sizes and numbers of channels are accepted, and make whole blocks. *)
Theorem C34_create : forall buffer_size inputs outputs,
  In buffer_size [0; 256; 512; 1024; 2048; 4096; Z.to_nat 8192; Z.to_nat 16384] -> inputs <= 32 -> 1 <= outputs <= 32 ->
  exists k, script_create 128 buffer_size inputs outputs = Ok k /\ k_outputs k = outputs /\ k_buffer_size k = (if buffer_size =? 0 then 256 else buffer_size) /\
    k_buffer_size k = k_quanta k * 128 /\ 0 < k_quanta k.
Proof.
  intros b i o Hb Hi Ho. 
  assert (C : match i, o with 0, 0 => Panic | 0, c | c, 0 => check (valid_channels c) | c, d => do _ <- check (valid_channels c); check (valid_channels d) end = Ok tt).
  { destruct i as [|i], o as [|o]; [lia| |lia|].
    - rewrite (proj2 (valid_channels_iff _)) by lia. reflexivity.
    - rewrite (proj2 (valid_channels_iff (S i))) by lia. cbn [check bind]. rewrite (proj2 (valid_channels_iff (S o))) by lia. reflexivity. }
  unfold script_create. 
  assert (B : forall s, (s = 256 \/ s = 512 \/ s = 1024 \/ s = 2048 \/ s = 4096 \/ s = Z.to_nat 8192 \/ s = Z.to_nat 16384) -> is_power_of_two (s / 256) && (s <=? Z.to_nat 16384) = true /\ s = s / 128 * 128 /\ 0 < s / 128).
  { intros s [-> | [-> | [-> | [-> | [-> | [-> | ->]]]]]]; (split; [vm_compute; reflexivity|]); (split; [vm_compute; reflexivity|]); apply Nat.ltb_lt; vm_compute; reflexivity. }
  set (s := if b =? 0 then 256 else b).
  destruct (B s) as (B1 & B2 & B3).
  { subst s. cbn [In] in Hb. destruct (Nat.eqb_spec b 0) as [E|E]; [left; reflexivity|]. intuition. }
  rewrite B1. cbn [check bind]. rewrite C. cbn [bind]. eexists. split; [reflexivity|]. cbn [k_outputs k_buffer_size k_quanta]. repeat split; assumption.
Qed.
Print Assumptions C34_create.

(** [calls] has for each quantum: the answers that arrive before it, the time and the input.  The answers have the
    size of the output buffer that came with the event.  For any arithmetic, the node never panics, and quantum
    [i] plays [heard] (quantum [i mod N] of the last answer that arrived in the block before; silence if there was
    none, and in the first two blocks) and hands out [handed] (the whole block of input, at its last quantum). *)
Theorem C34_blocks : forall (T V : Type) (A : arith T V) size k rate d (calls : list (list (list (list V)) * T * list (list V))),
  0 < size -> 0 < k_quanta k -> k_buffer_size k = k_quanta k * size -> 1 <= k_outputs k <= 32 ->
  Forall (fun c => Forall (fits size (k_quanta k) (k_outputs k)) (fst (fst c)) /\ proper size (snd c)) calls ->
  exists x, script_run A size k rate script_new calls = Ok (x, map (fun i =>
    (heard (v_zero A) size (k_quanta k) (k_outputs k) (map (fun c => fst (fst c)) calls) i,
     option_map (fun b => (b, t_add A (nth i (map (fun c => snd (fst c)) calls) d) (t_div A (t_of_Z A (Z.of_nat (k_buffer_size k))) rate)))
       (handed (v_zero A) size (k_quanta k) (map snd calls) i))) (seq 0 (length calls))).
Proof. intros T V A size k rate d calls H1 H2 H3 H4 H5. exact (run_new A size H1 k H2 H3 H4 rate d calls H5). Qed.
Print Assumptions C34_blocks.

(** The events, in order, carry the blocks of input, each once and in order. *)
Theorem C34_events : forall (T V : Type) (A : arith T V) size k rate (calls : list (list (list (list V)) * T * list (list V))),
  0 < size -> 0 < k_quanta k -> k_buffer_size k = k_quanta k * size -> 1 <= k_outputs k <= 32 ->
  Forall (fun c => Forall (fits size (k_quanta k) (k_outputs k)) (fst (fst c)) /\ proper size (snd c)) calls ->
  exists x os, script_run A size k rate script_new calls = Ok (x, os) /\
    flat_map (fun p => match snd p with Some e => [fst e] | None => [] end) os =
    map (fun b => joined (v_zero A) size (part (k_quanta k) b (map snd calls))) (seq 0 (length calls / k_quanta k)).
Proof.
  intros T V A size k rate calls H1 H2 H3 H4 H5. destruct (run_new A size H1 k H2 H3 H4 rate (t_zero A) calls H5) as [x E].
  exists x, (map (shown A size k rate calls (t_zero A)) (seq 0 (length calls))). split; [exact E|]. exact (events_in_order A size H1 k H2 H3 H4 rate (t_zero A) calls (length calls)).
Qed.
Print Assumptions C34_events.

(** A callback [f] that answers each block of input in time, that is before the next block is complete: every
    answer is played once, in order, two blocks after its input. *)
Theorem C34_latency : forall (T V : Type) (A : arith T V) size k rate (f : list (list V) -> list (list V)) (calls : list (list (list (list V)) * T * list (list V))),
  0 < size -> 0 < k_quanta k -> k_buffer_size k = k_quanta k * size -> 1 <= k_outputs k <= 32 ->
  Forall (fun c => Forall (fits size (k_quanta k) (k_outputs k)) (fst (fst c)) /\ proper size (snd c)) calls ->
  (forall b, (b + 2) * k_quanta k <= length calls -> 
    concat (part (k_quanta k) (b + 1) (map (fun c => fst (fst c)) calls)) = [f (joined (v_zero A) size (part (k_quanta k) b (map snd calls)))]) ->
  exists x os, script_run A size k rate script_new calls = Ok (x, os) /\ length os = length calls /\
    forall b j, j < k_quanta k -> (b + 2) * k_quanta k + j < length calls ->
      option_map fst (nth_error os ((b + 2) * k_quanta k + j)) = Some (cut size j (f (joined (v_zero A) size (part (k_quanta k) b (map snd calls))))).
Proof.
  intros T V A size k rate f calls H1 H2 H3 H4 H5 Ht. destruct (run_new A size H1 k H2 H3 H4 rate (t_zero A) calls H5) as [x E].
  exists x, (map (shown A size k rate calls (t_zero A)) (seq 0 (length calls))). split; [exact E|]. split; [rewrite map_length, seq_length; reflexivity|].
  intros b j Hj Hi. set (i := (b + 2) * k_quanta k + j) in *.
  rewrite nth_error_map, (nth_error_nth' _ 0) by (rewrite seq_length; exact Hi). rewrite seq_nth by exact Hi. cbn [option_map fst shown Nat.add]. f_equal.
  unfold heard. replace (i / k_quanta k) with (b + 2) by (apply (Nat.div_unique _ _ _ j); lia).
  replace (i mod k_quanta k) with j by (apply (Nat.mod_unique _ _ (b + 2)); lia).
  replace (b + 2 <? 2) with false by (symmetry; apply Nat.ltb_ge; lia). replace (b + 2 - 1) with (b + 1) by lia.
  change (map answers_of calls) with (map (fun c : list (list (list V)) * T * list (list V) => fst (fst c)) calls). rewrite Ht by lia. reflexivity.
Qed.
Print Assumptions C34_latency.

(** the callback that copies the input to the output: two channels of quanta of 2 frames, blocks of 2 quanta *)
Definition some_calls : list (list (list (list R)) * R * list (list R)) :=
  let input := fun n => [[INR n; INR n]; [0%R; INR n]] in
  let answer := fun n m => [[INR n; INR n; INR m; INR m]; [0%R; INR n; 0%R; INR m]] in
  [([], 0%R, input 0); ([], 1%R, input 1); ([], 2%R, input 2); ([answer 0 1], 3%R, input 3); ([answer 2 3], 4%R, input 4); ([], 5%R, input 5)].
Example C34_case : let k := mk_script_config 4 2 2 in
  Forall (fun c => Forall (fits 2 (k_quanta k) (k_outputs k)) (fst (fst c)) /\ proper 2 (snd c)) some_calls /\
  forall b, (b + 2) * k_quanta k <= length some_calls -> 
    concat (part (k_quanta k) (b + 1) (map (fun c => fst (fst c)) some_calls)) = [joined 0%R 2 (part (k_quanta k) b (map snd some_calls))].
Proof.
  cbv zeta. split.
  - unfold some_calls. repeat constructor.
  - intros b Hb. cbn in Hb. destruct b as [|[|b]]; [reflexivity|reflexivity|lia].
Qed.

(** The announced playback time is not when the answer is played: it is one quantum early.  [now] is the time of
    the last quantum of block [b], when the event is sent; the answer is first heard in quantum [(b + 2) N]. *)
Theorem C34_playback_refuted : forall k size rate b, (0 < rate)%R -> (0 < k_quanta k)%nat -> k_buffer_size k = k_quanta k * size ->
  let time := fun quantum => (INR (quantum * size) / rate)%R in
  let announced := t_add exact (time (b * k_quanta k + (k_quanta k - 1))) (t_div exact (t_of_Z exact (Z.of_nat (k_buffer_size k))) rate) in
  (announced = time ((b + 2) * k_quanta k)%nat - INR size / rate)%R.
Proof.
  intros k size rate b Hr HN Hw time announced. unfold announced, time. rewrite Hw. cbn [t_add t_div t_of_Z exact]. rewrite <- INR_IZR_INZ.
  replace ((b + 2) * k_quanta k * size) with ((b * k_quanta k + (k_quanta k - 1)) * size + k_quanta k * size + size).
  - rewrite (plus_INR _ size), plus_INR. field. lra.
  - destruct (k_quanta k) as [|n]; [lia|]. cbn [Nat.sub]. rewrite Nat.sub_0_r. ring.
Qed.
Print Assumptions C34_playback_refuted.

(** Sizes that are documented to be rejected are accepted: with 300 the blocks have two quanta, and the buffers 300
    frames of which the last 44 are not in the input. *)
Theorem C34_size_refuted : script_create 128 300 1 1 = Ok (mk_script_config 300 2 1) /\
  forall (T V : Type) (A : arith T V) (now rate : T) (q : list (list V)), proper 128 q -> length q = 1 ->
    exists x os e t, script_run A 128 (mk_script_config 300 2 1) rate script_new [([], now, q); ([], now, q)] = Ok (x, os) /\
      map snd os = [None; Some (e, t)] /\ e = [nth 0 q [] ++ nth 0 q [] ++ repeat (v_zero A) 44].
Proof.
  split; [vm_compute; reflexivity|]. intros T V A now rate q [_ P] Lq. destruct q as [|c [|c' q]]; try discriminate Lq. 
  inversion P as [|? ? Lc _]; subst.
  assert (E : script_run A 128 (mk_script_config 300 2 1) rate script_new [([], now, [c]); ([], now, [c])] =
    Ok (mk_script [] [] (repeat (repeat (silent_channel A 128) 1) 2), [([silent_channel A 128], None); ([silent_channel A 128], Some ([c ++ c ++ repeat (v_zero A) 44], t_add A now (t_div A (t_of_Z A 300) rate)))])).
  { assert (L1 : forall l : list V, length l = 172 -> copy_to_slice (repeat (v_zero A) 128 ++ l) 0 128 c = Ok (c ++ l)).
    { intros l Ll. unfold copy_to_slice. rewrite app_length, repeat_length, Ll, Lc. cbn [Nat.leb Nat.add andb Nat.sub Nat.eqb]. cbn [firstn app]. do 2 f_equal. }
    cbn [script_run fold_res bind]. unfold script_quantum at 1. cbn [x_output script_new x_input app length k_quanta Nat.eqb]. cbn [bind x_next].
    unfold script_quantum. cbn [x_output x_input x_next app length k_quanta Nat.eqb k_buffer_size k_outputs map fold_right Nat.max].
    set (z := repeat (v_zero A) 300). change (repeat z 1) with [z].
    assert (Ez : z = repeat (v_zero A) 128 ++ repeat (v_zero A) 172) by (unfold z; rewrite <- repeat_app; reflexivity).
    assert (Ez2 : repeat (v_zero A) 172 = repeat (v_zero A) 128 ++ repeat (v_zero A) 44) by (rewrite <- repeat_app; reflexivity).
    assert (C1 : copy_to_slice z 0 128 c = Ok (c ++ repeat (v_zero A) 172)) by (rewrite Ez; apply L1; apply repeat_length).
    assert (C2 : copy_to_slice (c ++ repeat (v_zero A) 172) 128 256 c = Ok (c ++ c ++ repeat (v_zero A) 44)).
    { unfold copy_to_slice. rewrite app_length, repeat_length, Lc. change (128 <=? 256) with true. change (256 <=? 128 + 172) with true. change (128 =? 256 - 128) with true. cbn [andb].
      rewrite firstn_app, Lc, firstn_all2, skipn_app, Lc, skipn_all2 by lia. rewrite Nat.sub_diag. cbn [firstn app]. rewrite app_nil_r. rewrite Ez2. change (256 - 128) with 128. rewrite skipn_app, repeat_length, Nat.sub_diag, skipn_all2 by (rewrite repeat_length; lia). reflexivity. }
    cbn [fill_samples copy_channels]. change (128 * 0) with 0. change (0 + 128) with 128. rewrite C1. cbn [bind]. change (128 * 1) with 128. change (128 + 128) with 256. rewrite C2. cbn [bind].
    unfold buffer_from. cbn [length valid_channels hd forallb]. rewrite !Nat.eqb_refl. reflexivity. }
  do 4 eexists. split; [exact E|]. split; reflexivity.
Qed.
Print Assumptions C34_size_refuted.

(** Input only (no output channels) is accepted, but the node panics when the first block is complete: the callback never runs. *)
Theorem C34_no_outputs_refuted : script_create 128 256 1 0 = Ok (mk_script_config 256 2 0) /\
  panics (script_run (ieee libm_one) 128 (mk_script_config 256 2 0) (f64_of_Z 44100) script_new
    [([], f64_of_Z 0, [repeat f32_zero 128]); ([], f64_of_Z 1, [repeat f32_zero 128])]) = true.
Proof. split; [vm_compute; reflexivity|vm_compute; reflexivity]. Qed.
Print Assumptions C34_no_outputs_refuted.

(** An answer with more channels than announced (the output buffer of the event can be replaced) panics the thread that renders. *)
Theorem C34_answer_refuted :
  panics (script_run (ieee libm_one) 128 (mk_script_config 256 2 1) (f64_of_Z 44100) script_new
    [([], f64_of_Z 0, [repeat f32_zero 128]); ([], f64_of_Z 1, [repeat f32_zero 128]); ([repeat (repeat f32_zero 256) 2], f64_of_Z 2, [repeat f32_zero 128])]) = true.
Proof. vm_compute. reflexivity. Qed.
Print Assumptions C34_answer_refuted.
