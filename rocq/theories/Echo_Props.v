(** C87: the sound of a feedback delay.

    A program connects a source to the destination and to a DelayNode, the DelayNode to the destination and, through a GainNode,
    back to itself. *)
From Coq Require Import List Arith Bool ZArith Reals Lra Lia.
From Verif Require Import Common_Model Arith_Model Arith_Real Source_Model Delay_Model Delay_Spec Delay_Proofs
  Graph_Model Graph_TraceModel Thread_Model Whole_Model Echo_Model Echo_Spec Echo_GraphProofs Echo_Proofs Delay_Props.
Import ListNotations.
Local Open Scope R_scope.

(** A mono offline rendering of [len] frames: frame [t] of the buffer is the source plus its echoes, one every [n] frames (but at
    least one quantum apart, since the delay is in a cycle), each one the gain times the one before. *)
Theorem C87_echo : forall sr remix max n source g len, 0 < sr -> 0 < max ->
  (forall C n b, good C b -> (0 < n)%nat -> good n (remix n b)) -> (forall C n b, good C b -> zeros exact b -> (0 < n)%nat -> zeros exact (remix n b)) ->
  (0 <= n)%Z -> IZR n / sr <= max -> Forall (fun q => length q = 128%nat) source ->
  exists t' ch,
    render_audiobuffer (audio_graph (echo_env exact sr remix) (wire_channels exact)) 0 128 1 len new_thread
      (startup (echo_program source (ring_size exact sr max) (IZR n / sr) g)) [] [] = Some (t', [ch], []) /\
    length ch = len /\
    forall t, (t < len)%nat -> nth_error ch t = Some (sample_of source (Z.of_nat t) + echoes (applied g) (Z.max n 128) (sample_of source) (Z.of_nat t)).
Proof. intros sr remix max n source g len H1 H2 H3 H4 H5 H6 H7. exact (heard_echo sr H1 remix H3 H4 max H2 n H5 H6 source H7 g len). Qed.
Print Assumptions C87_echo.

(** With a gain below one in magnitude the feedback stays bounded, however long it sounds *)
Theorem C87_bounded : forall sr remix max n source g len b, 0 < sr -> 0 < max ->
  (forall C n b, good C b -> (0 < n)%nat -> good n (remix n b)) -> (forall C n b, good C b -> zeros exact b -> (0 < n)%nat -> zeros exact (remix n b)) ->
  (0 <= n)%Z -> IZR n / sr <= max -> Forall (fun q => length q = 128%nat) source ->
  1 / 1000000 < Rabs (1 - g) -> Rabs g < 1 -> 0 <= b -> Forall (Forall (fun v => Rabs v <= b)) source ->
  exists t' ch,
    render_audiobuffer (audio_graph (echo_env exact sr remix) (wire_channels exact)) 0 128 1 len new_thread
      (startup (echo_program source (ring_size exact sr max) (IZR n / sr) g)) [] [] = Some (t', [ch], []) /\
    length ch = len /\ Forall (fun v => Rabs v <= b + b / (1 - Rabs g)) ch.
Proof. intros sr remix max n source g len b H1 H2 H3 H4 H5 H6 H7. exact (heard_bounded sr H1 remix H3 H4 max H2 n H5 H6 source H7 g len b). Qed.
Print Assumptions C87_bounded.

Lemma nth_repeat_lt (a d : R) i n : (i < n)%nat -> nth i (repeat a n) d = a.
Proof. revert i. induction n as [|n IH]; intros [|i] H; cbn; try lia; [reflexivity|]. apply IH. lia. Qed.

(** A source of one quantum of ones, echoed every 192 frames at half the volume: frame 400 sounds with the second echo *)
Example C87_case : exists t' ch,
  render_audiobuffer (audio_graph (echo_env exact 48000 (fun n b => repeat (nth 0 b (repeat 0 128)) n)) (wire_channels exact)) 0 128 1 1000 new_thread
    (startup (echo_program [repeat 1 128] (ring_size exact 48000 1) (IZR 192 / 48000) (/ 2))) [] [] = Some (t', [ch], []) /\
  length ch = 1000%nat /\ nth_error ch 5 = Some 1 /\ nth_error ch 200 = Some 1 /\ nth_error ch 350 = Some 0 /\ nth_error ch 400 = Some (/ 2).
Proof.
  destruct C27_remix as [R1 R2].
  destruct (C87_echo 48000 _ 1 192 [repeat 1 128] (/ 2) 1000 ltac:(lra) ltac:(lra) R1 R2 ltac:(lia) ltac:(lra) ltac:(repeat constructor)) as (t' & ch & A & B & C).
  exists t', ch. split; [exact A|]. split; [exact B|].
  assert (AP : applied (/ 2) = / 2).
  { unfold applied. rewrite (Rabs_pos_eq (/ 2)) by lra. destruct (Rle_dec _ _); [lra|]. rewrite (Rabs_pos_eq (1 - / 2)) by lra. destruct (Rle_dec _ _); [lra|reflexivity]. }
  rewrite AP in C. change (Z.max 192 128) with 192%Z in C.
  assert (SO : forall t, sample_of [repeat 1 128] t = if ((0 <=? t) && (t <? 128))%Z then 1 else 0).
  { intros t. unfold sample_of. destruct (Z.ltb_spec t 0), (Z.leb_spec 0 t); try lia; [reflexivity|]. cbn [andb]. destruct (Z.ltb_spec t 128).
    - rewrite Z.div_small, Z.mod_small by lia. change (Z.to_nat 0) with 0%nat. cbn [nth]. apply nth_repeat_lt. lia.
    - assert (1 <= t / 128)%Z by (apply Z.div_le_lower_bound; lia). rewrite (nth_overflow [_]) by (cbn [length]; lia). destruct (Z.to_nat _); reflexivity. }
  assert (ET : forall g d t, echoes g d (sample_of [repeat 1 128]) t = total (map (fun j => g ^ j * if ((0 <=? t - (Z.of_nat j + 1) * d) && (t - (Z.of_nat j + 1) * d <? 128))%Z then 1 else 0) (seq 0 (Z.to_nat (t / d))))).
  { intros. unfold echoes. f_equal. apply map_ext. intros j. rewrite SO. reflexivity. }
  split; [|split; [|split]]; (rewrite C by lia; rewrite ET, SO; match goal with |- context [seq 0 ?k] => let v := eval vm_compute in k in change k with v end; cbn; f_equal; lra).
Qed.
