(** Property C65: the media element and its source node. *)
From Coq Require Import List Arith ZArith Bool Lia.
From Flocq Require Import BinarySingleNaN.
From Verif Require Import Float_Model Quantum_Model Buffer_Model Buffer_Spec Buffer_ResampleProofs
  Element_Model Element_Spec Element_Proofs Element_NodeProofs Element_SoundProofs.
Import ListNotations.

(** Commands take effect one after the other in the order they were given, none is lost and none is invented: at any time the settings are those left by
    the commands taken so far, and the others wait. *)
Theorem C65_commands_in_order : forall f e arrivals items e', stream f e arrivals = Ok (items, e') ->
  exists taken, e_queue e ++ concat arrivals = taken ++ e_queue e' /\ settings_of e' = fold_left obey taken (settings_of e) /\
    length taken <= length arrivals /\ length items = length arrivals /\ e_queue e' = backlog (e_queue e) arrivals.
Proof.
  intros f e arr items e' H. destruct (stream_commands f arr e items e' H) as (A & B & taken & C & D & E). exists taken. auto.
Qed.
Print Assumptions C65_commands_in_order.

(** A looping element delivers the endlessly repeated file without gap or repetition, whatever pauses, resumptions and (workable) changes of the playback rate
    there are: each piece starts at the frame where the last one stopped. *)
Theorem C65_loops_seamlessly : forall ch len f e arrivals p, file_ok ch len f -> e_loop e = true -> e_pos e = Z.of_nat (p mod len) -> rate_good f (e_rate e) ->
  Forall (steady f) (e_queue e ++ concat arrivals) ->
  exists items e', stream f e arrivals = Ok (items, e') /\ delivered ch len f p (timeline (settings_of e) (e_queue e) arrivals) items.
Proof. intros ch len f e arr p F. exact (stream_loop ch len f F arr e p). Qed.
Print Assumptions C65_loops_seamlessly.

(** An element that does not loop delivers the file once, and errors after its end. *)
Theorem C65_plays_once : forall ch len f e arrivals p, file_ok ch len f -> e_loop e = false -> e_pos e = Z.of_nat p -> rate_good f (e_rate e) ->
  Forall (steady f) (e_queue e ++ concat arrivals) ->
  exists items e', stream f e arrivals = Ok (items, e') /\ delivered_once ch len f p (timeline (settings_of e) (e_queue e) arrivals) items.
Proof. intros ch len f e arr p F. exact (stream_once ch len f F arr e p). Qed.
Print Assumptions C65_plays_once.

(** A new element is paused, at the start of its file, at playback rate 1, and does not loop: until it is told to play it delivers silence, then the file, once. *)
Theorem C65_new_element : forall ch len f arrivals, file_ok ch len f -> Forall (steady f) (concat arrivals) ->
  exists items e', stream f element_new arrivals = Ok (items, e') /\ delivered_once ch len f 0 (timeline (mk_setting false true f64_one) [] arrivals) items.
Proof.
  intros ch len f arr F S. apply (C65_plays_once ch len f element_new arr 0 F eq_refl eq_refl); [|exact S].
  apply one_good. apply F.
Qed.
Print Assumptions C65_new_element.

(** The node plays any stream of buffers: as long as there are frames, its outputs put together are the resampled buffers put together, every output has the
    channels of the stream in arrays of their own, and the node says that it goes on.  What comes later in the stream does not matter. *)
Theorem C65_node_plays_stream : forall sr ch l later m s, rate_ok sr -> 1 <= ch <= 32 -> 0 < s -> source_ok ch l ->
  Forall (fun c => rate_ok (c_rate c) /\ (Z.of_nat (c_length c) <= 2 ^ 40)%Z) l ->
  exists rs, Forall2 (fun d r => resample d sr = Ok r) l rs /\
    (128 * m <= length (concat (map (channel 0) rs)) ->
     exists qs r', media_run sr m s (mk_renderer (mk_rechunk (map Data l ++ later) None) false) = Ok (map (fun q => (q, true)) qs, r') /\
       length qs = m /\ Forall (separate ch) qs /\
       forall k, k < ch -> concat (map (out_channel k) qs) = firstn (128 * m) (concat (map (channel k) rs))).
Proof.
  intros sr ch l later m s Hsr Hch Hs So Bo. destruct (node_outputs sr ch Hsr Hch later l m s Hs So Bo) as (rs & A & _ & B). exists rs. split; [exact A|exact B].
Qed.
Print Assumptions C65_node_plays_stream.

(** When the stream fails, the node plays all full quanta before the error, then a silent one, and says that it is done. *)
Theorem C65_node_stops_at_error : forall sr ch l later s, rate_ok sr -> 1 <= ch <= 32 -> 0 < s -> source_ok ch l ->
  Forall (fun c => rate_ok (c_rate c) /\ (Z.of_nat (c_length c) <= 2 ^ 40)%Z) l ->
  exists rs, Forall2 (fun d r => resample d sr = Ok r) l rs /\
    let m := length (concat (map (channel 0) rs)) / 128 in
    exists qs, media_run sr (m + 1) s (mk_renderer (mk_rechunk (map Data l ++ Fails :: later) None) false) =
        Ok (map (fun q => (q, true)) qs ++ [(silent_quantum, false)], mk_renderer (mk_rechunk later None) true) /\
      length qs = m /\ Forall (separate ch) qs /\
      forall k, k < ch -> concat (map (out_channel k) qs) = firstn (128 * m) (concat (map (channel k) rs)).
Proof. intros sr ch l later s Hsr Hch Hs So Bo. exact (node_error sr ch Hsr Hch later l s Hs So Bo). Qed.
Print Assumptions C65_node_stops_at_error.

(** Together, in a context with the sample rate of the file and at playback rate 1: a looping element is heard, from its position on, as the endlessly repeated
    file, sample for sample, for as long as one listens. *)
Theorem C65_gapless_loop : forall ch len f e p m n s, file_ok ch len f -> (Z.of_nat len <= 2 ^ 40)%Z ->
  e_queue e = [] -> e_paused e = false -> e_rate e = f64_one -> e_loop e = true -> p < len -> e_pos e = Z.of_nat p -> 0 < s -> 128 * m <= n ->
  exists items e' qs r', stream f e (repeat [] n) = Ok (items, e') /\
    media_run (f_rate32 f) m s (mk_renderer (mk_rechunk items None) false) = Ok (map (fun q => (q, true)) qs, r') /\
    length qs = m /\ Forall (separate ch) qs /\
    forall k, k < ch -> concat (map (out_channel k) qs) = tape (nth k (f_channels f) []) p (128 * m).
Proof. intros ch len f e p m n s F B Q P R. exact (gapless ch len f F B e Q P R p m n s). Qed.
Print Assumptions C65_gapless_loop.

(** A seek is heard from the next piece on: a looping element continues with the frame at the given time (its product with the sample rate, truncated), its clock shows that time. *)
Theorem C65_seek : forall ch len f e v p m n s, file_ok ch len f -> (Z.of_nat len <= 2 ^ 40)%Z ->
  e_queue e = [Seek v] -> e_paused e = false -> e_rate e = f64_one -> e_loop e = true ->
  f64_to_usize (f64_mul v (f64_of_f32 (f_rate32 f))) = Z.of_nat p -> p < len -> 0 < s -> 128 * m <= n -> 0 < n ->
  e_time (receive f e) = v /\
  exists items e' qs r', stream f e (repeat [] n) = Ok (items, e') /\
    media_run (f_rate32 f) m s (mk_renderer (mk_rechunk items None) false) = Ok (map (fun q => (q, true)) qs, r') /\
    length qs = m /\ Forall (separate ch) qs /\
    forall k, k < ch -> concat (map (out_channel k) qs) = tape (nth k (f_channels f) []) p (128 * m).
Proof.
  intros ch len f e v p m n s F B Q P R L V Pl Sp M N. split; [unfold receive; rewrite Q; reflexivity|].
  destruct n as [|n]; [lia|]. cbn [repeat]. rewrite (stream_seek f e v (repeat [] n) Q).
  apply (gapless ch len f F B (moved f e v) eq_refl P R p m (S n) s L Pl); assumption.
Qed.
Print Assumptions C65_seek.

(** Once a node has said that it is done it says so for ever, also when its stream goes on (after a seek). *)
Theorem C65_done_for_good : forall sr m s r outs r', n_finished r = true -> media_run sr m s r = Ok (outs, r') -> Forall (fun o => snd o = false) outs.
Proof. intros sr m s r outs r' H1 H2. exact (proj1 (done_for_good sr m s r outs r' H1 H2)). Qed.
Print Assumptions C65_done_for_good.

(** The full property would be: an element that does not loop is heard as the rest of its file, followed by silence.  Proved: all full quanta of the rest are heard,
    then there is silence for ever and the node says that it is done.  Missing: the frames of the last, incomplete quantum (see C65_tail_lost_refuted). *)
Theorem C65_end_of_file_partial : forall ch len f e p i n s, file_ok ch len f -> (Z.of_nat len <= 2 ^ 40)%Z ->
  e_queue e = [] -> e_paused e = false -> e_rate e = f64_one -> e_loop e = false -> p <= len -> e_pos e = Z.of_nat p -> 0 < s -> len - p + 1 + i <= n ->
  exists items e' qs r', stream f e (repeat [] n) = Ok (items, e') /\
    media_run (f_rate32 f) ((len - p) / 128 + 1 + i) s (mk_renderer (mk_rechunk items None) false) =
      Ok (map (fun q => (q, true)) qs ++ repeat (silent_quantum, false) (1 + i), r') /\
    length qs = (len - p) / 128 /\ Forall (separate ch) qs /\
    forall k, k < ch -> concat (map (out_channel k) qs) = firstn (128 * ((len - p) / 128)) (skipn p (nth k (f_channels f) [])).
Proof. intros ch len f e p i n s F B Q P R. exact (end_of_file ch len f F B e Q P R p i n s). Qed.
Print Assumptions C65_end_of_file_partial.

(** ** Examples *)

Definition two : f64 := f64_of_Z 2.
(** a stereo file at 44100 Hz: ones to the left, minus ones to the right *)
Definition clip (n : nat) : file := mk_file [repeat f32_one n; repeat (f32_of_Z (-1)) n] 44100.
Definition playing (loop : bool) (r : f64) : element := mk_element 0 f64_zero loop false r [].
Lemma clip_ok n : 0 < n -> file_ok 2 n (clip n).
Proof.
  intros H. unfold file_ok, clip. cbn [f_channels]. split; [lia|]. split; [exact H|]. split; [reflexivity|]. split.
  - constructor; [apply repeat_length|]. constructor; [apply repeat_length|constructor].
  - vm_compute. reflexivity.
Qed.
Lemma two_good n : rate_good (clip n) two.
Proof. split; [vm_compute; discriminate|vm_compute; reflexivity]. Qed.
Lemma one_good_clip n : rate_good (clip n) f64_one.
Proof. split; [vm_compute; discriminate|vm_compute; reflexivity]. Qed.

(** pause and a doubled rate while a file of 300 frames loops: the hypotheses hold, and the lengths of the pieces *)
Definition some_commands : list (list action) := [[]; [Pause; Play]; []; [SetPlaybackRate two]; []; []].
Example C65_loop_example : exists items e', stream (clip 300) (playing true f64_one) some_commands = Ok (items, e') /\
  delivered 2 300 (clip 300) 0 (timeline (settings_of (playing true f64_one)) [] some_commands) items.
Proof.
  apply (C65_loops_seamlessly 2 300 (clip 300) (playing true f64_one) some_commands 0); [apply clip_ok; lia|reflexivity|reflexivity|apply one_good_clip|].
  unfold some_commands. cbn. repeat (constructor; [first [exact Logic.I | apply two_good]|]). constructor.
Qed.
Definition lengths (r : res (list item * element)) : list nat :=
  match r with Ok (items, _) => map (fun it => match it with Data c => c_length c | Fails => 0 end) items | _ => [] end.
Definition position (r : res (list item * element)) : option Z := match r with Ok (_, e) => Some (e_pos e) | _ => None end.
Example C65_loop_lengths : lengths (stream (clip 300) (playing true f64_one) some_commands) = [128; 128; 128; 44; 256; 44] /\
  position (stream (clip 300) (playing true f64_one) some_commands) = Some 0%Z.
Proof. vm_compute. split; reflexivity. Qed.
Example C65_once_example : exists items e', stream (clip 300) (playing false f64_one) (repeat [] 4) = Ok (items, e') /\
  delivered_once 2 300 (clip 300) 0 (timeline (settings_of (playing false f64_one)) [] (repeat [] 4)) items.
Proof. apply (C65_plays_once 2 300 (clip 300) (playing false f64_one) (repeat [] 4) 0); [apply clip_ok; lia|reflexivity|reflexivity|apply one_good_clip|constructor]. Qed.
Example C65_gapless_example : exists items e' qs r', stream (clip 300) (playing true f64_one) (repeat [] 640) = Ok (items, e') /\
    media_run (f_rate32 (clip 300)) 5 1 (mk_renderer (mk_rechunk items None) false) = Ok (map (fun q => (q, true)) qs, r') /\
    length qs = 5 /\ Forall (separate 2) qs /\
    forall k, k < 2 -> concat (map (out_channel k) qs) = tape (nth k (f_channels (clip 300)) []) 0 640.
Proof. apply (C65_gapless_loop 2 300 (clip 300) (playing true f64_one) 0 5 640 1); try reflexivity; try lia. apply clip_ok. lia. Qed.
Definition seeking : element := mk_element 7 f64_zero true false f64_one [Seek (f64_div (f64_of_Z 100) (f64_of_Z 44100))].
Example C65_seek_example : exists items e' qs r', stream (clip 300) seeking (repeat [] 640) = Ok (items, e') /\
    media_run (f_rate32 (clip 300)) 5 1 (mk_renderer (mk_rechunk items None) false) = Ok (map (fun q => (q, true)) qs, r') /\
    length qs = 5 /\ Forall (separate 2) qs /\
    forall k, k < 2 -> concat (map (out_channel k) qs) = tape (nth k (f_channels (clip 300)) []) 100 640.
Proof.
  apply (C65_seek 2 300 (clip 300) seeking (f64_div (f64_of_Z 100) (f64_of_Z 44100)) 100 5 640 1); try reflexivity; try lia. apply clip_ok. lia.
Qed.
(** error, then data again: the data is played but the node remains done *)
Example C65_done_example : match media_run (f32_of_Z 44100) 3 1 (mk_renderer (mk_rechunk [Fails; Data (silence 2 (clip 300))] None) false) with
  | Ok (outs, r) => map (fun o => (length (fst o), snd o)) outs = [(1, false); (2, false); (1, false)] | _ => False end.
Proof. vm_compute. reflexivity. Qed.
Example C65_end_example : exists items e' qs r', stream (clip 300) (playing false f64_one) (repeat [] 310) = Ok (items, e') /\
    media_run (f_rate32 (clip 300)) 5 1 (mk_renderer (mk_rechunk items None) false) = Ok (map (fun q => (q, true)) qs ++ repeat (silent_quantum, false) 3, r') /\
    length qs = 2 /\ Forall (separate 2) qs /\
    forall k, k < 2 -> concat (map (out_channel k) qs) = firstn 256 (nth k (f_channels (clip 300)) []).
Proof. apply (C65_end_of_file_partial 2 300 (clip 300) (playing false f64_one) 0 2 310 1); try reflexivity; try lia. apply clip_ok. lia. Qed.
(** the file at 44100 Hz in a context at 48000 Hz *)
Example C65_resampled_example : exists items e', stream (clip 300) (playing true f64_one) (repeat [] 12) = Ok (items, e') /\
  exists outs r, media_run (f32_of_Z 48000) 8 1 (mk_renderer (mk_rechunk items None) false) = Ok (outs, r) /\ length outs = 8.
Proof.
  destruct (C65_loops_seamlessly 2 300 (clip 300) (playing true f64_one) (repeat [] 12) 0) as (items & e' & St & _);
    [apply clip_ok; lia|reflexivity|reflexivity|apply one_good_clip|constructor|].
  exists items, e'. split; [exact St|].
  assert (X : match stream (clip 300) (playing true f64_one) (repeat [] 12) with
              | Ok (items, _) => match media_run (f32_of_Z 48000) 8 1 (mk_renderer (mk_rechunk items None) false) with Ok (outs, _) => length outs | _ => 0 end
              | _ => 0 end = 8) by (vm_compute; reflexivity).
  rewrite St in X. clear St. revert X. generalize (media_run (f32_of_Z 48000) 8 1 (mk_renderer (mk_rechunk items None) false)) as a.
  intros [[outs r]| |] X; try discriminate. exists outs, r. split; [reflexivity|exact X].
Qed.

(** ** Findings *)

(** Media element: the end of the file is cut off.  The reader delivers a short last buffer, then an error, and the resampler throws an incomplete quantum away
    when it sees an error: of a file of 130 frames only 128 are heard (of one of 100 frames, nothing). *)
Theorem C65_tail_lost_refuted : exists f e, file_ok 2 130 f /\ e = playing false f64_one /\
  exists items e' outs r, stream f e (repeat [] 4) = Ok (items, e') /\
    media_run (f_rate32 f) 3 1 (mk_renderer (mk_rechunk items None) false) = Ok (outs, r) /\
    length (concat (map (out_channel 0) (firstn 1 (map fst outs)))) = 128 /\ skipn 1 outs = repeat (silent_quantum, false) 2.
Proof.
  exists (clip 130), (playing false f64_one). split; [apply clip_ok; lia|]. split; [reflexivity|].
  destruct (C65_plays_once 2 130 (clip 130) (playing false f64_one) (repeat [] 4) 0) as (items & e' & St & D);
    [apply clip_ok; lia|reflexivity|reflexivity|apply one_good_clip|constructor|].
  assert (X : match stream (clip 130) (playing false f64_one) (repeat [] 4) with
              | Ok (items, _) => match media_run (f_rate32 (clip 130)) 3 1 (mk_renderer (mk_rechunk items None) false) with
                  | Ok (outs, _) => map (fun o => (map (fun c => (c_name c, map (@B2SF 24 128) (c_val c))) (fst o), snd o)) (skipn 1 outs) =
                                    map (fun o => (map (fun c => (c_name c, map (@B2SF 24 128) (c_val c))) (fst o), snd o)) (repeat (silent_quantum, false) 2) /\
                                    length (concat (map (out_channel 0) (firstn 1 (map fst outs)))) = 128
                  | _ => False end
              | _ => False end) by (vm_compute; split; reflexivity).
  rewrite St in X. exists items, e'. revert X. generalize (media_run (f_rate32 (clip 130)) 3 1 (mk_renderer (mk_rechunk items None) false)) as a.
  intros [[outs r]| |] X; try contradiction. destruct X as [X1 X2].
  exists outs, r. split; [exact St|]. split; [reflexivity|]. split; [exact X2|].
  revert X1. generalize (skipn 1 outs) as a, (repeat (silent_quantum, false) 2) as b. intros a b. apply f_map_inj.
  intros [q1 b1] [q2 b2] [= Q ->]. f_equal. cbn [fst] in Q. revert Q. apply f_map_inj. intros [n1 v1] [n2 v2] [= -> V]. f_equal.
  revert V. apply f_map_inj. intros x y. apply B2SF_inj.
Qed.
Print Assumptions C65_tail_lost_refuted.

(** Media element: once a file has ended, play() and setting the loop attribute do not start it again; only seeking does (an HTML media element restarts from
    the beginning on play(), and loops when the attribute is set).  Here play() and then loop are given after the end: nothing but errors. *)
Theorem C65_play_after_end_refuted : lengths (stream (clip 256) (playing false f64_one) [[]; []; []; [Play]; [SetLoop true]; []; []]) = [128; 128; 0; 0; 0; 0; 0] /\
  lengths (stream (clip 256) (playing false f64_one) [[]; []; []; [Seek f64_zero]; []]) = [128; 128; 0; 128; 128].
Proof. vm_compute. split; reflexivity. Qed.
Print Assumptions C65_play_after_end_refuted.

(** Media element: current_time() does not take the playback rate into account.  At rate 2, 256 frames have been played but the clock shows 128 / 44100 s. *)
Theorem C65_time_ignores_rate_refuted : exists items e', stream (clip 512) (playing false two) [[]] = Ok (items, e') /\ e_pos e' = 256%Z /\
  f64_eq (e_time e') (f64_div (f64_of_Z 128) (f64_of_Z 44100)) = true /\ f64_eq (e_time e') (f64_div (f64_of_Z 256) (f64_of_Z 44100)) = false.
Proof.
  destruct (C65_plays_once 2 512 (clip 512) (playing false two) [[]] 0) as (items & e' & St & D); [apply clip_ok; lia|reflexivity|reflexivity|apply two_good|constructor|].
  exists items, e'. split; [exact St|].
  assert (X : match stream (clip 512) (playing false two) [[]] with
              | Ok (_, e) => e_pos e = 256%Z /\ f64_eq (e_time e) (f64_div (f64_of_Z 128) (f64_of_Z 44100)) = true /\ f64_eq (e_time e) (f64_div (f64_of_Z 256) (f64_of_Z 44100)) = false
              | _ => False end) by (vm_compute; repeat split).
  rewrite St in X. exact X.
Qed.
Print Assumptions C65_time_ignores_rate_refuted.

(** Media element: a negative playback rate plays forwards (the sign is dropped before it is looked at, media_element.rs 191-192). *)
Theorem C65_negative_rate_forward_refuted : position (stream (clip 512) (playing false (f64_of_Z (-1))) [[]; []]) = Some 256%Z.
Proof. vm_compute. reflexivity. Qed.
Print Assumptions C65_negative_rate_forward_refuted.

(** Media element: playback rates far from 1 bring the render thread down.  The buffers are labelled with the sample rate times the playback rate, and creating a
    buffer with a label below 3000 Hz or above 768000 Hz panics: rates 0, 1/16 and 18 for a file at 44100 Hz. *)
Theorem C65_extreme_rate_refuted : forall r, In r [f64_zero; f64_div f64_one (f64_of_Z 16); f64_of_Z 18] ->
  stream (clip 512) (playing false r) [[]] = Panic.
Proof. intros r [<- | [<- | [<- | []]]]; vm_compute; reflexivity. Qed.
Print Assumptions C65_extreme_rate_refuted.

(** Media element: seeking to the time of a frame may land on the frame before, as the product of time and rate is truncated: frame 15 at 44100 Hz.  After 13
    quanta, setting the current time to the current time moves the position back by one frame. *)
Theorem C65_seek_truncates_refuted :
  e_pos (handle (clip 512) (Seek (f64_div (f64_of_Z 15) (f64_of_Z 44100))) (playing false f64_one)) = 14%Z /\
  exists items e', stream (clip 2000) (playing false f64_one) (repeat [] 13) = Ok (items, e') /\
    e_pos e' = 1664%Z /\ e_pos (handle (clip 2000) (Seek (e_time e')) e') = 1663%Z.
Proof.
  split; [vm_compute; reflexivity|].
  destruct (C65_plays_once 2 2000 (clip 2000) (playing false f64_one) (repeat [] 13) 0) as (items & e' & St & D); [apply clip_ok; lia|reflexivity|reflexivity|apply one_good_clip|constructor|].
  exists items, e'. split; [exact St|].
  assert (X : match stream (clip 2000) (playing false f64_one) (repeat [] 13) with
              | Ok (_, e) => e_pos e = 1664%Z /\ e_pos (handle (clip 2000) (Seek (e_time e)) e) = 1663%Z | _ => False end) by (vm_compute; split; reflexivity).
  rewrite St in X. exact X.
Qed.
Print Assumptions C65_seek_truncates_refuted.

(** Media element: the comment in the constructor says that up to 32 control messages are handled per render quantum.  Only one is: of pause, seek and play, given
    together, the element obeys the first and falls silent. *)
Theorem C65_commands_wait_refuted : exists items e', stream (clip 512) (playing false f64_one) [[]; [Pause; Seek f64_zero; Play]] = Ok (items, e') /\
  e_paused e' = true /\ e_queue e' = [Seek f64_zero; Play] /\ e_pos e' = 128%Z.
Proof.
  assert (X : match stream (clip 512) (playing false f64_one) [[]; [Pause; Seek f64_zero; Play]] with
              | Ok (_, e) => e_paused e = true /\ e_pos e = 128%Z | _ => False end) by (vm_compute; split; reflexivity).
  destruct (stream _ _ _) as [[items e']| |] eqn:St; try contradiction. destruct X as [X1 X2].
  destruct (C65_commands_in_order _ _ _ _ _ St) as (taken & _ & _ & _ & _ & Q). exists items, e'. split; [reflexivity|]. split; [exact X1|]. split; [exact Q|exact X2].
Qed.
Print Assumptions C65_commands_wait_refuted.
