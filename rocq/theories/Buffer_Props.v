(** Properties C22 (audio buffers) and C39 (re-chunking of media streams). *)
From Coq Require Import List Arith Bool ZArith Lia Reals.
From Flocq Require Import BinarySingleNaN.
From Verif Require Import Float_Model Buffer_Model Buffer_Spec Buffer_Proofs Buffer_ApiProofs Buffer_ResampleProofs Buffer_RechunkProofs.
Import ListNotations.
Local Open Scope nat_scope.

(** ** C22: copies are exact and in bounds *)

(** Buffers share their samples until one of them is written to.  A program cannot tell: any
    sequence of operations has the same results and the same panics as if every buffer were a
    value of its own. *)
Theorem C22_value_semantics : forall os,
  match vrun [] os with
  | Some (vs, outs) => exists w, brun no_buffers os = Ok (w, outs) /\ all_contents w = vs
  | None => brun no_buffers os = Panic
  end.
Proof. exact value_semantics. Qed.
Print Assumptions C22_value_semantics.

(** copy_from_channel: for every live buffer of every program, every channel of it, every
    offset and destination *)
Theorem C22_read : forall os w outs i c k data destination offset,
  brun no_buffers os = Ok (w, outs) -> value (all_contents w) i = Some c -> nth_error (c_channels c) k = Some data ->
  exists out, bstep w (B_copy_from i destination k offset) = Ok (w, out) /\ length out = length destination /\
    forall j, j < length destination ->
      nth j out f32_zero = if j <? Nat.min (length data - offset) (length destination) then nth (offset + j) data f32_zero else nth j destination f32_zero.
Proof. exact read_ok. Qed.
Print Assumptions C22_read.

(** copy_to_channel: no other buffer, no other channel and no other sample changes *)
Theorem C22_write : forall os w outs i c k data source offset,
  brun no_buffers os = Ok (w, outs) -> value (all_contents w) i = Some c -> nth_error (c_channels c) k = Some data ->
  exists w' c' data', bstep w (B_copy_to i source k offset) = Ok (w', []) /\
    (forall i', i' <> i -> value (all_contents w') i' = value (all_contents w) i') /\
    value (all_contents w') i = Some c' /\ c_rate c' = c_rate c /\ length (c_channels c') = length (c_channels c) /\
    (forall k', k' <> k -> nth_error (c_channels c') k' = nth_error (c_channels c) k') /\
    nth_error (c_channels c') k = Some data' /\ length data' = length data /\
    forall j, j < length data ->
      nth j data' f32_zero = if (offset <=? j) && (j <? offset + Nat.min (length data - offset) (length source)) then nth (j - offset) source f32_zero else nth j data f32_zero.
Proof. exact write_ok. Qed.
Print Assumptions C22_write.

Definition f (n : Z) : f32 := f32_lit n 0.
Definition shown_outs (r : res (world * list (list f32))) : option (list (list SpecFloat.spec_float)) :=
  match r with Ok (_, outs) => Some (map (map B2SF) outs) | _ => None end.
(** A two channel buffer (both channels share one vector), a clone of it; a write to
    channel 1 of the clone, with an offset that cuts the source short. *)
Definition script : list bop :=
  [B_new 2 3 (f 48000); B_clone 0; B_copy_to 1 [f 7; f 8; f 9] 1 2;
   B_get 0 0; B_get 0 1; B_get 1 0; B_get 1 1; B_copy_from 1 [f 5; f 6; f 4] 1 1; B_copy_from 1 [f 5] 1 99].
Example C22_example : shown_outs (brun no_buffers script) =
  Some (map (map B2SF) [[]; []; []; [f 0; f 0; f 0]; [f 0; f 0; f 0]; [f 0; f 0; f 0]; [f 0; f 0; f 7]; [f 0; f 7; f 4]; [f 5]]).
Proof. vm_compute. reflexivity. Qed.

(** ** C39: re-chunking *)

(** A stream of non-empty buffers with the same number of channels: it ends after finitely many
    chunks, all of the requested length, and on every channel the chunks together are the
    (resampled) source buffers together, followed by less than one chunk of silence.  The
    source buffers may be empty: then the silence may be one full chunk. *)
Theorem C39_chunks_preserve_samples : forall sr len ch l, rate_ok sr -> 0 < len -> 1 <= ch <= 32 -> source_ok ch l ->
  Forall (fun c => rate_ok (c_rate c) /\ (Z.of_nat (c_length c) <= 2 ^ 40)%Z) l ->
  exists rs chunks pad steps,
    Forall2 (fun d r => resample d sr = Ok r) l rs /\
    (forall fuel, steps <= fuel -> drain fuel sr len (mk_rechunk (map Data l) None) = Ok (map Some chunks)) /\
    Forall (fun c => length (c_channels c) = ch /\ Forall (fun d => length d = len) (c_channels c) /\ c_rate c = sr) chunks /\
    pad <= len /\ (Forall (fun c => 0 < c_length c) l -> pad < len) /\
    forall k, k < ch -> concat (map (channel k) chunks) = concat (map (channel k) rs) ++ repeat f32_zero pad.
Proof. exact rechunk_all. Qed.
Print Assumptions C39_chunks_preserve_samples.

(** Buffers that have the requested rate already are not changed by the resampling. *)
Theorem C39_same_rate : forall c, rate_ok (c_rate c) -> resample c (c_rate c) = Ok c.
Proof. exact resample_same. Qed.
Print Assumptions C39_same_rate.

(** Other buffers: the result has the scaled length, rounded up, and the first and the last sample
    stay. *)
Theorem C39_resample_keeps_ends : forall (data : list f32) T, 0 < length data -> (Z.of_nat (length data) <= 2 ^ 53)%Z -> (2 <= T <= 2 ^ 53)%Z ->
  Forall (fun x : f32 => is_finite x = true) data ->
  exists out, resample_channel data T = Ok out /\ length out = Z.to_nat T /\
    B2R (nth 0 out f32_zero) = B2R (nth 0 data f32_zero) /\
    B2R (nth (Z.to_nat T - 1) out f32_zero) = B2R (nth (length data - 1) data f32_zero).
Proof. exact resample_ends. Qed.
Print Assumptions C39_resample_keeps_ends.

Definition mono (l : list Z) : content := mk_content [map f l] (f 48000).
Definition shown_chunks (r : res (list (option content))) : option (list (option (list (list SpecFloat.spec_float)))) :=
  match r with Ok l => Some (map (option_map (fun c => map (map B2SF) (c_channels c))) l) | _ => None end.
Definition chunks_of (l : list (list Z)) := Some (map (fun c => Some [map (fun z => B2SF (f z)) c]) l).
Example C39_example : source_ok 1 [mono [1; 2]; mono [3; 4; 5; 6; 7; 8]; mono [9]]%Z /\
  Forall (fun c => rate_ok (c_rate c) /\ (Z.of_nat (c_length c) <= 2 ^ 40)%Z) [mono [1; 2]; mono [3; 4; 5; 6; 7; 8]; mono [9]]%Z /\
  shown_chunks (drain 10 (f 48000) 4 (mk_rechunk (map Data [mono [1; 2]; mono [3; 4; 5; 6; 7; 8]; mono [9]]) None))%Z =
    chunks_of [[1; 2; 3; 4]; [5; 6; 7; 8]; [9; 0; 0; 0]]%Z.
Proof. split; [repeat constructor|]. split; [repeat constructor; vm_compute; discriminate|]. vm_compute. reflexivity. Qed.

(** With an empty buffer at the end the silence is not less than one chunk. *)
Theorem C39_empty_buffer_refuted :
  shown_chunks (drain 10 (f 48000) 2 (mk_rechunk (map Data [mono [1; 2]; mono []]) None))%Z = chunks_of [[1; 2]; [0; 0]]%Z.
Proof. vm_compute. reflexivity. Qed.
Print Assumptions C39_empty_buffer_refuted.

(** A source buffer whose resampled length is one sample turns into NaN (0/0 in the position). *)
Theorem C39_short_buffer_refuted :
  shown_chunks (drain 10 (f 3000) 2 (mk_rechunk (map Data [mono [1; 2]]) None))%Z = Some [Some [[SpecFloat.S754_nan; B2SF (f 0)]]].
Proof. vm_compute. reflexivity. Qed.
Print Assumptions C39_short_buffer_refuted.

(** An error in the stream drops the samples that were collected for the current chunk (here 3). *)
Theorem C39_error_drops_samples_refuted :
  shown_chunks (drain 10 (f 48000) 2 (mk_rechunk [Data (mono [1; 2; 3]); Fails; Data (mono [4; 5])] None))%Z =
    Some [Some [[B2SF (f 1); B2SF (f 2)]]; None; Some [[B2SF (f 4); B2SF (f 5)]]].
Proof. vm_compute. reflexivity. Qed.
Print Assumptions C39_error_drops_samples_refuted.

(** A stream that changes its number of channels panics. *)
Theorem C39_channel_change_refuted :
  drain 10 (f 48000) 4 (mk_rechunk [Data (mono [1; 2]); Data (mk_content [map f [3]; map f [4]] (f 48000))] None)%Z = Panic.
Proof. vm_compute. reflexivity. Qed.
Print Assumptions C39_channel_change_refuted.
