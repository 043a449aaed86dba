(** C66: decoding audio data. *)
From Coq Require Import List Arith Bool ZArith Lia.
From Flocq Require Import BinarySingleNaN.
From Verif Require Import Common_Model Float_Model Buffer_Model Buffer_Proofs Buffer_ResampleProofs Element_Model Decode_Model Decode_Spec Decode_Proofs.
Import ListNotations.

(** A file whose packets of the chosen track have one rate and one number of
    channels is decoded to these packets, one after the other and nothing else,
    resampled to the rate of the context. *)
Theorem C66_whole_track : forall track l target r ch, rate_ok target -> rate_ok (f32_of_Z r) -> (0 < r <= 2 ^ 24)%Z -> 0 < ch ->
  let ps := pieces (readable track l) in
  ~ In Fatal (readable track l) -> ps <> [] -> Forall (agrees r ch) ps -> (Z.of_nat (total ps) <= 2 ^ 40)%Z ->
  exists b, resample (mk_content (joined ch ps) (f32_of_Z r)) target = Ok b /\ decode_media_data track l target = Ok (Some b) /\
    c_rate b = target /\ length (c_channels b) = ch /\ content_ok b.
Proof. exact decode_all. Qed.
Print Assumptions C66_whole_track.

(** No samples: an empty buffer. *)
Theorem C66_nothing : forall track l target, rate_ok target -> ~ In Fatal (readable track l) -> pieces (readable track l) = [] ->
  decode_media_data track l target = Ok (Some (mk_content [[]] target)).
Proof. exact decode_nothing. Qed.
Print Assumptions C66_nothing.

(** A fatal error or a change of rate or channels anywhere before the end makes
    the call fail; no part of the audio is returned. *)
Theorem C66_errors : forall track l target, Forall plain_rate (pieces (readable track l)) ->
  In Fatal (readable track l) \/
  (exists p q, In p (pieces (readable track l)) /\ In q (pieces (readable track l)) /\ (fst p <> fst q \/ length (snd p) <> length (snd q))) ->
  decode_media_data track l target = Ok None.
Proof. exact decode_rejects. Qed.
Print Assumptions C66_errors.

(** Whatever the file contains: an error or a well-formed buffer at the rate of the context, and no panic. *)
Theorem C66_never_panics : forall track l target, rate_ok target -> let ps := pieces (readable track l) in
  Forall (fun p => whole p /\ plain_rate p /\ rate_ok (f32_of_Z (fst p))) ps -> (Z.of_nat (total ps) <= 2 ^ 40)%Z ->
  decode_media_data track l target = Ok None \/ exists b, decode_media_data track l target = Ok (Some b) /\ content_ok b /\ c_rate b = target.
Proof. exact decode_total. Qed.
Print Assumptions C66_never_panics.

Definition z (n : Z) : f32 := f32_of_Z n.
Definition one_channel (l : list Z) : fetched := Packet 1 (Samples 48000 [map z l]).
Definition shown (r : res (option content)) : option (option (list (list SpecFloat.spec_float))) :=
  match r with Ok o => Some (option_map (fun c => map (map B2SF) (c_channels c)) o) | _ => None end.
Definition samples (l : list (list Z)) := Some (Some (map (map (fun n => B2SF (z n))) l)).

(** two tracks, of which track 1 is decoded; then a file with a change of the number of channels behind some audio *)
Example C66_example : let l := [one_channel [1; 2]; Packet 0 (Samples 8000 [map z [7]; map z [8]]); one_channel [3]; End]%Z in
  ~ In Fatal (readable 1 l) /\ Forall (agrees 48000 1) (pieces (readable 1 l)) /\ total (pieces (readable 1 l)) = 3 /\
  rate_ok (z 48000) /\ shown (decode_media_data 1 l (z 48000)) = samples [[1; 2; 3]]%Z /\
  shown (decode_media_data 1 [one_channel [1; 2]; Packet 1 (Samples 48000 [map z [3]; map z [4]]); End]%Z (z 48000)) = Some None.
Proof.
  cbv zeta. split; [apply no_fatal; reflexivity|]. split.
  { repeat (constructor; [split; [reflexivity|split; [reflexivity|split; [discriminate|repeat constructor]]]|]). constructor. }
  split; [vm_compute; reflexivity|]. split; [vm_compute; reflexivity|]. split; vm_compute; reflexivity.
Qed.
(** resampled to half the rate *)
Example C66_resample_example : shown (decode_media_data 1 [one_channel [1; 2]; one_channel [3; 4; 5]; End]%Z (z 24000)) = samples [[1; 3; 5]]%Z.
Proof. vm_compute. reflexivity. Qed.

(** A packet that cannot be decoded is left out without an error: what follows
    moves forward in time, and the caller is not told (the Web Audio API asks
    for an EncodingError). *)
Theorem C66_corrupt_packet_refuted :
  shown (decode_media_data 1 [one_channel [1; 2]; Packet 1 Corrupt; one_channel [5; 6]; End]%Z (z 48000)) = samples [[1; 2; 5; 6]]%Z.
Proof. vm_compute. reflexivity. Qed.
Print Assumptions C66_corrupt_packet_refuted.

(** A file that is cut off in the middle is decoded without an error. *)
Theorem C66_truncated_refuted :
  shown (decode_media_data 1 [one_channel [1; 2]; Truncated; one_channel [5; 6]; End]%Z (z 48000)) = samples [[1; 2]]%Z.
Proof. vm_compute. reflexivity. Qed.
Print Assumptions C66_truncated_refuted.

(** A file with more than 32 channels gives an AudioBuffer with more channels
    than any AudioBuffer may have: the public constructors panic for it. *)
Theorem C66_too_many_channels_refuted : let channels := repeat [z 1] 33 in
  (exists b, decode_media_data 1 [Packet 1 (Samples 48000 channels); End] (z 48000) = Ok (Some b) /\ length (c_channels b) = 33) /\
  from_samples channels (z 48000) = Panic.
Proof.
  split; [|vm_compute; reflexivity]. destruct (C66_whole_track 1 [Packet 1 (Samples 48000 (repeat [z 1] 33)); End] (z 48000) 48000 33) as (b & _ & D & _ & L & _);
    [vm_compute; reflexivity|vm_compute; reflexivity|lia|lia| |discriminate| |vm_compute; discriminate|].
  - apply no_fatal. reflexivity.
  - constructor; [|constructor]. split; [reflexivity|]. split; [reflexivity|]. split; [discriminate|]. apply Forall_forall. intros d Hd. apply repeat_spec in Hd. subst. reflexivity.
  - exists b. split; [exact D|exact L].
Qed.
Print Assumptions C66_too_many_channels_refuted.

(** A file of one frame at another rate than that of the context becomes NaN. *)
Theorem C66_one_frame_refuted :
  shown (decode_media_data 1 [one_channel [1]; End]%Z (z 44100)) = Some (Some [[SpecFloat.S754_nan]]).
Proof. vm_compute. reflexivity. Qed.
Print Assumptions C66_one_frame_refuted.
