(** Model of decodeAudioData and the decoder behind it.

    Source: src/decoding.rs 15-55, 189-285, src/buffer.rs 242-277.

    The container format and the codecs (crate symphonia) are not modelled: the
    format reader is a list of what its calls of next_packet give, each packet
    with what the decoder makes of it.  Probing the file (104-170) is left out. *)
From Coq Require Import List Arith Bool ZArith.
From Verif Require Import Float_Model Buffer_Model Element_Model.
Import ListNotations.

(** ** Decoding *)

(** what the decoder makes of a packet: samples, a recoverable error (a corrupt
    packet or an I/O error) or a fatal one *)
Inductive decoded := Samples (rate : Z) (channels : list (list f32)) | Corrupt | Fatal.
(** what [next_packet] gives: no more packets, an unexpected end of file, another error, a packet of some track *)
Inductive fetched := End | Truncated | Broken | Packet (track : nat) (d : decoded).

(** decoding.rs 273-285 with buffer.rs 242-247: nothing is checked *)
Definition from_packet (rate : Z) (channels : list (list f32)) : content := mk_content channels (f32_of_Z rate).

(** decoding.rs 189-271: what the iterator yields, [None] for an error.  (It
    would go on after an error.) *)
Fixpoint media_decoder (track : nat) (l : list fetched) : list (option content) :=
  match l with
  | [] | End :: _ | Truncated :: _ => []
  | Broken :: l' => None :: media_decoder track l'
  | Packet t d :: l' =>
      if t =? track then
        match d with
        | Samples rate channels => Some (from_packet rate channels) :: media_decoder track l'
        | Corrupt => media_decoder track l'
        | Fatal => None :: media_decoder track l'
        end
      else media_decoder track l'
  end.

(** decoding.rs 22-46: the loop; [Ok None] = an error is returned *)
Fixpoint decode_loop (items : list (option content)) (sample_rate : option f32) (buffer : option content) : res (option (option content)) :=
  match items with
  | [] => Ok (Some buffer)
  | None :: _ => Ok None
  | Some chunk :: items' =>
      let changed := match sample_rate with Some rate => negb (f32_eq rate (c_rate chunk)) | None => false end in
      if changed then Ok None
      else
        let sample_rate := match sample_rate with Some rate => Some rate | None => Some (c_rate chunk) end in
        match buffer with
        | Some b =>
            if negb (length (c_channels b) =? length (c_channels chunk)) then Ok None
            else do b' <- extend_content b chunk; decode_loop items' sample_rate (Some b')
        | None => decode_loop items' sample_rate (Some chunk)
        end
  end.

(** decoding.rs 15-55 *)
Definition decode_media_data (track : nat) (l : list fetched) (target_sample_rate : f32) : res (option content) :=
  do r <- decode_loop (media_decoder track l) None None;
  match r with
  | None => Ok None
  | Some buffer =>
      do buffer <- match buffer with Some b => Ok b | None => from_samples [[]] target_sample_rate end;
      do b <- resample buffer target_sample_rate;
      Ok (Some b)
  end.
