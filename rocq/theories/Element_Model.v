(** Model of the media element (the shim of the `<audio>` tag that streams a
    file from disk), of the renderer of MediaElementAudioSourceNode and
    MediaStreamAudioSourceNode, and of what lies between them.

    Source: src/media_element.rs 10-222, src/node/mod.rs 58-113,
    src/node/media_element_source.rs 80-110, with the Resampler of
    Buffer_Model.v in between.

    The decoder (`creek::ReadDiskStream`) is not part of the repository.  It is
    modelled as a file in memory with a read position: [read n] yields at most
    [n] frames up to the end of the file, says whether the end was reached, and
    fails when the position is already at the end or behind it; [seek] sets the
    position.  Cache misses, disk errors and creek's limit on the number of
    frames per read are not modelled. *)
From Coq Require Import List Arith Bool ZArith.
From Verif Require Import Float_Model Quantum_Model Buffer_Model.
Import ListNotations.

Record file := mk_file { f_channels : list (list f32); f_rate : Z }.
Definition f_frames (f : file) : Z := Z.of_nat (match f_channels f with [] => 0 | c :: _ => length c end).
(** [info().sample_rate.unwrap() as f32], media_element.rs 159 *)
Definition f_rate32 (f : file) : f32 := f32_of_Z (f_rate f).

(** media_element.rs 31-42 *)
Inductive action := Seek (value : f64) | SetLoop (value : bool) | Play | Pause | SetPlaybackRate (value : f64).

(** media_element.rs 12-20: the position is the one of the disk stream, the
    queue that of the channel; the other fields are shared with the control
    side, which only reads them (128-152). *)
Record element := mk_element {
  e_pos : Z; e_time : f64; e_loop : bool; e_paused : bool; e_rate : f64; e_queue : list action }.

(** media_element.rs 89-106 *)
Definition element_new : element := mk_element 0 f64_zero false true f64_one [].

Definition RQ := 128.

(** AudioBuffer::from, buffer.rs 99-121 *)
Definition from_samples (samples : list (list f32)) (sr : f32) : res content :=
  do _ <- check (is_valid_sample_rate sr);
  do _ <- check (is_valid_number_of_channels (length samples));
  do _ <- check (forallb (fun c => length c =? match samples with [] => 0 | c0 :: _ => length c0 end) samples);
  Ok (mk_content samples sr).

(** media_element.rs 161-177 *)
Definition handle (f : file) (a : action) (e : element) : element :=
  match a with
  | Seek value =>
      let frame := f64_to_usize (f64_mul value (f64_of_f32 (f_rate32 f))) in
      mk_element frame value (e_loop e) (e_paused e) (e_rate e) (e_queue e)
  | SetLoop value => mk_element (e_pos e) (e_time e) value (e_paused e) (e_rate e) (e_queue e)
  | Play => mk_element (e_pos e) (e_time e) (e_loop e) false (e_rate e) (e_queue e)
  | Pause => mk_element (e_pos e) (e_time e) (e_loop e) true (e_rate e) (e_queue e)
  | SetPlaybackRate value => mk_element (e_pos e) (e_time e) (e_loop e) (e_paused e) value (e_queue e)
  end.

(** 161: [try_recv] *)
Definition receive (f : file) (e : element) : element :=
  match e_queue e with
  | [] => e
  | a :: q => handle f a (mk_element (e_pos e) (e_time e) (e_loop e) (e_paused e) (e_rate e) q)
  end.

(** ReadDiskStream::read at a position: the frames and [reached_end_of_file] *)
Definition disk_read (f : file) (pos n : Z) : option (list (list f32) * bool) :=
  if (f_frames f <=? pos)%Z then None
  else Some (map (fun c => firstn (Z.to_nat (Z.min n (f_frames f - pos))) (skipn (Z.to_nat pos) c)) (f_channels f),
             (f_frames f <=? pos + n)%Z).

(** media_element.rs 158-221 *)
Definition rts_next (f : file) (e : element) : res (item * element) :=
  let e := receive f e in
  if e_paused e then
    do silence <- from_samples (repeat (repeat f32_zero RQ) (length (f_channels f))) (f_rate32 f);
    Ok (Data silence, e)
  else
    let playback_rate := f64_abs (e_rate e) in
    let samples := f64_to_usize (f64_mul (f64_of_Z (Z.of_nat RQ)) playback_rate) in
    match disk_read f (e_pos e) samples with
    | Some (channels, eof) =>
        let pos := (e_pos e + Z.min samples (f_frames f - e_pos e))%Z in
        do buf <- from_samples channels (f32_mul (f_rate32 f) (f32_of_f64 playback_rate));
        if e_loop e && eof
        then Ok (Data buf, mk_element 0 f64_zero (e_loop e) (e_paused e) (e_rate e) (e_queue e))
        else Ok (Data buf, mk_element pos (f64_add (e_time e) (f64_div (f64_of_Z (Z.of_nat RQ)) (f64_of_f32 (f_rate32 f))))
                             (e_loop e) (e_paused e) (e_rate e) (e_queue e))
    | None => Ok (Fails, e)
    end.

(** [arrivals]: for every call of [next], the actions that were sent since the
    previous one.  (The channel holds at most 32 actions; a sender blocks when
    it is full, that is, its actions arrive before a later call.) *)
Definition send (e : element) (l : list action) : element :=
  mk_element (e_pos e) (e_time e) (e_loop e) (e_paused e) (e_rate e) (e_queue e ++ l).

Fixpoint stream (f : file) (e : element) (arrivals : list (list action)) : res (list item * element) :=
  match arrivals with
  | [] => Ok ([], e)
  | b :: arrivals' =>
      do r <- rts_next f (send e b);
      do rs <- stream f (snd r) arrivals';
      Ok (fst r :: fst rs, snd rs)
  end.

(** ** The renderer (node/mod.rs 58-113) *)

Record renderer := mk_renderer { n_stream : rechunk; n_finished : bool }.

(** 95-100: every channel of the output gets its own array, named from [s] on *)
Fixpoint copied (s : nat) (l : list (list f32)) : list (chan f32) :=
  match l with [] => [] | d :: l' => mk_chan s d :: copied (S s) l' end.

(** [process]: the output and whether the node may still produce sound.
    [copy_from_slice] (99) panics unless the lengths are equal;
    [make_silent] leaves one silent channel. *)
Definition media_process (sr : f32) (s : nat) (r : renderer) : res (list (chan f32) * bool * renderer) :=
  do n <- next sr RQ (n_stream r);
  match fst n with
  | Some (Some buffer) =>
      do _ <- check (is_valid_number_of_channels (length (c_channels buffer)));
      do _ <- check (forallb (fun c => length c =? RQ) (c_channels buffer));
      Ok (copied s (c_channels buffer), negb (n_finished r), mk_renderer (snd n) (n_finished r))
  | Some None | None => Ok ([mk_chan 0 (repeat f32_zero RQ)], false, mk_renderer (snd n) true)
  end.

(** [m] quanta; arrays named from [s] on, 32 names per quantum *)
Fixpoint media_run (sr : f32) (m s : nat) (r : renderer) : res (list (list (chan f32) * bool) * renderer) :=
  match m with
  | 0 => Ok ([], r)
  | S m' =>
      do p <- media_process sr s r;
      do ps <- media_run sr m' (s + 32) (snd p);
      Ok (fst p :: fst ps, snd ps)
  end.
