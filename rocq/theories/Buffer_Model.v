(** Model of AudioBuffer with its copy-on-write channels, and of the re-chunking of
    media streams.

    Source: /repo/src/buffer.rs 66-413, /repo/src/resampling.rs 42-110,
    /repo/src/lib.rs 130-225.

    Lengths, offsets and channel numbers (usize) are natural numbers. *)
From Coq Require Import List Arith Bool ZArith.
From Verif Require Export Common_Model.
From Verif Require Import Float_Model.
Import ListNotations.

(** ** Assertions *)
(** lib.rs 150-172 *)
Definition MIN_SAMPLE_RATE : f32 := f32_lit 3000 0.
Definition MAX_SAMPLE_RATE : f32 := f32_lit 768000 0.
Definition is_valid_sample_rate (sr : f32) : bool := f32_le MIN_SAMPLE_RATE sr && f32_le sr MAX_SAMPLE_RATE.
(** lib.rs 182-196, MAX_CHANNELS = 32 (lib.rs 22) *)
Definition is_valid_number_of_channels (n : nat) : bool := (0 <? n) && (n <=? 32).

(** ** Values: the contents of a buffer *)
Record content := mk_content { c_channels : list (list f32); c_rate : f32 }.
(** buffer.rs 124-126 *)
Definition c_length (b : content) : nat := match c_channels b with [] => 0 | c :: _ => length c end.

(** buffer.rs 152-171: the new contents of [destination] *)
Definition copy_from (b : content) (destination : list f32) (channel offset : nat) : res (list f32) :=
  do _ <- check (channel <? length (c_channels b));
  let offset := Nat.min offset (c_length b) in
  let max_frame := Nat.min (c_length b - offset) (length destination) in
  do data <- index (c_channels b) channel;
  do part <- slice data offset (max_frame + offset);
  copy_to_slice destination 0 max_frame part.

(** buffer.rs 191-208: what [copy_to_channel_with_offset] writes into the channel *)
Definition copy_to (len : nat) (source : list f32) (offset : nat) (data : list f32) : res (list f32) :=
  let offset := Nat.min offset len in
  let max_frame := Nat.min (len - offset) (length source) in
  do part <- slice source 0 max_frame;
  copy_to_slice data offset (max_frame + offset) part.

(** ** Resampling (buffer.rs 308-366) *)

(** 343-358: sample [i] of [target_length] samples *)
Definition resample_sample (data : list f32) (target_length i : Z) : res f32 :=
  let source_length := Z.of_nat (length data) in
  let position := f64_div (f64_of_Z i) (f64_of_Z (target_length - 1)) in
  let playhead := f64_mul position (f64_of_Z (source_length - 1)) in
  let playhead_floored := f64_floor playhead in
  let prev_index := f64_to_usize playhead_floored in
  let next_index := Z.min (prev_index + 1) (source_length - 1) in
  let k := f32_of_f64 (f64_sub playhead playhead_floored) in
  let k_inv := f32_sub f32_one k in
  do prev <- index data (Z.to_nat prev_index);
  do next <- index data (Z.to_nat next_index);
  Ok (f32_add (f32_mul k_inv prev) (f32_mul k next)).

(** 325-332: [(self.length() as f64 * ratio).ceil() as usize] *)
Definition resampled_length (len : nat) (source_sr target_sr : f32) : Z :=
  let ratio := f64_div (f64_of_f32 target_sr) (f64_of_f32 source_sr) in
  f64_to_usize (f64_ceil (f64_mul (f64_of_Z (Z.of_nat len)) ratio)).

Definition resample_channel (data : list f32) (target_length : Z) : res (list f32) :=
  map_res (fun i => resample_sample data target_length (Z.of_nat i)) (seq 0 (Z.to_nat target_length)).

(** 311-314: [float_eq!(a, b, abs <= 0.1)] *)
Definition nearly_equal (a b : f32) : bool := f32_eq a b || f32_le (f32_abs (f32_sub a b)) (f32_lit 13421773 (-27)).

(** The channels are of equal length (see [content_ok]), so they can be resampled one after
    the other. *)
Definition resample (b : content) (sr : f32) : res content :=
  do _ <- check (is_valid_sample_rate sr);
  if nearly_equal (c_rate b) sr then Ok (mk_content (c_channels b) sr)
  else if c_length b =? 0 then Ok (mk_content (c_channels b) sr)
  else
    let target_length := resampled_length (c_length b) (c_rate b) sr in
    do channels <- map_res (fun data => resample_channel data target_length) (c_channels b);
    Ok (mk_content channels sr).

(** ** The heap: buffers hold references ([Arc]) to shared sample vectors *)

(** buffer.rs 66-69, 370-373 *)
Record buffer := mk_buffer { b_channels : list nat; b_rate : f32 }.
(** [cells]: the vectors, by address; [handles]: all live buffers of the program,
    wherever they are held *)
Record world := mk_world { cells : list (list f32); handles : list (option buffer) }.

Definition addresses (w : world) : list nat :=
  flat_map (fun h => match h with Some b => b_channels b | None => [] end) (handles w).
(** Arc::strong_count *)
Definition strong_count (w : world) (a : nat) : nat := count_occ Nat.eq_dec (addresses w) a.

Definition handle (w : world) (i : nat) : res buffer :=
  match nth_error (handles w) i with Some (Some b) => Ok b | _ => Panic end.
Definition set_handle (w : world) (i : nat) (b : option buffer) : world := mk_world (cells w) (update i (fun _ => b) (handles w)).
Definition add_handle (w : world) (b : buffer) : world := mk_world (cells w) (handles w ++ [Some b]).
Definition alloc (w : world) (data : list f32) : world * nat := (mk_world (cells w ++ [data]) (handles w), length (cells w)).
Fixpoint alloc_all (w : world) (l : list (list f32)) : world * list nat :=
  match l with
  | [] => (w, [])
  | d :: l' => let '(w1, a) := alloc w d in let '(w2, addrs) := alloc_all w1 l' in (w2, a :: addrs)
  end.

(** what a buffer contains *)
Definition cell (w : world) (a : nat) : list f32 := nth a (cells w) [].
Definition contents (w : world) (b : buffer) : content := mk_content (map (cell w) (b_channels b)) (b_rate b).

(** Arc::make_mut on channel [k] of buffer [i] (buffer.rs 274, 287, 410-412), followed by a
    change [f] of the vector: in place if this is the only reference to it, otherwise on
    a fresh copy *)
Definition make_mut (w : world) (i k : nat) (f : list f32 -> res (list f32)) : res world :=
  do b <- handle w i;
  do a <- index (b_channels b) k;
  do data <- index (cells w) a;
  do data' <- f data;
  if strong_count w a =? 1
  then Ok (mk_world (update a (fun _ => data') (cells w)) (handles w))
  else let '(w1, a') := alloc w data' in
       Ok (set_handle w1 i (Some (mk_buffer (update k (fun _ => a') (b_channels b)) (b_rate b)))).

(** [make_mut] on every channel in turn, with the data of another list of channels *)
Fixpoint mutate_all (w : world) (i k : nat) (l : list (list f32 -> res (list f32))) : res world :=
  match l with
  | [] => Ok w
  | f :: l' => do w1 <- make_mut w i k f; mutate_all w1 i (S k) l'
  end.

(** Operations on the buffers of a program; [i], [j] are positions in [handles]. *)
Inductive bop :=
| B_new (channels length : nat) (sr : f32)                 (* AudioBuffer::new *)
| B_from (samples : list (list f32)) (sr : f32)            (* AudioBuffer::from *)
| B_clone (i : nat)
| B_drop (i : nat)
| B_copy_from (i : nat) (destination : list f32) (channel offset : nat)
| B_copy_to (i : nat) (source : list f32) (channel offset : nat)
| B_get (i channel : nat)                                  (* get_channel_data *)
| B_set (i channel : nat) (data : list f32)                (* writing through get_channel_data_mut *)
| B_extend (i j : nat)                                     (* internal *)
| B_split_off (i index : nat)                              (* internal; the result is a new buffer *)
| B_resample (i : nat) (sr : f32).                         (* internal *)

Definition get_channel (b : content) (channel : nat) : res (list f32) :=
  do _ <- check (channel <? length (c_channels b)); index (c_channels b) channel.

(** [split_off] of every channel: the channels keep the first part, the second parts are new vectors *)
Definition split_channel (index : nat) (data : list f32) : res (list f32) := do p <- split_at data index; Ok (fst p).
Definition split_rest (index : nat) (data : list f32) : res (list f32) := do p <- split_at data index; Ok (snd p).

(** One operation: the new world and the samples read, if any.  B_resample replaces all vectors
    by new ones (360-365) or only sets the rate. *)
Definition bstep (w : world) (o : bop) : res (world * list f32) :=
  match o with
  | B_new channels len sr =>                                                        (* 80-93 *)
      do _ <- check (is_valid_sample_rate sr);
      do _ <- check (0 <? len);
      do _ <- check (is_valid_number_of_channels channels);
      let '(w1, a) := alloc w (repeat f32_zero len) in
      Ok (add_handle w1 (mk_buffer (repeat a channels) sr), [])
  | B_from samples sr =>                                                            (* 106-119 *)
      do _ <- check (is_valid_sample_rate sr);
      do _ <- check (is_valid_number_of_channels (length samples));
      do _ <- check (forallb (fun c => length c =? length (hd [] samples)) samples);
      let '(w1, addrs) := alloc_all w samples in
      Ok (add_handle w1 (mk_buffer addrs sr), [])
  | B_clone i => do b <- handle w i; Ok (add_handle w b, [])
  | B_drop i => do b <- handle w i; Ok (set_handle w i None, [])
  | B_copy_from i destination channel offset =>
      do b <- handle w i; do d <- copy_from (contents w b) destination channel offset; Ok (w, d)
  | B_copy_to i source channel offset =>                                            (* 191-208 *)
      do b <- handle w i;
      do _ <- check (channel <? length (b_channels b));
      do w' <- make_mut w i channel (copy_to (c_length (contents w b)) source offset);
      Ok (w', [])
  | B_get i channel => do b <- handle w i; do d <- get_channel (contents w b) channel; Ok (w, d)
  | B_set i channel data =>                                                         (* 231-234 *)
      do b <- handle w i;
      do _ <- check (channel <? length (b_channels b));
      do w' <- make_mut w i channel (fun old => copy_to_slice old 0 (length old) data);
      Ok (w', [])
  | B_extend i j =>                                                                 (* 265-277 *)
      do b <- handle w i; do b2 <- handle w j;
      do _ <- check (negb (i =? j));
      do _ <- check (f32_eq (b_rate b) (b_rate b2));
      do _ <- check (length (b_channels b) =? length (b_channels b2));
      do w' <- mutate_all w i 0 (map (fun other old => Ok (old ++ other)) (c_channels (contents w b2)));
      Ok (w', [])
  | B_split_off i idx =>                                                            (* 280-292 *)
      do b <- handle w i;
      do rest <- map_res (split_rest idx) (c_channels (contents w b));
      do w1 <- mutate_all w i 0 (repeat (split_channel idx) (length (b_channels b)));
      let '(w2, addrs) := alloc_all w1 rest in
      Ok (add_handle w2 (mk_buffer addrs (b_rate b)), [])
  | B_resample i sr =>
      do b <- handle w i;
      do c <- resample (contents w b) sr;
      if (nearly_equal (b_rate b) sr || (c_length (contents w b) =? 0))%bool
      then Ok (set_handle w i (Some (mk_buffer (b_channels b) sr)), [])
      else let '(w1, addrs) := alloc_all w (c_channels c) in Ok (set_handle w1 i (Some (mk_buffer addrs sr)), [])
  end.

Fixpoint brun (w : world) (os : list bop) : res (world * list (list f32)) :=
  match os with
  | [] => Ok (w, [])
  | o :: os' => do r <- bstep w o; do r' <- brun (fst r) os'; Ok (fst r', snd r :: snd r')
  end.

(** ** Re-chunking (resampling.rs 42-110) *)

(** what the wrapped stream yields *)
Inductive item := Data (b : content) | Fails.
(** the state: what is left of the stream, and the kept rest of a buffer *)
Record rechunk := mk_rechunk { r_input : list item; r_buffer : option content }.

(** buffer.rs 265-277 on values *)
Definition extend_content (b other : content) : res content :=
  do _ <- check (f32_eq (c_rate b) (c_rate other));
  do _ <- check (length (c_channels b) =? length (c_channels other));
  Ok (mk_content (map (fun p => fst p ++ snd p) (combine (c_channels b) (c_channels other))) (c_rate b)).
Definition new_content (channels len : nat) (sr : f32) : res content :=
  do _ <- check (is_valid_sample_rate sr);
  do _ <- check (0 <? len);
  do _ <- check (is_valid_number_of_channels channels);
  Ok (mk_content (repeat (repeat f32_zero len) channels) sr).

(** [Next None] = the end of the stream, [Next (Some None)] = an error is passed on *)
Definition next_result : Type := option (option content).

(** the loop 82-101 and the rest of [next] *)
Fixpoint fill (sr : f32) (len : nat) (buffer : content) (input : list item) : res (next_result * rechunk) :=
  if c_length buffer <? len then
    match input with
    | [] =>
        do padding <- new_content (length (c_channels buffer)) (len - c_length buffer) sr;
        do b <- extend_content buffer padding;
        Ok (Some (Some b), mk_rechunk [] None)
    | Fails :: input' => Ok (Some None, mk_rechunk input' None)
    | Data d :: input' =>
        do d' <- resample d sr;
        do b <- extend_content buffer d';
        fill sr len b input'
    end
  else if c_length buffer =? len then Ok (Some (Some buffer), mk_rechunk input None)
  else
    do first <- map_res (split_channel len) (c_channels buffer);
    do rest <- map_res (split_rest len) (c_channels buffer);
    Ok (Some (Some (mk_content first (c_rate buffer))), mk_rechunk input (Some (mk_content rest (c_rate buffer)))).

(** resampling.rs 66-80: [next] *)
Definition next (sr : f32) (len : nat) (s : rechunk) : res (next_result * rechunk) :=
  match r_buffer s with
  | Some b => fill sr len b (r_input s)
  | None =>
      match r_input s with
      | [] => Ok (None, s)
      | Fails :: input => Ok (Some None, mk_rechunk input None)
      | Data d :: input => do d' <- resample d sr; fill sr len d' input
      end
  end.

(** calling [next] until the end of the stream *)
Fixpoint drain (fuel : nat) (sr : f32) (len : nat) (s : rechunk) : res (list (option content)) :=
  match fuel with
  | 0 => Stuck
  | S fuel' =>
      do r <- next sr len s;
      match fst r with
      | None => Ok []
      | Some c => do cs <- drain fuel' sr len (snd r); Ok (c :: cs)
      end
  end.
