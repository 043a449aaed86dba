(** Model of the AnalyserNode: the ring buffer shared by the renderer and the control thread, and the analysis.

    Source: /repo/src/analysis.rs 12-403, /repo/src/node/analyser.rs 108-141, 255-290. *)
From Coq Require Import List Arith Bool ZArith.
From Verif Require Export Common_Model Quantum_Model.
From Verif Require Import Arith_Model Route_Spec.
Import ListNotations.

(** analysis.rs 31-32, 77 *)
Definition min_fft_size : nat := 32.
Definition max_fft_size : nat := Z.to_nat 32768.
Definition ring_buffer_size : nat := Z.to_nat (32768 + 128).

Section Ring.
Context {V : Type}.
Variable size : nat.
(** analysis.rs 81-84 *)
Record ring := mk_ring { g_buffer : list V; g_index : nat }.
(** 87-95 *)
Definition ring_new (zero : V) : ring := mk_ring (repeat zero size) 0.
(** 101-104; [i] is [write_index + index] *)
Fixpoint ring_store (src : list V) (i : nat) (buffer : list V) : res (list V) :=
  match src with
  | [] => Ok buffer
  | x :: src' => do _ <- check (0 <? size); do b <- store buffer (i mod size) x; ring_store src' (S i) b
  end.
(** 106-110 *)
Definition advance (i : nat) : nat := if size <=? i then i - size else i.
(** 97-113, without other threads in between *)
Definition ring_write (r : ring) (src : list V) : res ring :=
  do b <- ring_store src (g_index r) (g_buffer r);
  Ok (mk_ring b (advance (g_index r + length src))).
(** 125: the position of a sample; the subtraction overflows if [len] is too large *)
Definition ring_position (write_index len i : nat) : res nat :=
  do _ <- check ((0 <? size) && (len <=? size + write_index));
  Ok ((size + write_index - len + i) mod size).
Definition ring_load (buffer : list V) (write_index len i : nat) : res V :=
  do p <- ring_position write_index len i; index buffer p.
(** 115-128, without other threads in between *)
Definition ring_read (r : ring) (dst : list V) (max_len : nat) : res (list V) :=
  let len := min (length dst) max_len in
  do xs <- map_res (ring_load (g_buffer r) (g_index r) len) (seq 0 len);
  Ok (xs ++ skipn len dst).

(** The same, with the two threads taking turns: each step is one access to the shared memory,
    and these are sequentially consistent (simplification: the samples use Relaxed). *)
Record writer_state := mk_writer {
  w_todo : list (list V);                     (* the quanta still to write *)
  w_done : list (list V);                     (* those written, for the statements only *)
  w_now : option (nat * list V * list V)      (* line 98: the index loaded, samples stored, samples left *)
}.
Record reader_state := mk_reader { d_index : option nat; d_got : list V }.   (* line 116; lines 121-127 *)
Record threads := mk_threads { h_ring : ring; h_writer : writer_state; h_reader : reader_state }.
Inductive turn := Writer | Reader.
Definition writer_step (r : ring) (w : writer_state) : res (ring * writer_state) :=
  match w_now w with
  | None =>
      match w_todo w with
      | [] => Ok (r, w)
      | q :: qs => Ok (r, mk_writer qs (w_done w) (Some (g_index r, [], q)))
      end
  | Some (i, stored, x :: rest) =>
      do _ <- check (0 <? size);
      do b <- store (g_buffer r) ((i + length stored) mod size) x;
      Ok (mk_ring b (g_index r), mk_writer (w_todo w) (w_done w) (Some (i, stored ++ [x], rest)))
  | Some (i, stored, []) => Ok (mk_ring (g_buffer r) (advance (i + length stored)), mk_writer (w_todo w) (w_done w ++ [stored]) None)
  end.
Definition reader_step (len : nat) (r : ring) (d : reader_state) : res reader_state :=
  match d_index d with
  | None => Ok (mk_reader (Some (g_index r)) [])
  | Some i =>
      if length (d_got d) <? len then
        do x <- ring_load (g_buffer r) i len (length (d_got d));
        Ok (mk_reader (Some i) (d_got d ++ [x]))
      else Ok d
  end.
Definition thread_step (len : nat) (h : threads) (t : turn) : res threads :=
  match t with
  | Writer => do (r, w) <- writer_step (h_ring h) (h_writer h); Ok (mk_threads r w (h_reader h))
  | Reader => do d <- reader_step len (h_ring h) (h_reader h); Ok (mk_threads (h_ring h) (h_writer h) d)
  end.
Definition threads_run (len : nat) : threads -> list turn -> res threads := fold_res (thread_step len).
Definition threads_new (zero : V) (quanta : list (list V)) : threads := mk_threads (ring_new zero) (mk_writer quanta [] None) (mk_reader None []).
End Ring.
Arguments mk_ring {V}. Arguments g_buffer {V}. Arguments g_index {V}.
Arguments mk_writer {V}. Arguments w_todo {V}. Arguments w_done {V}. Arguments w_now {V}.
Arguments mk_reader {V}. Arguments d_index {V}. Arguments d_got {V}.
Arguments mk_threads {V}. Arguments h_ring {V}. Arguments h_writer {V}. Arguments h_reader {V}.

Section Analyser.
Context {T V : Type}.
Variable A : arith T V.
(** the transform of the realfft crate: the bins 0 to n/2 of a list of n samples *)
Variable fft : list V -> list (V * V).
Notation "x +! y" := (v_add A x y) (at level 50, left associativity).
Notation "x -! y" := (v_sub A x y) (at level 50, left associativity).
Notation "x *! y" := (v_mul A x y) (at level 40, left associativity).
Notation "x /! y" := (v_div A x y) (at level 40, left associativity).
Notation "# n" := (v_of_Z A n) (at level 5).

(** analysis.rs 13-24: [alpha] and the coefficients are f32 *)
Definition blackman (n : nat) : list V :=
  let alpha := v_frac A 16 100 in
  let a0 := (#1 -! alpha) /! #2 in
  let a1 := #1 /! #2 in
  let a2 := alpha /! #2 in
  let angle k i := #k *! v_PI A *! #(Z.of_nat i) /! #(Z.of_nat n) in
  map (fun i => a0 -! a1 *! v_cos A (angle 2%Z i) +! a2 *! v_cos A (angle 4%Z i)) (seq 0 n).

(** usize::is_power_of_two *)
Definition is_power_of_two (n : nat) : bool := (0 <? n) && (n =? 2 ^ Nat.log2 n).
(** 37-51 *)
Definition valid_fft_size (n : nat) : bool := is_power_of_two n && (min_fft_size <=? n) && (n <=? max_fft_size).
(** 56-62 *)
Definition valid_smoothing (x : T) : bool := t_le A (t_zero A) x && t_le A x (t_one A).
(** 66-72 *)
Definition valid_decibels (min max : T) : bool := t_lt A min max.

(** 144-157, without the buffers of the transform.  [y_time] is None for NEG_INFINITY: the time is finite *)
Record analyser := mk_analyser { y_ring : ring (V := V); y_fft : nat; y_smoothing : T; y_min : T; y_max : T; y_last : list V; y_time : option T; y_window : list V }.
(** 171-200 *)
Definition analyser_new : analyser :=
  mk_analyser (ring_new ring_buffer_size (v_zero A)) 2048 (t_frac A 8 10) (t_of_Z A (-100)) (t_of_Z A (-30)) (repeat (v_zero A) (max_fft_size / 2 + 1)) None (blackman 2048).
(** 210-224 *)
Definition set_fft_size (y : analyser) (n : nat) : res analyser :=
  do _ <- check (valid_fft_size n);
  if y_fft y =? n then Ok y
  else Ok (mk_analyser (y_ring y) n (y_smoothing y) (y_min y) (y_max y) (map (fun _ => v_zero A) (y_last y)) (y_time y) (blackman n)).
(** 230-233 *)
Definition set_smoothing (y : analyser) (x : T) : res analyser :=
  do _ <- check (valid_smoothing x);
  Ok (mk_analyser (y_ring y) (y_fft y) x (y_min y) (y_max y) (y_last y) (y_time y) (y_window y)).
(** 243-249; analyser.rs 194-196, 213-215 *)
Definition set_decibels (y : analyser) (min max : T) : res analyser :=
  do _ <- check (valid_decibels min max);
  Ok (mk_analyser (y_ring y) (y_fft y) (y_smoothing y) min max (y_last y) (y_time y) (y_window y)).
Definition set_min_decibels (y : analyser) (x : T) : res analyser := set_decibels y x (y_max y).
Definition set_max_decibels (y : analyser) (x : T) : res analyser := set_decibels y (y_min y) x.
(** analyser.rs 109-141 *)
Definition analyser_create (fft_size : nat) (smoothing min max : T) : res analyser :=
  do y <- set_fft_size analyser_new fft_size;
  do y <- set_smoothing y smoothing;
  set_decibels y min max.

(** 260-263 *)
Definition get_float_time (y : analyser) (dst : list V) : res (list V) := ring_read ring_buffer_size (y_ring y) dst (y_fft y).
(** [x.clamp(0., 255.) as u8]: NaN gives 0 *)
Definition clamp_u8 (x : V) : Z :=
  let x := if v_lt A x #0 then #0 else x in
  let x := if v_lt A #255 x then #255 else x in
  Z.min 255 (v_to_Z A x).
(** 270-274 *)
Definition byte_of_sample (x : V) : Z := clamp_u8 (#128 *! (#1 +! x)).
(** 265-275 *)
Definition get_byte_time (y : analyser) (dst : list Z) : res (list Z) :=
  do tmp <- ring_read ring_buffer_size (y_ring y) (repeat (v_zero A) (length dst)) (y_fft y);
  Ok (zip_mut (fun _ i => byte_of_sample i) dst tmp).

(** 327-337: one bin *)
Definition smooth (smoothing : V) (scale : V) (o : V) (c : V * V) : V :=
  let norm := v_hypot A (fst c) (snd c) *! scale in
  let value := smoothing *! o +! (#1 -! smoothing) *! norm in
  if v_finite A value then value else #0.
(** 277-338 *)
Definition compute_fft (y : analyser) : res analyser :=
  let n := y_fft y in
  let smoothing := v_of_t A (y_smoothing y) in
  do input <- slice (repeat (v_zero A) max_fft_size) 0 n;
  do last <- slice (y_last y) 0 (n / 2);
  do input <- ring_read ring_buffer_size (y_ring y) input n;
  let output := fft (zip_mut (v_mul A) input (y_window y)) in
  let scale := #1 /! #(Z.of_nat n) in
  let last := zip_mut (smooth smoothing scale) last output in
  Ok (mk_analyser (y_ring y) n (y_smoothing y) (y_min y) (y_max y) (last ++ skipn (n / 2) (y_last y)) (y_time y) (y_window y)).
(** 347-350, 378-381 *)
Definition update_fft (y : analyser) (now : T) : res analyser :=
  match y_time y with
  | Some t => if t_eq A now t then Ok y else do y <- compute_fft y; Ok (mk_analyser (y_ring y) (y_fft y) (y_smoothing y) (y_min y) (y_max y) (y_last y) (Some now) (y_window y))
  | None => do y <- compute_fft y; Ok (mk_analyser (y_ring y) (y_fft y) (y_smoothing y) (y_min y) (y_max y) (y_last y) (Some now) (y_window y))
  end.
(** 340-362 *)
Definition get_float_frequency (y : analyser) (dst : list V) (now : T) : res (analyser * list V) :=
  do y <- update_fft y now;
  let len := min (length dst) (y_fft y / 2) in
  Ok (y, zip_mut (fun _ b => #20 *! v_log10 A b) (firstn len dst) (y_last y) ++ skipn len dst).
(** 393-400 *)
Definition byte_of_level (min max : V) (b : V) : Z :=
  let db := #20 *! v_log10 A b in
  clamp_u8 (#255 /! (max -! min) *! (db -! min)).
(** 364-402 *)
Definition get_byte_frequency (y : analyser) (dst : list Z) (now : T) : res (analyser * list Z) :=
  do y <- update_fft y now;
  let len := min (length dst) (y_fft y / 2) in
  Ok (y, zip_mut (fun _ b => byte_of_level (v_of_t A (y_min y)) (v_of_t A (y_max y)) b) (firstn len dst) (y_last y) ++ skipn len dst).

(** analyser.rs 260-290: the output, the ring buffer and whether there is more to come *)
Definition analyser_quantum (size : nat) (s : nat) (input : list (chan V)) (r : ring (V := V)) : res (list (chan V) * ring (V := V) * bool) :=
  do (_, mono) <- from_option (mix (sops_of A) size s input 1 Speakers);
  do c <- index mono 0;
  do r <- ring_write ring_buffer_size r (c_val c);
  Ok (input, r, false).

(** what happens to an analyser, in any order *)
Inductive analyser_op :=
| Render (s : nat) (input : list (chan V))
| SetFftSize (n : nat) | SetSmoothing (x : T) | SetDecibels (min max : T) | SetMin (x : T) | SetMax (x : T)
| FloatTime (dst : list V) | ByteTime (dst : list Z) | FloatFrequency (dst : list V) (now : T) | ByteFrequency (dst : list Z) (now : T).
Inductive analyser_result := Rendered (output : list (chan V)) | Set_ | Floats (l : list V) | Bytes (l : list Z) | Rejected.
(** a setter that panics leaves the analyser as it is: the check comes first *)
Definition setting (y : analyser) (r : res analyser) : res (analyser * analyser_result) :=
  match r with Ok y' => Ok (y', Set_) | Panic => Ok (y, Rejected) | Stuck => Stuck end.
Definition with_ring (y : analyser) (r : ring) : analyser := mk_analyser r (y_fft y) (y_smoothing y) (y_min y) (y_max y) (y_last y) (y_time y) (y_window y).
Definition analyser_step (size : nat) (y : analyser) (o : analyser_op) : res (analyser * analyser_result) :=
  match o with
  | Render s input => do (out, r, _) <- analyser_quantum size s input (y_ring y); Ok (with_ring y r, Rendered out)
  | SetFftSize n => setting y (set_fft_size y n)
  | SetSmoothing x => setting y (set_smoothing y x)
  | SetDecibels a b => setting y (set_decibels y a b)
  | SetMin x => setting y (set_min_decibels y x)
  | SetMax x => setting y (set_max_decibels y x)
  | FloatTime dst => do l <- get_float_time y dst; Ok (y, Floats l)
  | ByteTime dst => do l <- get_byte_time y dst; Ok (y, Bytes l)
  | FloatFrequency dst now => do (y, l) <- get_float_frequency y dst now; Ok (y, Floats l)
  | ByteFrequency dst now => do (y, l) <- get_byte_frequency y dst now; Ok (y, Bytes l)
  end.
Fixpoint analyser_run (size : nat) (y : analyser) (os : list analyser_op) : res (analyser * list analyser_result) :=
  match os with
  | [] => Ok (y, [])
  | o :: os' => do (y, r) <- analyser_step size y o; do (y, rs) <- analyser_run size y os'; Ok (y, r :: rs)
  end.
End Analyser.
Arguments mk_analyser {T V}. Arguments y_ring {T V}. Arguments y_fft {T V}. Arguments y_smoothing {T V}. Arguments y_min {T V}. Arguments y_max {T V}. Arguments y_last {T V}. Arguments y_time {T V}. Arguments y_window {T V}.
