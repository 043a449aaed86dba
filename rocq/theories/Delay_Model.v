(** Model of the DelayNode: the writer and the reader that share a ring buffer of quanta.

    Source: /repo/src/node/delay.rs 291-743.  The arithmetic is abstract (Arith_Model.v).  A quantum is the
    list of its channels; [remix n] is the speaker mixing to [n] channels (Quantum_Model.v). *)
From Coq Require Import List Arith Bool ZArith.
From Verif Require Export Common_Model.
From Verif Require Import Arith_Model Source_Model.
Import ListNotations.

Section Delay.
Context {T V : Type}.
Variable A : arith T V.
(** sample rate of the context *)
Variable sr : V.
Variable remix : nat -> list (list V) -> list (list V).

Definition block : Type := list (list V).
(** AudioRenderQuantum::make_silent *)
Definition silent_block : block := [repeat (v_zero A) RQ].

(** 300-302: capacity of the ring buffer (Vec::with_capacity allocates this size exactly; simplification) *)
Definition ring_size (max_delay_time : T) : nat :=
  Z.to_nat (t_to_Z A (t_ceil A (t_div A (t_mul A max_delay_time (t_of_v A sr)) (t_of_Z A (Z.of_nat RQ))))) + 1.

(** 376-381 DelayWriter, 479-488 DelayReader; the ring buffer is shared *)
Record delay := mk_delay {
  d_ring : list block; d_capacity : nat;
  d_windex : nat; d_latest : option Z;            (* None: u64::MAX *)
  d_rindex : nat; d_in_cycle : bool; d_last : option nat; d_checked : option nat
}.
Definition delay_new (capacity : nat) : delay := mk_delay [] capacity 0 None 0 false None None.

(** 390-407 check_ring_buffer_size *)
Definition fill_ring (s : delay) : list block :=
  if length (d_ring s) <? d_capacity s then d_ring s ++ repeat silent_block (d_capacity s - length (d_ring s)) else d_ring s.

(** 429-461, 468-486: the writer's quantum *)
Definition writer (s : delay) (input : block) (frame : Z) : res delay :=
  let ring := fill_ring s in
  do first <- index ring 0;
  let ring := if length first =? length input then ring else map (remix (length input)) ring in
  do ring <- store ring (d_windex s) input;
  do _ <- check (0 <? d_capacity s);
  Ok (mk_delay ring (d_capacity s) ((d_windex s + 1) mod d_capacity s) (Some frame) (d_rindex s) (d_in_cycle s) (d_last s) (d_checked s)).

(** 409-419 drop of the writer *)
Definition drop_writer (s : delay) : delay :=
  mk_delay (d_ring s) (d_capacity s) (d_windex s) (d_latest s) (d_rindex s) (d_in_cycle s)
    (Some (if d_windex s =? 0 then d_capacity s - 1 else d_windex s - 1)) (d_checked s).

(** 682-742 get_playback_infos: block, frame in the block, interpolation factor.  The two integers are i32. *)
Definition infos (d : T) (in_cycle : bool) (sample_index quantum_duration sample_rate : T) (size rindex : Z) : Z * Z * V :=
  let clamped := if in_cycle then t_max A d quantum_duration else d in
  let position := t_sub A sample_index (t_mul A clamped sample_rate) in
  let floored := t_floor A position in
  let block_offset := t_floor A (t_div A floored (t_of_Z A 128)) in
  let b := (rindex + t_to_i32 A block_offset)%Z in
  let b := if (b <? 0)%Z then (b + size)%Z else b in
  let offset := Z.rem (t_to_i32 A floored) 128 in
  let offset := if (offset =? 0)%Z then (-128)%Z else offset in
  let f := if (offset <=? 0)%Z then (128 + offset)%Z else offset in
  (b, f, v_of_t A (t_sub A position floored)).

(** 550-567: the next sample of a constant delay; also 619-626 *)
Definition next_address (size : Z) (b f : Z) : Z * Z := if (128 <=? f + 1)%Z then ((b + 1) mod size, 0)%Z else (b, (f + 1)%Z).
Fixpoint constant_infos (size : Z) (n : nat) (i : Z * Z * V) : list (Z * Z * V) :=
  match n with
  | 0 => []
  | S n' => let '(b, f, k) := i in i :: constant_infos size n' (fst (next_address size b f), snd (next_address size b f), k)
  end.
(** 533-588 *)
Definition all_infos (delays : list V) (in_cycle : bool) (size rindex : Z) : list (Z * Z * V) :=
  let rate := t_of_v A sr in
  let quantum_duration := t_mul A (t_of_Z A (Z.of_nat RQ)) (dt A sr) in
  match delays with
  | [d] => constant_infos size RQ (infos (t_of_v A d) in_cycle (t_zero A) quantum_duration rate size rindex)
  | _ => map (fun p => infos (t_of_v A (snd p)) in_cycle (t_of_Z A (Z.of_nat (fst p))) quantum_duration rate size rindex) (combine (seq 0 RQ) delays)
  end.

(** a negative i32 cast to usize is out of bounds *)
Definition index_i32 {X} (l : list X) (i : Z) : res X := if ((0 <=? i) && (i <? Z.of_nat (length l)))%Z then index l (Z.to_nat i) else Panic.
Definition ring_sample (ring : list block) (b f : Z) (channel : nat) : res V :=
  do q <- index_i32 ring b; do ch <- index q channel; index_i32 ch f.
(** 597-655: one sample *)
Definition read_sample (ring : list block) (channel : nat) (i : Z * Z * V) : res V :=
  let '(b, f, k) := i in
  let '(b', f') := next_address (Z.of_nat (length ring)) b f in
  do prev <- ring_sample ring b f channel;
  do next <- ring_sample ring b' f' channel;
  Ok (v_fma A (v_sub A (v_one A) k) prev (v_mul A k next)).

(** 503-678: the reader's quantum; the result is the output and whether the reader stays alive *)
Definition reader (s : delay) (delays : list V) (frame : Z) : res (delay * (block * bool)) :=
  let ring := fill_ring s in
  do first <- index ring 0;
  let in_cycle := d_in_cycle s || negb (match d_latest s with Some f => (f =? frame)%Z | None => false end) in
  let is := all_infos delays in_cycle (Z.of_nat (length ring)) (Z.of_nat (d_rindex s)) in
  do chs <- map_res (fun c => map_res (read_sample ring c) is) (seq 0 (length first));
  let out := if existsb (existsb (v_normal A)) chs then chs else silent_block in
  if match d_checked s with Some i => i =? d_rindex s | None => false end then
    Ok (mk_delay ring (d_capacity s) (d_windex s) (d_latest s) (d_rindex s) in_cycle (d_last s) (d_checked s), (out, false))
  else
    do _ <- check (0 <? d_capacity s);
    Ok (mk_delay ring (d_capacity s) (d_windex s) (d_latest s) ((d_rindex s + 1) mod d_capacity s) in_cycle (d_last s)
          (match d_checked s with Some i => Some i | None => d_last s end), (out, true)).

(** A quantum: the graph renders the writer before the reader, unless it broke a cycle (mark_cycle_breaker);
    the writer is gone after it has been dropped.  The graph leaves out the reader in a quantum in which it is
    muted, as part of a cycle that does not go through the writer (graph.rs 340-360, 476). *)
Inductive delay_action :=
  | D_both (input : block) (reader_first : bool) (delays : list V)
  | D_reader (delays : list V)
  | D_writer (input : block)
  | D_drop.
Definition delay_step (s : delay) (frame : Z) (a : delay_action) : res (delay * list (block * bool)) :=
  match a with
  | D_both input false delays => do s <- writer s input frame; do r <- reader s delays frame; Ok (fst r, [snd r])
  | D_both input true delays => do r <- reader s delays frame; do s <- writer (fst r) input frame; Ok (s, [snd r])
  | D_reader delays => do r <- reader s delays frame; Ok (fst r, [snd r])
  | D_writer input => do s <- writer s input frame; Ok (s, [])
  | D_drop => Ok (drop_writer s, [])
  end.
Fixpoint delay_run (s : delay) (frame : Z) (l : list delay_action) : res (delay * list (block * bool)) :=
  match l with
  | [] => Ok (s, [])
  | a :: l' =>
      do r <- delay_step s frame a;
      do r' <- delay_run (fst r) (match a with D_drop => frame | _ => frame + Z.of_nat RQ end)%Z l';
      Ok (fst r', snd r ++ snd r')
  end.
End Delay.
