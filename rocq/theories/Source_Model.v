(** Model of the scheduled sources ConstantSourceNode and OscillatorNode.

    Source: /repo/src/node/constant_source.rs 183-288, /repo/src/node/oscillator.rs 16-35,
    341-676.  The arithmetic is abstract (Arith_Model.v).  The parameters' values of a
    quantum are inputs: lists of 1 or 128 values, see Param_Model.v.  Outputs are mono:
    the list of the 128 samples. *)
From Coq Require Import List Arith Bool ZArith.
From Verif Require Export Common_Model.
From Verif Require Import Arith_Model.
Import ListNotations.

(** RENDER_QUANTUM_SIZE, lib.rs 15 *)
Definition RQ : nat := 128.

Section Sources.
Context {T V : Type}.
Variable A : arith T V.
(** sample rate of the context *)
Variable sr : V.

(** thread.rs 375, 452: the time of a quantum, from the number of frames before it *)
Definition block_time (frame : Z) : T := t_div A (t_of_Z A frame) (t_of_v A sr).
(** constant_source.rs 201-202, oscillator.rs 389-392 *)
Definition dt : T := t_div A (t_one A) (t_of_v A sr).
Definition next_block_time (frame : Z) : T := t_add A (block_time frame) (t_mul A dt (t_of_Z A (Z.of_nat RQ))).

(** iter().cycle(): value [i] of a parameter; the list is not empty *)
Definition cycle (values : list V) (i : nat) : V := nth (i mod length values) values (v_zero A).
Definition silence : list V := repeat (v_zero A) RQ.

(** ** Constant source *)

(** constant_source.rs 183-188 *)
Record csource := mk_csource { cs_start : T; cs_stop : T; cs_ended : bool }.
(** 155-160 *)
Definition cs_new : csource := mk_csource (t_MAX A) (t_MAX A) false.

(** the outcome of a quantum: the output, the return value (tail time), and whether the ended event is sent *)
Record outcome := mk_outcome { o_output : list V; o_tail : bool; o_event : bool }.

(** 239-255: the samples from frame [i] on *)
Fixpoint cs_samples (n i : nat) (time : T) (start stop : T) (offset : list V) : list V :=
  match n with
  | 0 => []
  | S n' => (if t_lt A time start || t_le A stop time then v_zero A else cycle offset i)
            :: cs_samples n' (S i) (t_add A time dt) start stop offset
  end.

(** 190-270 *)
Definition cs_process (s : csource) (frame : Z) (offset : list V) : csource * outcome :=
  let current_time := block_time frame in
  let next := next_block_time frame in
  let ended := mk_csource (cs_start s) (cs_stop s) true in
  if t_le A next (cs_start s) then
    if t_le A (cs_stop s) next then (ended, mk_outcome silence false (negb (cs_ended s)))
    else (s, mk_outcome silence (negb (t_eq A (cs_start s) (t_MAX A))) false)
  else
    let output :=
      if (length offset =? 1) && t_le A (cs_start s) current_time && t_le A next (cs_stop s)
      then repeat (cycle offset 0) RQ
      else cs_samples RQ 0 current_time (cs_start s) (cs_stop s) offset in
    if t_lt A next (cs_stop s) then (s, mk_outcome output true false)
    else (ended, mk_outcome output false (negb (cs_ended s))).

(** 281-288 before_drop: whether the event is sent *)
Definition cs_before_drop (s : csource) (frame : Z) : bool :=
  negb (cs_ended s) && (t_le A (cs_start s) (block_time frame) || t_le A (cs_stop s) (block_time frame)).

(** What happens to a source: messages (272-279) and quanta.  The clock advances with each quantum. *)
Inductive cs_action := Start (when : T) | Stop (when : T) | Quantum (offset : list V).
Fixpoint cs_run (s : csource) (frame : Z) (l : list cs_action) : csource * Z * list outcome :=
  match l with
  | [] => (s, frame, [])
  | Start v :: l' => cs_run (mk_csource v (cs_stop s) (cs_ended s)) frame l'
  | Stop v :: l' => cs_run (mk_csource (cs_start s) v (cs_ended s)) frame l'
  | Quantum offset :: l' =>
      let '(s1, o) := cs_process s frame offset in
      let '(s2, f2, os) := cs_run s1 (frame + Z.of_nat RQ) l' in (s2, f2, o :: os)
  end.
(** the ended events of a source that is finally dropped *)
Definition cs_events (s : csource) (frame : Z) (l : list cs_action) : nat :=
  let '(s', f', os) := cs_run s frame l in
  length (filter o_event os) + (if cs_before_drop s' f' then 1 else 0).

(** ** Oscillator *)

Inductive wave_type := Sine | Square | Sawtooth | Triangle | Custom.
(** oscillator.rs 341-365 *)
Record osc := mk_osc {
  os_type : wave_type; os_phase : T; os_start : T; os_stop : T; os_started : bool; os_wave : option (list V); os_ended : bool
}.
Definition with_phase (s : osc) (p : T) : osc := mk_osc (os_type s) p (os_start s) (os_stop s) (os_started s) (os_wave s) (os_ended s).
Definition with_start (s : osc) (t : T) : osc := mk_osc (os_type s) (os_phase s) t (os_stop s) (os_started s) (os_wave s) (os_ended s).
Definition with_stop (s : osc) (t : T) : osc := mk_osc (os_type s) (os_phase s) (os_start s) t (os_started s) (os_wave s) (os_ended s).
Definition with_started (s : osc) : osc := mk_osc (os_type s) (os_phase s) (os_start s) (os_stop s) true (os_wave s) (os_ended s).
Definition with_ended (s : osc) : osc := mk_osc (os_type s) (os_phase s) (os_start s) (os_stop s) (os_started s) (os_wave s) true.
(** 222-252: a new oscillator *)
Definition osc_new (ty : wave_type) : osc := mk_osc ty (t_zero A) (t_MAX A) (t_MAX A) false None false.

(** 20-28: the sine table is computed with f32::sin and not modelled *)
Variable sine_table : list V.

(** 33-35 *)
Definition computed_freq (freq detune : V) : T := t_mul A (t_of_v A freq) (t_exp2 A (t_div A (t_of_v A detune) (t_of_Z A 1200))).

(** 659-669 *)
Definition unroll_phase (p : T) : T :=
  if t_le A (t_one A) p then t_sub A p (t_one A) else if t_lt A p (t_zero A) then t_add A p (t_one A) else p.
(** 671-674: f64::rem_euclid *)
Definition unroll_unbounded (p : T) : T :=
  let r := t_rem1 A p in if t_lt A r (t_zero A) then t_add A r (t_one A) else r.

(** 571-586, 622-638: linear interpolation in a table *)
Definition table_sample (table : list V) (phase : T) : res V :=
  let position := t_mul A phase (t_of_Z A (Z.of_nat (length table))) in
  let floored := t_floor A position in
  let prev_index := t_to_Z A floored in
  let next_index := if (prev_index + 1 =? Z.of_nat (length table))%Z then 0%Z else (prev_index + 1)%Z in
  let k := v_of_t A (t_sub A position floored) in
  do prev <- index table (Z.to_nat prev_index);
  do next <- index table (Z.to_nat next_index);
  Ok (v_fma A prev (v_sub A (v_one A) k) (v_mul A next k)).

(** 646-657 (not in tests) *)
Definition poly_blep (t dt : T) : T :=
  if t_lt A t dt then
    let t := t_div A t dt in t_sub A (t_sub A (t_add A t t) (t_mul A t t)) (t_one A)
  else if t_lt A (t_sub A (t_one A) dt) t then
    let t := t_div A (t_sub A t (t_one A)) dt in t_add A (t_add A (t_fma A t t t) t) (t_one A)
  else t_zero A.

(** 588-596 *)
Definition sawtooth_sample (phase incr : T) : V :=
  let phase := unroll_phase (t_add A phase (t_frac A 1 2)) in
  v_of_t A (t_sub A (t_sub A (t_mul A (t_of_Z A 2) phase) (t_one A)) (poly_blep phase incr)).
(** 598-607 *)
Definition square_sample (phase incr : T) : V :=
  let sample := if t_lt A phase (t_frac A 1 2) then t_one A else t_of_Z A (-1) in
  let sample := t_add A sample (poly_blep phase incr) in
  let shift_phase := unroll_phase (t_add A phase (t_frac A 1 2)) in
  v_of_t A (t_sub A sample (poly_blep shift_phase incr)).
(** 609-620 *)
Definition triangle_sample (phase : T) : V :=
  let sample := t_add A (t_mul A (t_of_Z A (-4)) phase) (t_of_Z A 2) in
  v_of_t A (if t_lt A (t_one A) sample then t_sub A (t_of_Z A 2) sample
            else if t_lt A sample (t_of_Z A (-1)) then t_sub A (t_of_Z A (-2)) sample else sample).

(** 558-567 *)
Definition waveform_sample (s : osc) (incr : T) : res V :=
  match os_type s with
  | Sine => table_sample sine_table (os_phase s)
  | Sawtooth => Ok (sawtooth_sample (os_phase s) incr)
  | Square => Ok (square_sample (os_phase s) incr)
  | Triangle => Ok (triangle_sample (os_phase s))
  | Custom => do w <- from_option (os_wave s); table_sample w (os_phase s)
  end.

Definition unroll (outside : bool) (p : T) : T := if outside then unroll_unbounded p else unroll_phase p.

(** 510-556 *)
Definition generate_sample (s : osc) (outside : bool) (incr : T) (time : T) : res (osc * V) :=
  if t_lt A time (os_start s) || t_le A (os_stop s) time then Ok (s, v_zero A)
  else
    let s1 :=
      if os_started s then s
      else with_started
        (if t_lt A (os_start s) time
         then with_phase s (unroll outside (t_mul A incr (t_div A (t_sub A time (os_start s)) dt)))
         else s) in
    do v <- if outside then Ok (v_zero A) else waveform_sample s1 incr;
    Ok (with_phase s1 (unroll outside (t_add A (os_phase s1) incr)), v).

(** 441-452 *)
Fixpoint osc_fast (n : nat) (s : osc) (incr : T) : res (osc * list V) :=
  match n with
  | 0 => Ok (s, [])
  | S n' =>
      do v <- waveform_sample s incr;
      do r <- osc_fast n' (with_phase s (unroll_phase (t_add A (os_phase s) incr))) incr;
      Ok (fst r, v :: snd r)
  end.
(** 453-472, for scalar parameters as well *)
Fixpoint osc_slow (n i : nat) (s : osc) (freq detune : list V) (time : T) : res (osc * list V) :=
  match n with
  | 0 => Ok (s, [])
  | S n' =>
      let f := computed_freq (cycle freq i) (cycle detune i) in
      let incr := t_div A f (t_of_v A sr) in
      let outside := t_le A (t_div A (t_of_v A sr) (t_of_Z A 2)) (t_abs A f) in
      do r <- generate_sample s outside incr time;
      do r' <- osc_slow n' (S i) (fst r) freq detune (t_add A time dt);
      Ok (fst r', snd r :: snd r')
  end.

(** 378-483 *)
Definition osc_process (s : osc) (frame : Z) (freq detune : list V) : res (osc * outcome) :=
  let current_time := block_time frame in
  let next := next_block_time frame in
  if t_le A (os_stop s) current_time then Ok (with_ended s, mk_outcome silence false (negb (os_ended s)))
  else if t_le A next (os_start s) then
    if t_le A (os_stop s) next then Ok (with_ended s, mk_outcome silence false (negb (os_ended s)))
    else Ok (s, mk_outcome silence (negb (t_eq A (os_start s) (t_MAX A))) false)
  else
    let s1 := if negb (os_started s) && t_lt A (os_start s) current_time then with_start s current_time else s in
    let f := computed_freq (cycle freq 0) (cycle detune 0) in
    let incr := t_div A f (t_of_v A sr) in
    let outside := t_le A (t_div A (t_of_v A sr) (t_of_Z A 2)) (t_abs A f) in
    let fully_active := os_started s1 && t_le A (os_start s1) current_time && t_le A next (os_stop s1) in
    do r <- if (length freq =? 1) && (length detune =? 1) && fully_active && negb outside
            then osc_fast RQ s1 incr
            else osc_slow RQ 0 s1 freq detune current_time;
    if t_le A (os_stop (fst r)) next then Ok (with_ended (fst r), mk_outcome (snd r) false (negb (os_ended (fst r))))
    else Ok (fst r, mk_outcome (snd r) true false).

(** 497-505 before_drop *)
Definition osc_before_drop (s : osc) (frame : Z) : bool :=
  negb (os_ended s) && (t_le A (os_start s) (block_time frame) || t_le A (os_stop s) (block_time frame)).

(** 485-520: the messages; the control side never sends the type Custom (300-316) *)
Inductive osc_action := O_start (when : T) | O_stop (when : T) | O_type (ty : wave_type) | O_wave (table : list V) | O_quantum (freq detune : list V).
Definition osc_message (s : osc) (a : osc_action) : osc :=
  match a with
  | O_start v => with_start s v
  | O_stop v => with_stop s v
  | O_type ty => mk_osc ty (os_phase s) (os_start s) (os_stop s) (os_started s) (os_wave s) (os_ended s)
  | O_wave w => mk_osc Custom (os_phase s) (os_start s) (os_stop s) (os_started s) (Some w) (os_ended s)
  | O_quantum _ _ => s
  end.
Fixpoint osc_run (s : osc) (frame : Z) (l : list osc_action) : res (osc * Z * list outcome) :=
  match l with
  | [] => Ok (s, frame, [])
  | O_quantum freq detune :: l' =>
      do r <- osc_process s frame freq detune;
      do r' <- osc_run (fst r) (frame + Z.of_nat RQ) l';
      Ok (fst r', snd r :: snd r')
  | a :: l' => osc_run (osc_message s a) frame l'
  end.
End Sources.
