(** Model of the AudioBufferSourceNode.

    Source: /repo/src/node/audio_buffer_source.rs 352-879.  The arithmetic is abstract (Arith_Model.v).
    The crate `almost` (0.2.0) is not part of the repository; its comparisons are parameters.  The
    playback rate and detune of a quantum are inputs (k-rate parameters).  A buffer is a value (see
    Buffer_Model.v for the sharing of the samples). *)
From Coq Require Import List Arith Bool ZArith.
From Verif Require Export Common_Model.
From Verif Require Import Arith_Model Source_Model.
Import ListNotations.

Section Absn.
Context {T V : Type}.
Variable A : arith T V.
(** sample rate of the context *)
Variable sr : V.
(** almost::equal, almost::zero *)
Variable almost_equal : T -> T -> bool.
Variable almost_zero : T -> bool.
(** bound on the iterations of the while loops; when it is exceeded the result is [Stuck] *)
Variable fuel : nat.

(** buffer.rs 20-24; all channels have the same length *)
Record buffer := mk_buffer { b_channels : list (list V); b_rate : V }.
(** buffer.rs 127-129 *)
Definition b_length (b : buffer) : nat := length (hd [] (b_channels b)).
(** buffer.rs 138-140 *)
Definition b_duration (b : buffer) : T := t_div A (t_of_Z A (Z.of_nat (b_length b))) (t_of_v A (b_rate b)).

(** 388-400: what changes from sample to sample *)
Record playback := mk_playback {
  p_start : T; p_offset : T;          (* AudioBufferSourceRenderer *)
  p_time : T; p_started : bool; p_entered : bool; p_elapsed : T   (* AudioBufferRendererState *)
}.
Record absn := mk_absn {
  a_play : playback; a_stop : T; a_duration : T; a_buffer : option buffer;
  a_loop : bool; a_lstart : T; a_lend : T; a_aligned : bool; a_ended : bool
}.
Definition with_play (s : absn) (p : playback) : absn := mk_absn p (a_stop s) (a_duration s) (a_buffer s) (a_loop s) (a_lstart s) (a_lend s) (a_aligned s) (a_ended s).
Definition with_aligned (s : absn) (b : bool) : absn := mk_absn (a_play s) (a_stop s) (a_duration s) (a_buffer s) (a_loop s) (a_lstart s) (a_lend s) b (a_ended s).
Definition finished (s : absn) : absn := mk_absn (a_play s) (a_stop s) (a_duration s) (a_buffer s) (a_loop s) (a_lstart s) (a_lend s) (a_aligned s) true.
Definition p_at (p : playback) (start : T) : playback := mk_playback start (p_offset p) (p_time p) (p_started p) (p_entered p) (p_elapsed p).
Definition p_elapse (p : playback) (elapsed : T) : playback := mk_playback (p_start p) (p_offset p) (p_time p) (p_started p) (p_entered p) elapsed.
Definition p_move (p : playback) (time : T) : playback := mk_playback (p_start p) (p_offset p) time (p_started p) (p_entered p) (p_elapsed p).
Definition p_enter (p : playback) (b : bool) : playback := mk_playback (p_start p) (p_offset p) (p_time p) (p_started p) b (p_elapsed p).
Definition p_begin (p : playback) : playback := mk_playback (p_start p) (p_offset p) (p_time p) true (p_entered p) (p_elapsed p).

(** 198-208, 361-372 *)
Definition absn_new (looping : bool) (lstart lend : T) : absn :=
  mk_absn (mk_playback (t_MAX A) (t_zero A) (t_zero A) false false (t_zero A)) (t_MAX A) (t_MAX A) None looping lstart lend false false.

(** 416-432 clamp_loop_boundaries *)
Definition clamp (s : absn) : absn :=
  match a_buffer s with
  | None => s
  | Some b =>
      let d := b_duration b in
      let ls := if t_lt A (a_lstart s) (t_zero A) then t_zero A else if t_lt A d (a_lstart s) then d else a_lstart s in
      let le := if t_le A (a_lend s) (t_zero A) || t_lt A d (a_lend s) then d else a_lend s in
      mk_absn (a_play s) (a_stop s) (a_duration s) (a_buffer s) (a_loop s) ls le (a_aligned s) (a_ended s)
  end.

(** ** Slow track *)

Section Slow.
Variables (stop duration : T) (looping : bool) (ls le rate bdur ratio : T) (len : nat).

(** 713-715, 717-719 *)
Fixpoint wrap_down (n : nat) (t : T) : res T :=
  if t_le A le t then match n with 0 => Stuck | S n' => wrap_down n' (t_sub A t (t_sub A le ls)) end else Ok t.
Fixpoint wrap_up (n : nat) (t : T) : res T :=
  if t_lt A t ls then match n with 0 => Stuck | S n' => wrap_up n' (t_add A t (t_sub A le ls)) end else Ok t.

(** 667-688: the first sample *)
Definition begin (p : playback) (time : T) : playback :=
  let delta := t_sub A time (p_start p) in
  let o := t_add A (p_offset p) (t_mul A delta rate) in
  let o := t_min A (t_max A o (t_zero A)) bdur in
  let o := if looping && t_le A (t_zero A) rate && t_lt A le o then le else o in
  let o := if looping && t_lt A rate (t_zero A) && t_lt A o ls then ls else o in
  mk_playback (p_start p) o o true (p_entered p) (t_abs A (t_mul A delta rate)).

(** 690-721 *)
Definition loop_position (p : playback) : res playback :=
  let t := if almost_equal (p_time p) le then le else p_time p in
  let t := if almost_equal t ls then ls else t in
  let entered := p_entered p || (t_lt A (p_offset p) le && t_le A ls t) || (t_le A le (p_offset p) && t_lt A t le) in
  do t <- if entered then do t1 <- wrap_down fuel t; wrap_up fuel t1 else Ok t;
  Ok (p_enter (p_move p t) entered).

(** 641-749: one sample: the index of a frame and the position between it and the next one *)
Definition slow_sample (p : playback) (time : T) : res (playback * option (nat * T)) :=
  let p := if negb (p_started p) && almost_equal time (p_start p) then p_at p time else p in
  let p := if almost_equal (p_elapsed p) duration then p_elapse p duration else p in
  if t_lt A time (p_start p) || t_le A stop time || t_le A duration (p_elapsed p) then Ok (p, None)
  else
    let p := if p_started p then p else begin p time in
    do p <- if looping then loop_position p else Ok p;
    let p := if almost_zero (p_time p) then p_move p (t_zero A) else p in
    let info :=
      if t_le A (t_zero A) (p_time p) && t_lt A (p_time p) bdur then
        let position := t_mul A (p_time p) ratio in
        let playhead := t_mul A position (t_of_v A sr) in
        let index := t_to_Z A (t_floor A playhead) in
        if (index <? Z.of_nat len)%Z then Some (Z.to_nat index, t_sub A playhead (t_floor A playhead)) else None
      else None in
    let incr := t_mul A (dt A sr) rate in
    Ok (p_elapse (p_move p (t_add A (p_time p) incr)) (t_add A (p_elapsed p) (t_abs A incr)), info).

(** 644-749: the time of sample [i] is computed from the block time *)
Fixpoint slow_samples (n i : nat) (p : playback) (block : T) : res (playback * list (option (nat * T))) :=
  match n with
  | 0 => Ok (p, [])
  | S n' =>
      do r <- slow_sample p (t_add A block (t_mul A (t_of_Z A (Z.of_nat i)) (dt A sr)));
      do r' <- slow_samples n' (S i) (fst r) block;
      Ok (fst r', snd r :: snd r')
  end.

(** [l[i]] with an index that may be very large *)
Definition index_Z {X} (l : list X) (i : Z) : res X := if (i <? Z.of_nat (length l))%Z then index l (Z.to_nat i) else Panic.

(** 762-818: the value of a sample in a channel; [prate] is the playback rate without detune *)
Definition interpolate (prate : T) (ch : list V) (info : option (nat * T)) : res V :=
  match info with
  | None => Ok (v_zero A)
  | Some (i, k) =>
      do prev <- index ch i;
      let prev := t_of_v A prev in
      do next <-
        match nth_error ch (i + 1) with
        | Some v => Ok (t_of_v A v)
        | None =>
            if looping then
              if t_le A (t_zero A) prate then
                let playhead := t_mul A ls (t_of_v A sr) in
                let j := if t_eq A (t_floor A playhead) playhead then t_to_Z A playhead else (t_to_Z A playhead + 1)%Z in
                do v <- index_Z ch j; Ok (t_of_v A v)
              else
                do v <- index_Z ch (t_to_Z A (t_mul A le (t_of_v A sr))); Ok (t_of_v A v)
            else if almost_equal k (t_one A) || (i =? 0) then Ok (t_zero A)
            else do v <- index ch (i - 1); Ok (t_sub A (t_mul A (t_of_Z A 2) prev) (t_of_v A v))
        end;
      Ok (v_of_t A (t_fma A (t_sub A (t_one A) k) prev (t_mul A k next)))
  end.
End Slow.

(** ** Fast track *)

(** 574-598: the samples of a channel in a quantum in which the buffer ends; the result includes the latest loop point *)
Fixpoint fast_samples (looping : bool) (ch : list V) (end_index n index start offset : nat) (lp : option nat) : res (list V * option nat) :=
  match n with
  | 0 => Ok ([], lp)
  | S n' =>
      let i := start + index - offset in
      if i <? end_index then
        do v <- Common_Model.index ch i;
        do r <- fast_samples looping ch end_index n' (S index) start offset lp; Ok (v :: fst r, snd r)
      else if looping then
        do v <- Common_Model.index ch 0;
        do r <- fast_samples looping ch end_index n' (S index) 0 index (Some index); Ok (v :: fst r, snd r)
      else do r <- fast_samples looping ch end_index n' (S index) start offset lp; Ok (v_zero A :: fst r, snd r)
  end.
(** 566-600: all channels *)
Fixpoint fast_channels (looping : bool) (end_index start : nat) (chs : list (list V)) (lp : option nat) : res (list (list V) * option nat) :=
  match chs with
  | [] => Ok ([], lp)
  | ch :: chs' =>
      do r <- fast_samples looping ch end_index RQ 0 start 0 lp;
      do r' <- fast_channels looping end_index start chs' (snd r);
      Ok (fst r :: fst r', snd r')
  end.

(** ** A quantum *)

(** 517-560: the decision for the fast track *)
Definition decide (s : absn) (b : buffer) (block span rate ratio : T) : bool :=
  let p := a_play s in
  let aligned := if t_eq A (p_start p) block && t_eq A (p_offset p) (t_zero A) then true else a_aligned s in
  aligned
  && negb (negb (t_eq A ratio (t_one A)) || negb (t_eq A rate (t_one A)))
  && negb (negb (t_eq A (a_lstart s) (t_zero A)) || negb (t_eq A (a_lend s) (b_duration b)))
  && negb (t_lt A (a_duration s) (t_add A (p_time p) span) || t_lt A (a_stop s) (t_add A block span)).

(** 562-621 *)
Definition fast_track (s : absn) (b : buffer) (block span : T) : res (absn * list (list V)) :=
  let p := a_play s in
  let p := if t_eq A (p_start p) block then p_begin p else p in
  let time := p_time p in

  let start := Z.to_nat (t_to_Z A (t_round A (t_mul A time (t_of_v A sr)))) in
  do r <-
    if t_lt A (b_duration b) (t_add A time span) then
      do r <- fast_channels (a_loop s) (b_length b) start (b_channels b) None;
      Ok (fst r, match snd r with
                 | Some lp => t_rem A (t_div A (t_of_Z A (Z.of_nat (RQ - lp))) (t_of_v A sr)) (b_duration b)
                 | None => t_add A time span
                 end)
    else
      do chs <- map_res (fun ch => slice ch start (start + RQ)) (b_channels b);
      Ok (chs, t_add A time span);
  Ok (with_play s (p_elapse (p_move p (snd r)) (t_add A (p_elapsed p) span)), fst r).

(** 622-821 *)
Definition slow_track (s : absn) (b : buffer) (block rate prate ratio : T) : res (absn * list (list V)) :=
  let bdur := b_duration b in
  let default := negb (t_le A (t_zero A) (a_lstart s) && t_lt A (t_zero A) (a_lend s) && t_lt A (a_lstart s) (a_lend s)) in
  let ls := if a_loop s then if default then t_zero A else a_lstart s else t_zero A in
  let le := if a_loop s then if default then bdur else a_lend s else t_zero A in
  let p := if a_loop s then a_play s else p_enter (a_play s) false in
  do r <- slow_samples (a_stop s) (a_duration s) (a_loop s) ls le rate bdur ratio (b_length b) RQ 0 p block;
  do chs <- map_res (fun ch => map_res (interpolate (a_loop s) ls le prate ch) (snd r)) (b_channels b);
  Ok (with_play s (fst r), chs).

Definition absn_silence : list (list V) := [silence A].

(** 435-846 *)
Definition absn_process (s : absn) (frame : Z) (playback_rate detune : V) : res (absn * @outcome (list V)) :=
  if a_ended s then Ok (s, mk_outcome absn_silence false false)
  else
    let block := block_time A sr frame in
    let span := t_mul A (dt A sr) (t_of_Z A (Z.of_nat RQ)) in
    let next := t_add A block span in
    let no_buffer := match a_buffer s with None => true | _ => false end in
    if no_buffer && negb (t_eq A (p_start (a_play s)) (t_MAX A)) then Ok (finished s, mk_outcome absn_silence false true)
    else if t_le A next (p_start (a_play s)) then
      if t_le A (a_stop s) next then Ok (finished s, mk_outcome absn_silence false true)
      else Ok (s, mk_outcome absn_silence (negb (t_eq A (p_start (a_play s)) (t_MAX A))) false)
    else
      match a_buffer s with
      | None => Ok (s, mk_outcome absn_silence false false)
      | Some b =>
          let prate := t_of_v A playback_rate in
          let rate := t_mul A prate (t_exp2 A (t_div A (t_of_v A detune) (t_of_Z A 1200))) in
          let ratio := t_div A (t_of_v A (b_rate b)) (t_of_v A sr) in
          let p := a_play s in
          let s := if negb (p_started p) && t_lt A (p_start p) block then with_play s (p_at p block) else s in
          let s := with_aligned s (decide s b block span rate ratio) in
          do r <- if a_aligned s then fast_track s b block span else slow_track s b block rate prate ratio;
          let s := fst r in
          let p := a_play s in
          let over := t_le A (a_stop s) next || t_le A (a_duration s) (p_elapsed p)
            || (negb (a_loop s) && (t_lt A (t_zero A) rate && t_le A (b_duration b) (p_time p) || t_lt A rate (t_zero A) && t_lt A (p_time p) (t_zero A))) in
          Ok (if over then finished s else s, mk_outcome (snd r) true over)
      end.

(** 402-414, 848-869: the messages *)
Inductive absn_action := A_start (when offset duration : T) | A_stop (when : T) | A_loop (b : bool) | A_lstart (t : T) | A_lend (t : T)
  | A_buffer (b : buffer) | A_quantum (playback_rate detune : V).
Definition absn_message (s : absn) (a : absn_action) : absn :=
  match a with
  | A_start t o d =>
      let p := a_play s in
      clamp (mk_absn (mk_playback t o (p_time p) (p_started p) (p_entered p) (p_elapsed p)) (a_stop s) d (a_buffer s) (a_loop s) (a_lstart s) (a_lend s) (a_aligned s) (a_ended s))
  | A_stop t => clamp (mk_absn (a_play s) t (a_duration s) (a_buffer s) (a_loop s) (a_lstart s) (a_lend s) (a_aligned s) (a_ended s))
  | A_loop b => clamp (mk_absn (a_play s) (a_stop s) (a_duration s) (a_buffer s) b (a_lstart s) (a_lend s) (a_aligned s) (a_ended s))
  | A_lstart t => clamp (mk_absn (a_play s) (a_stop s) (a_duration s) (a_buffer s) (a_loop s) t (a_lend s) (a_aligned s) (a_ended s))
  | A_lend t => clamp (mk_absn (a_play s) (a_stop s) (a_duration s) (a_buffer s) (a_loop s) (a_lstart s) t (a_aligned s) (a_ended s))
  | A_buffer b =>
      let s' := mk_absn (a_play s) (a_stop s) (a_duration s) (Some b) (a_loop s) (a_lstart s) (a_lend s) (a_aligned s) (a_ended s) in
      match a_buffer s with None => clamp s' | Some _ => s' end
  | A_quantum _ _ => s
  end.
Fixpoint absn_run (s : absn) (frame : Z) (l : list absn_action) : res (absn * Z * list (@outcome (list V))) :=
  match l with
  | [] => Ok (s, frame, [])
  | A_quantum r d :: l' =>
      do x <- absn_process s frame r d;
      do y <- absn_run (fst x) (frame + Z.of_nat RQ) l';
      Ok (fst y, snd x :: snd y)
  | a :: l' => absn_run (absn_message s a) frame l'
  end.

(** 871-878 before_drop *)
Definition absn_before_drop (s : absn) (frame : Z) : bool :=
  negb (a_ended s) && (t_le A (p_start (a_play s)) (block_time A sr frame) || t_le A (a_stop s) (block_time A sr frame)).
End Absn.
