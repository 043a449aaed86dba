(** What a buffer source is to output: the buffer, read at the position that the playback rate has reached since the start. *)
From Coq Require Import List Arith Bool ZArith Reals.
From Flocq Require Import Core.
From Verif Require Import Absn_Model.
Import ListNotations.
Local Open Scope R_scope.

Definition is_le (x y : R) : bool := if Rle_dec x y then true else false.
Definition is_lt (x y : R) : bool := if Rlt_dec x y then true else false.

(** ** The buffer between its frames *)
(** [ch] at [y] frames after its beginning, 0 <= y < length: linear between two frames.  After the last frame: towards
    frame [wrapped] if the sound goes on there, else along the line of the last two frames; the only frame of a
    buffer decays to 0. *)
Definition read (ch : list R) (wrapped : option nat) (y : R) : R :=
  let i := Z.to_nat (Zfloor y) in let k := y - IZR (Zfloor y) in
  let here := nth i ch 0 in
  let next :=
    if (i + 1 <? length ch)%nat then nth (i + 1) ch 0
    else match wrapped with
         | Some j => nth j ch 0
         | None => if (i =? 0)%nat then 0 else 2 * here - nth (i - 1) ch 0
         end in
  (1 - k) * here + k * next.

(** ** The sound *)
(** The call of start: the number of quanta rendered before, and its arguments *)
Record start_call := mk_start { c_quanta : nat; c_when : R; c_offset : R; c_duration : R }.
(** The loop, in seconds *)
Record loop := mk_loop { l_on : bool; l_start : R; l_end : R }.

Section Sound.
(** sample rates of the context and of the buffer, frames of the buffer *)
Variables (sr brate : R) (frames : nat).
Variable call : start_call.
Variable lp : loop.
(** playback rate (with detune) and stop time of each quantum *)
Variables (rate stop : nat -> R).

Definition time (n : nat) : R := INR n / sr.
Definition length_s : R := INR frames / brate.
(** the first frame that is not before the start, nor before the call *)
Definition first : nat := Nat.max (128 * c_quanta call) (Z.to_nat (Zceil (c_when call * sr))).
(** how long the source has been playing at the first frame.  (Deviation: nothing if it is the first frame of a quantum.) *)
Definition lead : R := if (first mod 128 =? 0)%nat then 0 else time first - c_when call.
Definition rate_at (n : nat) : R := rate (n / 128).

(** the position in the buffer at which the first frame is read, in seconds *)
Definition origin : R :=
  let o := Rmin (Rmax (c_offset call + lead * rate_at first) 0) length_s in
  if l_on lp then if is_le 0 (rate_at first) then Rmin o (l_end lp) else Rmax o (l_start lp) else o.
(** the seconds of the buffer travelled in [k] frames, with and without direction *)
Fixpoint travelled (k : nat) : R := match k with O => 0 | S j => travelled j + rate_at (first + j) / sr end.
Fixpoint distance (k : nat) : R := match k with O => 0 | S j => distance j + Rabs (rate_at (first + j) / sr) end.
(** the position at frame [n], without the loop *)
Definition unlooped (n : nat) : R := origin + travelled (n - first).
(** how much of the buffer has been played before frame [n] *)
Definition played (n : nat) : R := if (n <=? first)%nat then 0 else Rabs (lead * rate_at first) + distance (n - first).

(** has the loop been entered: from before its end, by reaching its start; from behind, by going back over its end *)
Definition enters (n : nat) : bool :=
  is_lt origin (l_end lp) && is_le (l_start lp) (unlooped n) || is_le (l_end lp) origin && is_lt (unlooped n) (l_end lp).
Definition entered (n : nat) : bool := existsb enters (seq first (S n - first)).
(** the point of the loop that differs from [x] by a multiple of the length of the loop *)
Definition wrap (x : R) : R := x - IZR (Zfloor ((x - l_start lp) / (l_end lp - l_start lp))) * (l_end lp - l_start lp).
Definition position (n : nat) : R := if l_on lp && entered n then wrap (unlooped n) else unlooped n.

(** does the source end with quantum [q]: at the stop time, after the duration, or when the position has left the buffer *)
Definition left (q : nat) : bool :=
  let n := (128 * (q + 1))%nat in
  negb (l_on lp) && (first <? n)%nat
  && (is_lt 0 (rate q) && is_le length_s (unlooped n) || is_lt (rate q) 0 && is_lt (unlooped n) 0).
Definition over (q : nat) : bool :=
  let n := (128 * (q + 1))%nat in
  is_le (stop q) (time n) || is_lt (c_when call) (time n) && (is_le (c_duration call) (played n) || left q).
Definition alive (q : nat) : bool := forallb (fun p => negb (over p)) (seq (c_quanta call) (q - c_quanta call)).
(** it ends with quantum [q] *)
Definition ends_with (q : nat) : bool := (c_quanta call <=? q)%nat && alive q && over q.

(** is frame [n] to be heard *)
Definition sounding (n : nat) : bool :=
  (first <=? n)%nat && alive (n / 128) && is_lt (time n) (stop (n / 128)) && is_lt (played n) (c_duration call).
(** After the last frame of the buffer a loop continues with the first frame in the loop, backwards with the frame at its end *)
Definition continues (n : nat) : option nat :=
  if l_on lp then Some (if is_le 0 (rate_at n) then Z.to_nat (Zceil (l_start lp * brate)) else Z.to_nat (Zfloor (l_end lp * brate))) else None.
Definition sample (ch : list R) (n : nat) : R :=
  if sounding n && is_le 0 (position n) && is_lt (position n) length_s then read ch (continues n) (position n * brate) else 0.
End Sound.

(** ** Settings *)
Fixpoint last_of {X Y} (f : X -> option Y) (l : list X) (d : Y) : Y :=
  match l with [] => d | x :: l' => last_of f l' (match f x with Some y => y | None => d end) end.
(** the loop within a buffer of [d] seconds; boundaries that do not make sense mean the whole buffer *)
Definition loop_within (d : R) (on : bool) (from to : R) : loop :=
  let a := if Rlt_dec from 0 then 0 else Rmin from d in
  let b := if Rle_dec to 0 then d else Rmin to d in
  if Rlt_dec a b then mk_loop on a b else mk_loop on 0 d.

Notation action := (@absn_action R R).
Definition set_loop (a : action) : option bool := match a with A_loop b => Some b | _ => None end.
Definition set_lstart (a : action) : option R := match a with A_lstart t => Some t | _ => None end.
Definition set_lend (a : action) : option R := match a with A_lend t => Some t | _ => None end.
Definition buffers (l : list action) : list (@buffer R) := flat_map (fun a => match a with A_buffer b => [b] | _ => [] end) l.
Definition quanta_in (l : list action) : nat := length (filter (fun a => match a with A_quantum _ _ => true | _ => false end) l).
Definition is_setting (a : action) : bool := match a with A_loop _ | A_lstart _ | A_lend _ | A_buffer _ => true | _ => false end.
Definition is_waiting (a : action) : bool := match a with A_quantum _ _ => true | _ => is_setting a end.

(** A quantum after the start: the calls of stop before it, the playback rate and the detune *)
Record step := mk_step { s_stops : list R; s_rate : R; s_detune : R }.
Definition steps_actions (l : list step) : list action := flat_map (fun g => map A_stop (s_stops g) ++ [A_quantum (s_rate g) (s_detune g)]) l.
Definition step_rate (g : step) : R := s_rate g * Rpower 2 (s_detune g / 1200).
(** the rate and the stop time of quantum [q], if the steps begin with quantum [from]; [never] stands for no stop time *)
Definition rates (from : nat) (l : list step) (q : nat) : R := nth (q - from) (map step_rate l) 0.
Definition stops (never : R) (from : nat) (l : list step) (q : nat) : R := last (concat (map s_stops (firstn (q - from + 1) l))) never.
