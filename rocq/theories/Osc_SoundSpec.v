(** What an oscillator is to output: the waveform at the phase that the frequency has accumulated since the start. *)
From Coq Require Import List Arith Bool ZArith Reals.
From Flocq Require Import Core.
From Verif Require Import Source_Model Source_Spec.
Import ListNotations.
Local Open Scope R_scope.

Definition frac (x : R) : R := x - IZR (Zfloor x).

(** ** Waveforms, as functions of the phase in [0,1) *)
(** linear interpolation in a periodic table *)
Definition interp (table : list R) (p : R) : R :=
  let n := length table in let x := p * INR n in let k := Z.to_nat (Zfloor x) in
  let a := nth k table 0 in let b := nth ((k + 1) mod n) table 0 in
  a + (x - INR k) * (b - a).
(** the correction (PolyBLEP) within one frame, [incr], of a jump from -1 to 1 at phase 0 *)
Definition blep (p incr : R) : R :=
  if Rlt_dec p incr then - (1 - p / incr) ^ 2
  else if Rlt_dec (1 - incr) p then (1 - (1 - p) / incr) ^ 2
  else 0.
Definition wave (sine : list R) (ty : wave_type) (custom : option (list R)) (p incr : R) : R :=
  match ty with
  | Sine => interp sine p
  | Square => (if Rlt_dec p (/ 2) then 1 else -1) + blep p incr - blep (frac (p + / 2)) incr
  | Sawtooth => let q := frac (p + / 2) in 2 * q - 1 - blep q incr
  | Triangle => if Rlt_dec p (/ 4) then 4 * p else if Rle_dec p (3 / 4) then 2 - 4 * p else 4 * p - 4
  | Custom => match custom with Some w => interp w p | None => 0 end
  end.

(** ** The settings of each quantum *)
Record setting := mk_setting { g_start : option R; g_stop : option R; g_type : wave_type; g_wave : option (list R); g_freq : list R; g_detune : list R }.
Fixpoint settings (start stop : option R) (ty : wave_type) (w : option (list R)) (l : list (@osc_action R R)) : list setting :=
  match l with
  | [] => []
  | O_start t :: l' => settings (Some t) stop ty w l'
  | O_stop t :: l' => settings start (Some t) ty w l'
  | O_type ty' :: l' => settings start stop ty' w l'
  | O_wave w' :: l' => settings start stop Custom (Some w') l'
  | O_quantum freq detune :: l' => mk_setting start stop ty w freq detune :: settings start stop ty w l'
  end.

(** ** The sound *)
Section Sound.
Variable sr : R.
Variable sine : list R.
Variable plan : list setting.
Definition setting_at (n : nat) : setting := nth (n / 128) plan (mk_setting None None Sine None [] []).
(** the frequency at frame [n]: the detune is in cents *)
Definition tone (n : nat) : R :=
  let g := setting_at n in value_at 0 (g_freq g) (n mod 128) * Rpower 2 (value_at 0 (g_detune g) (n mod 128) / 1200).
(** is frame [n] between start and stop *)
Definition sounding (n : nat) : bool := let g := setting_at n in in_time sr (g_start g) (g_stop g) (Z.of_nat n).
(** the phase of the first sounding frame: start may be between two frames; a start in the past counts from the quantum *)
Definition first_phase (n : nat) : R :=
  let quantum_time := INR (128 * (n / 128)) / sr in
  tone n * (INR n / sr - Rmax (match g_start (setting_at n) with Some t => t | None => 0 end) quantum_time).
(** the phase accumulated by the sounding frames before frame [n] *)
Fixpoint accumulated (n : nat) : option R :=
  match n with
  | O => None
  | S m => if sounding m then Some (match accumulated m with Some p => p | None => first_phase m end + tone m / sr) else accumulated m
  end.
Definition phase_at (n : nat) : R := match accumulated n with Some p => p | None => first_phase n end.
(** a tone above half the sample rate is silent *)
Definition sample (n : nat) : R :=
  let g := setting_at n in
  if sounding n then if Rlt_dec (Rabs (tone n)) (sr / 2) then wave sine (g_type g) (g_wave g) (frac (phase_at n)) (tone n / sr) else 0 else 0.
End Sound.

(** ** The settings according to the calls *)
From Verif Require Import Sched_Model Sched_Spec.
Section Calls.
Variable ty : wave_type.
Variable custom : option (list R).
Notation oev := (event (@osc_call R R) (list R * list R)).
Definition valid_time (t : R) : bool := if Rle_dec 0 t then true else false.
Fixpoint called (past future : list oev) : list setting :=
  match future with
  | [] => []
  | Call c :: rest => called (past ++ [Call c]) rest
  | Render (freq, detune) :: rest =>
      mk_setting (started (osc_begin valid_time) past) (stopped (osc_begin valid_time) (osc_end valid_time) past)
        (chosen_type (match custom with Some _ => Custom | None => ty end) past) (chosen_wave custom past) freq detune
      :: called (past ++ [Render (freq, detune)]) rest
  end.
End Calls.
