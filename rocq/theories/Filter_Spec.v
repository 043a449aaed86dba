(** Filters: difference equations and the coefficients of the specification.

    https://webaudio.github.io/web-audio-api/#filters-characteristics *)
From Coq Require Import List Arith Bool ZArith Reals.
From Verif Require Import Arith_Model Quantum_Model Route_Spec Filter_Model.
Import ListNotations.
Local Open Scope R_scope.

(** ** Signals *)
(** the sample at time [t]; nothing happened before time 0 *)
Definition at_time (x : list R) (t : Z) : R := if (t <? 0)%Z then 0 else nth (Z.to_nat t) x 0.
(** [c0 * x(t) + c1 * x(t-1) + ...] *)
Fixpoint weighted (cs : list R) (x : list R) (t : Z) : R :=
  match cs with [] => 0 | c :: cs' => c * at_time x t + weighted cs' x (t - 1) end.

(** ** The history of a channel *)
(** What a channel received and emitted since it exists, and the settings ([E], one per frame). A silent input is silence
    on every channel; a channel the input has no longer starts afresh. *)
Record history (E V : Type) := mk_history { h_env : list E; h_in : list V; h_out : list V }.
Arguments mk_history {E V}. Arguments h_env {E V}. Arguments h_in {E V}. Arguments h_out {E V}.
Definition empty_history {E V} : history E V := mk_history [] [] [].
Definition extend {E V} (zero : V) (size c : nat) (h : history E V) (env : list E) (input output : list (chan V)) : history E V :=
  let played := map (sample zero output c) (seq 0 size) in
  if is_silent input then mk_history (h_env h ++ env) (h_in h ++ repeat zero size) (h_out h ++ played)
  else if c <? length input then mk_history (h_env h ++ env) (h_in h ++ c_val (nth c input (mk_chan 0 []))) (h_out h ++ played)
  else empty_history.

(** channel [c] over all calls; [env] gives the settings of the frames of a call *)
Fixpoint channel_history {E V P} (zero : V) (size c : nat) (env : P -> list E) (h : history E V) (ls : list (call (V := V) P)) (outs : list (list (chan V))) : history E V :=
  match ls, outs with
  | l :: ls', o :: outs' => channel_history zero size c env (extend zero size c h (env (l_settings _ l)) (l_input _ l) o) ls' outs'
  | _, _ => h
  end.
(** a quantum as the graph passes it: 1 to 32 channels of [size] samples; the buffer of silence holds silence *)
Definition quantum_ok {V} (O : sops V) (size : nat) (q : list (chan V)) : Prop :=
  (0 < length q <= 32)%nat /\ Forall (fun c => length (c_val c) = size) q /\ silent_zero O size q.
Definition call_ok {V P} (O : sops V) (size : nat) (l : call (V := V) P) : Prop := quantum_ok O size (l_input _ l) /\ l_output _ l <> [].

(** ** Coefficients of the specification *)
Record section := mk_section { f_b0 : R; f_b1 : R; f_b2 : R; f_a0 : R; f_a1 : R; f_a2 : R }.
Definition cookbook (type_ : filter_type) (rate f0 gain q : R) : section :=
  let A := Rpower 10 (gain / 40) in
  let w0 := 2 * PI * f0 / rate in
  let alpha_Q := sin w0 / (2 * q) in
  let alpha_QdB := sin w0 / (2 * Rpower 10 (q / 20)) in
  let S := 1 in
  let alpha_S := sin w0 / 2 * sqrt ((A + / A) * (/ S - 1) + 2) in
  match type_ with
  | Lowpass => mk_section ((1 - cos w0) / 2) (1 - cos w0) ((1 - cos w0) / 2) (1 + alpha_QdB) (- 2 * cos w0) (1 - alpha_QdB)
  | Highpass => mk_section ((1 + cos w0) / 2) (- (1 + cos w0)) ((1 + cos w0) / 2) (1 + alpha_QdB) (- 2 * cos w0) (1 - alpha_QdB)
  | Bandpass => mk_section alpha_Q 0 (- alpha_Q) (1 + alpha_Q) (- 2 * cos w0) (1 - alpha_Q)
  | Notch => mk_section 1 (- 2 * cos w0) 1 (1 + alpha_Q) (- 2 * cos w0) (1 - alpha_Q)
  | Allpass => mk_section (1 - alpha_Q) (- 2 * cos w0) (1 + alpha_Q) (1 + alpha_Q) (- 2 * cos w0) (1 - alpha_Q)
  | Peaking => mk_section (1 + alpha_Q * A) (- 2 * cos w0) (1 - alpha_Q * A) (1 + alpha_Q / A) (- 2 * cos w0) (1 - alpha_Q / A)
  | Lowshelf => mk_section (A * (A + 1 - (A - 1) * cos w0 + 2 * alpha_S * sqrt A)) (2 * A * (A - 1 - (A + 1) * cos w0)) (A * (A + 1 - (A - 1) * cos w0 - 2 * alpha_S * sqrt A))
      (A + 1 + (A - 1) * cos w0 + 2 * alpha_S * sqrt A) (- 2 * (A - 1 + (A + 1) * cos w0)) (A + 1 + (A - 1) * cos w0 - 2 * alpha_S * sqrt A)
  | Highshelf => mk_section (A * (A + 1 + (A - 1) * cos w0 + 2 * alpha_S * sqrt A)) (- 2 * A * (A - 1 + (A + 1) * cos w0)) (A * (A + 1 + (A - 1) * cos w0 - 2 * alpha_S * sqrt A))
      (A + 1 - (A - 1) * cos w0 + 2 * alpha_S * sqrt A) (2 * (A - 1 - (A + 1) * cos w0)) (A + 1 - (A - 1) * cos w0 - 2 * alpha_S * sqrt A)
  end.
(** the types for which Q has to be positive *)
Definition needs_q (t : filter_type) : bool := match t with Bandpass | Notch | Allpass | Peaking => true | _ => false end.
(** outside the open interval the filter is a gain *)
Definition edge_gain (type_ : filter_type) (high : bool) (gain : R) : R :=
  match type_, high with
  | Lowpass, true | Highpass, false | Notch, _ | Allpass, _ | Peaking, _ | Lowshelf, false | Highshelf, true => 1
  | Lowpass, false | Highpass, true | Bandpass, _ => 0
  | Lowshelf, true | Highshelf, false => Rpower 10 (gain / 20)
  end.
(** What the types of filters are for: frequencies (in Hz) and the gain there. [dB]: a gain in decibels as a factor. *)
Definition dB (x : R) : R := Rpower 10 (x / 20).
Definition nominal (type_ : filter_type) (rate f0 gain q : R) : list (R * R) :=
  let nyquist := rate / 2 in
  match type_ with
  | Lowpass => [(0, 1); (f0, dB q); (nyquist, 0)]
  | Highpass => [(0, 0); (f0, dB q); (nyquist, 1)]
  | Bandpass => [(0, 0); (f0, 1); (nyquist, 0)]
  | Notch => [(0, 1); (f0, 0); (nyquist, 1)]
  | Allpass => [(0, 1); (f0, 1); (nyquist, 1)]
  | Peaking => [(0, 1); (f0, dB gain); (nyquist, 1)]
  | Lowshelf => [(0, dB gain); (f0, dB (gain / 2)); (nyquist, 1)]
  | Highshelf => [(0, 1); (f0, dB (gain / 2)); (nyquist, dB gain)]
  end.
(** frequency and detune together *)
Definition cents (f d : R) : R := f * Rpower 2 (d / 1200).

(** ** Settings of a biquad filter *)
(** the value of a param at frame [i]: one value for the quantum or one per frame *)
Definition param_at {V} (zero : V) (l : list V) (i : nat) : V := nth (i mod length l) l zero.
Definition params_ok {V} (p : biquad_params (V := V)) : Prop := q_frequency p <> [] /\ q_detune p <> [] /\ q_q p <> [] /\ q_gain p <> [].
(** type, frequency, detune, gain and Q of a frame *)
Record setting (V : Type) := mk_setting { g_type : filter_type; g_frequency : V; g_detune : V; g_gain : V; g_q : V }.
Arguments mk_setting {V}. Arguments g_type {V}. Arguments g_frequency {V}. Arguments g_detune {V}. Arguments g_gain {V}. Arguments g_q {V}.
Definition settings {V} (zero : V) (size : nat) (p : filter_type * biquad_params (V := V)) : list (setting V) :=
  map (fun i => mk_setting (fst p) (param_at zero (q_frequency (snd p)) i) (param_at zero (q_detune (snd p)) i) (param_at zero (q_gain (snd p)) i) (param_at zero (q_q (snd p)) i)) (seq 0 size).
(** the coefficients the code computes for a setting *)
Definition coefs_of {T V} (A : arith T V) (sr : V) (g : setting V) : coefs (T := T) :=
  calculate_coefs A (g_type g) (t_of_v A sr) (t_of_v A (computed_freq A (g_frequency g) (g_detune g))) (t_of_v A (g_gain g)) (t_of_v A (g_q g)).
