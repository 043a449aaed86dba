(** The analyser: specification.

    https://webaudio.github.io/web-audio-api/#AnalyserNode *)
From Coq Require Import List Arith Bool ZArith Reals.
From Flocq Require Import Core.
From Verif Require Import Arith_Model Arith_Real Quantum_Model Quantum_Spec Route_Spec Analyser_Model.
Import ListNotations.

(** the [n] most recent samples of a signal that was zero before it started *)
Definition recent {V} (zero : V) (n : nat) (signal : list V) : list V := skipn (length signal) (repeat zero n ++ signal).

(** the allowed sizes: 32, 64, ..., 32768 *)
Definition allowed_sizes : list nat := map (fun k => (2 ^ k)%nat) (seq 5 11).
Definition allowed_size (n : nat) : bool := existsb (Nat.eqb n) allowed_sizes.

(** samples the writer has stored *)
Definition published {V} (w : writer_state (V := V)) : list V := concat (w_done w).
Definition stored {V} (w : writer_state (V := V)) : nat := length (published w) + match w_now w with Some (_, l, _) => length l | None => 0 end.

(** the settings and the signal, as a user sees them *)
Section Reference.
Context {T V : Type}.
Variable valid_smoothing : T -> bool.
Variable valid_decibels : T -> T -> bool.
Variable mono : nat -> list (chan V) -> list V.
Record settings := mk_settings { e_signal : list V; e_fft : nat; e_smoothing : T; e_min : T; e_max : T }.
Definition settle (e : settings) (o : analyser_op (T := T) (V := V)) : settings :=
  let '(mk_settings x n s a b) := e in
  match o with
  | Render i q => mk_settings (x ++ mono i q) n s a b
  | SetFftSize m => if allowed_size m then mk_settings x m s a b else e
  | SetSmoothing y => if valid_smoothing y then mk_settings x n y a b else e
  | SetDecibels a' b' => if valid_decibels a' b' then mk_settings x n s a' b' else e
  | SetMin a' => if valid_decibels a' b then mk_settings x n s a' b else e
  | SetMax b' => if valid_decibels a b' then mk_settings x n s a b' else e
  | _ => e
  end.
Definition settled (e : settings) (os : list analyser_op) : settings := fold_left settle os e.
(** whether a setter is accepted *)
Definition accepted (e : settings) (o : analyser_op (T := T) (V := V)) : bool :=
  match o with
  | SetFftSize m => allowed_size m
  | SetSmoothing y => valid_smoothing y
  | SetDecibels a b => valid_decibels a b
  | SetMin a => valid_decibels a (e_max e)
  | SetMax b => valid_decibels (e_min e) b
  | _ => true
  end.
End Reference.
Arguments mk_settings {T V}. Arguments e_signal {T V}. Arguments e_fft {T V}. Arguments e_smoothing {T V}. Arguments e_min {T V}. Arguments e_max {T V}.

(** the answers, for any arithmetic *)
Section Answers.
Context {T V : Type}.
Variable A : arith T V.
Variable size : nat.
Notation zero := (v_zero A).
Notation op := (analyser_op (T := T) (V := V)).
Notation settings := (settings (T := T) (V := V)).
Notation accepted := (accepted (valid_smoothing A) (valid_decibels A)).
(** the mono signal of a quantum (see [mono_signal] below) *)
Definition mono (s : nat) (q : list (chan V)) : list V := match mix (sops_of A) size s q 1 Speakers with Some (_, c :: _) => c_val c | _ => [] end.
(** a quantum has channels of [size] samples *)
Definition op_fine (o : op) : Prop := match o with Render _ q => q <> [] /\ Forall (fun c => length (c_val c) = size) q | _ => True end.
(** the answer to an operation *)
Definition reply (e : settings) (o : op) (r : analyser_result (V := V)) : Prop :=
  match o with
  | Render _ q => r = Rendered q
  | FloatTime dst => let n := min (length dst) (e_fft e) in r = Floats (recent zero n (e_signal e) ++ skipn n dst)
  | ByteTime dst => let n := min (length dst) (e_fft e) in r = Bytes (map (byte_of_sample A) (recent zero n (e_signal e)) ++ repeat (byte_of_sample A zero) (length dst - n))
  | FloatFrequency dst _ => exists l, let n := min (length dst) (e_fft e / 2) in r = Floats (l ++ skipn n dst) /\ length l = n
  | ByteFrequency dst _ => exists l, let n := min (length dst) (e_fft e / 2) in r = Bytes (l ++ skipn n dst) /\ length l = n
  | _ => r = if accepted e o then Set_ else Rejected
  end.
End Answers.

Local Open Scope R_scope.
(** the mono signal of a quantum of real samples *)
Definition mono_signal (size : nat) (q : list (chan R)) : list R := map (fun t => nth 0 (mix_frame Speakers 1 (frame q t)) 0) (seq 0 size).
(** b[k] = floor(128 (1 + x[k])), clipped to 0 .. 255 *)
Definition byte_of (x : R) : Z := Z.max 0 (Z.min 255 (Zfloor (128 * (1 + x)))).

(** the Blackman window with alpha = 0.16 *)
Definition window (N n : nat) : R := (1 - 16 / 100) / 2 - 1 / 2 * cos (2 * PI * INR n / INR N) + (16 / 100) / 2 * cos (4 * PI * INR n / INR N).
(** the discrete Fourier transform *)
Definition sum (f : nat -> R) (n : nat) : R := fold_right Rplus 0 (map f (seq 0 n)).
Definition dft_re (x : list R) (k : nat) : R := sum (fun n => nth n x 0 * cos (2 * PI * INR k * INR n / INR (length x))) (length x).
Definition dft_im (x : list R) (k : nat) : R := - sum (fun n => nth n x 0 * sin (2 * PI * INR k * INR n / INR (length x))) (length x).
(** the bins 0 to n/2 *)
Definition dft (x : list R) : list (R * R) := map (fun k => (dft_re x k, dft_im x k)) (seq 0 (length x / 2 + 1)).
(** magnitude of bin [k] of the windowed signal, divided by its length *)
Definition magnitude (x : list R) (k : nat) : R :=
  let N := length x in
  let xw := map (fun n => nth n x 0 * window N n) (seq 0 N) in
  sqrt (dft_re xw k * dft_re xw k + dft_im xw k * dft_im xw k) / INR N.
Definition decibels_of (y : R) : R := 20 * (ln y / ln 10).
Definition byte_of_decibels (min max d : R) : Z := Z.max 0 (Z.min 255 (Zfloor (255 / (max - min) * (d - min)))).

(** the smoothed spectrum: it is updated by the first request at each time, and set to zero when the size changes *)
Record spectrum := mk_spectrum { z_level : nat -> R; z_time : option R }.
Definition refresh (e : settings (T := R) (V := R)) (now : R) (z : spectrum) : spectrum :=
  if match z_time z with Some t => if Req_EM_T now t then true else false | None => false end then z
  else mk_spectrum (fun k => e_smoothing e * z_level z k + (1 - e_smoothing e) * magnitude (recent 0 (e_fft e) (e_signal e)) k) (Some now).
Definition observe (e : settings (T := R) (V := R)) (z : spectrum) (o : analyser_op (T := R) (V := R)) : spectrum :=
  match o with
  | SetFftSize m => if allowed_size m && negb (m =? e_fft e) then mk_spectrum (fun _ => 0) (z_time z) else z
  | FloatFrequency _ now | ByteFrequency _ now => refresh e now z
  | _ => z
  end.

Definition view (size : nat) (ez : settings (T := R) (V := R) * spectrum) (o : analyser_op (T := R) (V := R)) : settings (T := R) (V := R) * spectrum :=
  (settle (valid_smoothing exact) (valid_decibels exact) (mono exact size) (fst ez) o, observe (fst ez) (snd ez) o).
(** the answers of the frequency domain; the results for level zero (minus infinity decibels) are left out *)
Definition answer (e : settings (T := R) (V := R)) (z : spectrum) (o : analyser_op (T := R) (V := R)) (r : analyser_result (V := R)) : Prop :=
  match o with
  | FloatFrequency dst now => exists l, r = Floats l /\ forall k, (k < length dst)%nat -> (k < e_fft e / 2)%nat -> 0 < z_level (refresh e now z) k -> nth k l 0 = decibels_of (z_level (refresh e now z) k)
  | ByteFrequency dst now => exists l, r = Bytes l /\ forall k, (k < length dst)%nat -> (k < e_fft e / 2)%nat -> 0 < z_level (refresh e now z) k -> nth k l 0%Z = byte_of_decibels (e_min e) (e_max e) (decibels_of (z_level (refresh e now z) k))
  | _ => True
  end.
