(** The dynamics compressor: specification.

    https://webaudio.github.io/web-audio-api/#DynamicsCompressorNode *)
From Coq Require Import List Arith Bool ZArith Reals.
From Verif Require Import Quantum_Model Route_Spec Comp_Model.
Import ListNotations.
Local Open Scope R_scope.

(** the states [f] goes through *)
Fixpoint scan {X S : Type} (f : X -> S -> S) (s : S) (l : list X) : list S :=
  match l with [] => [] | x :: l' => let s' := f x s in s' :: scan f s' l' end.

(** level in decibels *)
Definition decibels (x : R) : R := if Req_EM_T x 0 then -1000 else 20 * (ln x / ln 10).
Definition of_decibels (x : R) : R := Rpower 10 (x / 20).

(** the compression curve, in decibels: the identity up to the threshold, then a knee of width [W], then slope [1 / ratio] *)
Definition compress (T W ratio x : R) : R :=
  if Rle_dec x T then x
  else if Rle_dec x (T + W) then x + (/ ratio - 1) * ((x - T) * (x - T)) / (2 * W)
  else T + W / 2 + (x - T - W / 2) / ratio.
(** the attenuation of a level *)
Definition attenuation (p : comp_params (V := R)) (level : R) : R := let x := decibels level in x - compress (m_threshold p) (m_knee p) (m_ratio p) x.
(** smoothing: the attenuation follows with the time constant of the attack when it increases, else of the release *)
Definition follow (rate : R) (p : comp_params (V := R)) (target d : R) : R :=
  let tau := exp (- / ((if Rlt_dec d target then m_attack p else m_release p) * rate)) in tau * d + (1 - tau) * target.
(** the makeup gain of the specification, in decibels: 0.6 of the inverse of what the curve makes of 0 dB *)
Definition makeup (p : comp_params (V := R)) : R := - (6 / 10) * compress (m_threshold p) (m_knee p) (m_ratio p) 0.
(** the makeup gain of the code: the straight part of the curve is extended to 0 dB *)
Definition makeup_straight (p : comp_params (V := R)) : R := let T := m_threshold p + m_knee p / 2 in - (6 / 10) * (T - T / m_ratio p).

(** the highest absolute value of frame [i] *)
Definition peak (q : list (chan R)) (i : nat) : R := fold_right Rmax 0 (map (fun c => Rabs (nth i (c_val c) 0)) q).
(** the frames of all calls: params and level *)
Definition frames_of {V} (level : list (chan V) -> nat -> V) (size : nat) (ls : list (comp_params (V := V) * nat * list (chan V))) : list (comp_params (V := V) * V) :=
  flat_map (fun l => map (fun i => (fst (fst l), level (snd l) i)) (seq 0 size)) ls.
(** what is played in quantum [k]: the input [delay] quanta before *)
Definition delayed {V} (zero : V) (size delay : nat) (inputs : list (list (chan V))) (k : nat) : list (chan V) :=
  if k <? delay then [mk_chan 0 (repeat zero size)] else nth (k - delay) inputs [].
Definition in_range (p : comp_params (V := R)) : Prop := 0 <= m_knee p /\ 1 <= m_ratio p /\ 0 < m_attack p /\ 0 < m_release p.
