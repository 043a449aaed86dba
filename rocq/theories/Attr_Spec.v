(** The attributes of effect nodes: specification, from the history of calls alone. *)
From Coq Require Import List Arith Bool.
From Verif Require Import Arith_Model Quantum_Model Sched_Model Pan_Model Over_Model Filter_Model Conv_Model Attr_Model.
Import ListNotations.

(** the value given to an attribute by the latest call that [pick] looks at, [x] before there is one *)
Fixpoint latest {call quantum X : Type} (pick : call -> option X) (x : X) (l : list (event call quantum)) : X :=
  match l with
  | [] => x
  | Call c :: l' => latest pick (match pick c with Some y => y | None => x end) l'
  | Render _ :: l' => latest pick x l'
  end.
(** the value given to an attribute that can be given once *)
Fixpoint earliest {call quantum X : Type} (pick : call -> option X) (x : option X) (l : list (event call quantum)) : option X :=
  match l with
  | [] => x
  | Call c :: l' => earliest pick (match x with Some _ => x | None => pick c end) l'
  | Render _ :: l' => earliest pick x l'
  end.
(** what the user heard *)
Definition sounds {out} (ss : list (seen (out := out))) : list out := flat_map (fun s => match s with Heard o => [o] | Returned _ => [] end) ss.

(** ** Panner *)
Section Panner.
Context {T V : Type}.
Variable A : arith T V.
Notation zero := (t_zero A).
Notation one := (t_one A).
Context {quantum : Type}.
Notation history := (list (event (panner_call (T := T)) quantum)).
(** the values in the range of the attribute *)
Definition in_range (c : panner_call (T := T)) : bool :=
  match c with
  | P_set (Set_ref x) | P_set (Set_rolloff x) => t_le A zero x
  | P_set (Set_max x) => t_lt A zero x
  | P_set (Set_outer_gain x) => t_le A zero x && t_le A x one
  | _ => true
  end.
Definition valued {X} (f : panner_call (T := T) -> option X) (c : panner_call (T := T)) : option X := if in_range c then f c else None.
(** the values of the attributes after the history [l], beginning with those of the options *)
Definition settings_after (p : settings (T := T)) (l : history) : settings (T := T) :=
  mk_settings (latest (valued (fun c => match c with P_set (Set_model m) => Some m | _ => None end)) (p_model p) l)
    (latest (valued (fun c => match c with P_set (Set_ref x) => Some x | _ => None end)) (p_ref p) l)
    (latest (valued (fun c => match c with P_set (Set_max x) => Some x | _ => None end)) (p_max p) l)
    (latest (valued (fun c => match c with P_set (Set_rolloff x) => Some x | _ => None end)) (p_rolloff p) l)
    (latest (valued (fun c => match c with P_set (Set_inner x) => Some x | _ => None end)) (p_inner p) l)
    (latest (valued (fun c => match c with P_set (Set_outer x) => Some x | _ => None end)) (p_outer p) l)
    (latest (valued (fun c => match c with P_set (Set_outer_gain x) => Some x | _ => None end)) (p_outer_gain p) l).
Definition model_after (m : panning_model) (l : history) : panning_model := latest (fun c => match c with P_panning m => Some m | _ => None end) m l.
End Panner.

(** ** Wave shaper *)
Section Shaper.
Context {V quantum : Type}.
Notation history := (list (event (shaper_call (V := V)) quantum)).
Definition curve_after (curve : option (list V)) (l : history) : option (list V) := earliest (fun c => match c with W_curve c => Some c | _ => None end) curve l.
Definition mode_after (m : oversample) (l : history) : oversample := latest (fun c => match c with W_mode m => Some m | _ => None end) m l.
End Shaper.

(** what the node gets once the curve is set: the quanta and the changes of the oversampling *)
Definition shaper_ops {V} (l : list (event (shaper_call (V := V)) (nat * list (chan V) * list (chan V)))) : list (over_op (V := V)) :=
  flat_map (fun e => match e with Render (s, input, output) => [OQuantum s input output] | Call (W_mode m) => [OMode m] | Call (W_curve _) => [] end) l.

(** ** Biquad filter *)
(** the quanta, each with the type of the filter at that time *)
Fixpoint played {V} (ty : filter_type) (l : list (event filter_type (biquad_params (V := V) * nat * list (chan V) * list (chan V)))) : list (call (V := V) (filter_type * biquad_params (V := V))) :=
  match l with
  | [] => []
  | Call ty' :: l' => played ty' l'
  | Render (p, s, input, output) :: l' => mk_call _ (ty, p) s input output :: played ty l'
  end.

(** ** Convolver *)
Section Convolver.
Context {V quantum : Type}.
Notation history := (list (event (conv_call (V := V)) quantum)).
Definition normalize_after (b : bool) (l : history) : bool := latest (fun c => match c with V_normalize b => Some b | _ => None end) b l.
(** the buffers that can be set: at the sample rate of the context, of 1, 2 or 4 channels *)
Definition acceptable {T} (A : arith T V) (context_rate : V) (b : response (V := V)) : bool :=
  let '(rate, _, chs) := b in v_eq A rate context_rate && existsb (Nat.eqb (length chs)) [1; 2; 4].
Definition buffer_after {T} (A : arith T V) (context_rate : V) (b : option (response (V := V))) (l : history) : option (response (V := V)) :=
  latest (fun c => match c with V_buffer b => if acceptable A context_rate b then Some (Some b) else None | _ => None end) b l.
(** the quanta of a history *)
Definition quanta {call} (l : list (event call quantum)) : list quantum := flat_map (fun e => match e with Render q => [q] | Call _ => [] end) l.
End Convolver.
