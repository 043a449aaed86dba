(** Model of the attributes of the effect nodes: what the setters of PannerNode, WaveShaperNode, BiquadFilterNode and
    ConvolverNode accept, keep and send to the render thread, and what the render thread does with it.

    Source: /repo/src/node/panner.rs 398-497, 540-656, 905-923; /repo/src/node/waveshaper.rs 154-230, 479-515;
    /repo/src/node/biquad_filter.rs 601-608, 640-656, 901-908; /repo/src/node/convolver.rs 200-327, 492-505.

    The messages of a node wait in a queue; the render thread empties it, in order, before it renders a quantum
    (Thread_Model.v, C07).  The render sides are Pan_Model.v, Over_Model.v, Filter_Model.v and Conv_Model.v. *)
From Coq Require Import List Arith Bool ZArith.
From Verif Require Export Common_Model Quantum_Model.
From Verif Require Import Arith_Model Route_Spec Sched_Model Pan_Model Shape_Model Over_Model Filter_Model Conv_Model.
Import ListNotations.

(** ** A node in use *)
Section Use.
Context {handle call msg rend quantum out : Type}.
(** a call of the user on the handle: the new handle and the messages.  All assertions come before the first change. *)
Variable do_call : handle -> call -> res (handle * list msg).
(** AudioProcessor::onmessage and AudioProcessor::process *)
Variable on_msg : rend -> msg -> res rend.
Variable process : rend -> quantum -> res (rend * out).

Fixpoint deliver (r : rend) (ms : list msg) : res rend :=
  match ms with [] => Ok r | m :: ms' => do r <- on_msg r m; deliver r ms' end.

Record node_in_use := mk_use { u_handle : handle; u_queue : list msg; u_rend : rend }.
(** one event: whether the call returned, or the output of the quantum *)
Inductive seen := Returned (ok : bool) | Heard (o : out).
Definition use_step (w : node_in_use) (e : event call quantum) : res (node_in_use * seen) :=
  match e with
  | Call c =>
      match do_call (u_handle w) c with
      | Ok (h, ms) => Ok (mk_use h (u_queue w ++ ms) (u_rend w), Returned true)
      | _ => Ok (w, Returned false)
      end
  | Render q =>
      do r <- deliver (u_rend w) (u_queue w);
      do (r, o) <- process r q;
      Ok (mk_use (u_handle w) [] r, Heard o)
  end.
Fixpoint use (w : node_in_use) (l : list (event call quantum)) : res (node_in_use * list seen) :=
  match l with
  | [] => Ok (w, [])
  | e :: l' => do (w, s) <- use_step w e; do (w, ss) <- use w l'; Ok (w, s :: ss)
  end.
End Use.
Arguments mk_use {handle msg rend}. Arguments u_handle {handle msg rend}. Arguments u_queue {handle msg rend}. Arguments u_rend {handle msg rend}.
Arguments Returned {out}. Arguments Heard {out}.

Section Nodes.
Context {T V : Type}.
Variable A : arith T V.
Variable size : nat.
Notation quantum := (list (chan V)).

(** ** Panner *)
(** panner.rs 72-76 *)
Inductive panning_model := EqualPower | Hrtf.
Section Panner.
Context {H : Type}.
Variable hrtf_process : H -> list V -> V -> vec (V := V) -> H * list (V * V).
Variable hrtf_length : H -> nat.
Variable hrtf_new : H.   (* load_hrtf_processor and HrtfState::new (640-650): always the same state *)

(** 325-342 without the parameters *)
Record panner_handle := mk_panner_handle { ph_settings : settings (T := T); ph_model : panning_model }.
Inductive panner_call := P_set (o : setter (T := T)) | P_panning (m : panning_model).
(** 170-179 ControlMessage *)
Inductive panner_msg := M_set (o : setter (T := T)) | M_hrtf (h : option H).
(** 640-655 *)
Definition set_panning_model (h : panner_handle) (m : panning_model) : panner_handle * list panner_msg :=
  (mk_panner_handle (ph_settings h) m, [M_hrtf (match m with EqualPower => None | Hrtf => Some hrtf_new end)]).
(** 550-637: check, store, send *)
Definition panner_do (h : panner_handle) (c : panner_call) : res (panner_handle * list panner_msg) :=
  match c with
  | P_set o => do p <- set A (ph_settings h) o; Ok (mk_panner_handle p (ph_model h), [M_set o])
  | P_panning m => Ok (set_panning_model h m)
  end.
(** 907-915: the field is overwritten, without a check *)
Definition overwrite (p : settings (T := T)) (o : setter (T := T)) : settings (T := T) :=
  match o with
  | Set_model m => mk_settings m (p_ref p) (p_max p) (p_rolloff p) (p_inner p) (p_outer p) (p_outer_gain p)
  | Set_ref x => mk_settings (p_model p) x (p_max p) (p_rolloff p) (p_inner p) (p_outer p) (p_outer_gain p)
  | Set_max x => mk_settings (p_model p) (p_ref p) x (p_rolloff p) (p_inner p) (p_outer p) (p_outer_gain p)
  | Set_rolloff x => mk_settings (p_model p) (p_ref p) (p_max p) x (p_inner p) (p_outer p) (p_outer_gain p)
  | Set_inner x => mk_settings (p_model p) (p_ref p) (p_max p) (p_rolloff p) x (p_outer p) (p_outer_gain p)
  | Set_outer x => mk_settings (p_model p) (p_ref p) (p_max p) (p_rolloff p) (p_inner p) x (p_outer_gain p)
  | Set_outer_gain x => mk_settings (p_model p) (p_ref p) (p_max p) (p_rolloff p) (p_inner p) (p_outer p) x
  end.
(** 906-923 *)
Definition panner_on_msg (n : panner (T := T) (H := H)) (m : panner_msg) : res (panner (T := T) (H := H)) :=
  match m with
  | M_set o => Ok (mk_panner (overwrite (n_settings n) o) (n_hrtf n) (n_tail n))
  | M_hrtf h => Ok (mk_panner (n_settings n) h (n_tail n))
  end.
(** what a quantum gets: the number for new buffers, the input, the output before, the parameters *)
Definition panner_process (n : panner (T := T) (H := H)) (q : nat * quantum * quantum * positions (V := V)) : res (panner (T := T) (H := H) * (quantum * bool)) :=
  let '(s, input, output, l) := q in
  do (n, o, b) <- panner_quantum A size hrtf_process hrtf_length n s input output l; Ok (n, (o, b)).
(** 398-497: the checks, the renderer without impulse responses, and the message of 494 *)
Definition panner_create (p : settings (T := T)) (m : panning_model) : res (node_in_use (handle := panner_handle) (msg := panner_msg) (rend := panner (T := T) (H := H))) :=
  do _ <- check (settings_valid A p);
  let '(h, ms) := set_panning_model (mk_panner_handle p m) m in
  Ok (mk_use h ms (mk_panner p None 0)).
Definition panner_use (p : settings (T := T)) (m : panning_model) (l : list (event panner_call (nat * quantum * quantum * positions (V := V)))) :=
  do w <- panner_create p m; use panner_do panner_on_msg panner_process w l.
End Panner.

(** ** Wave shaper *)
Section Shaper.
Context {RS : Type}.
Variable new : nat -> nat -> RS.
Variable step : RS -> list V -> RS * list V.
(** waveshaper.rs 118-128 *)
Record shaper_handle := mk_shaper_handle { wh_curve : option (list V); wh_mode : oversample }.
Inductive shaper_call := W_curve (curve : list V) | W_mode (m : oversample).
Inductive shaper_msg := M_curve (curve : list V) | M_mode (m : oversample).
Definition shaper_do (h : shaper_handle) (c : shaper_call) : res (shaper_handle * list shaper_msg) :=
  match c with
  | W_curve curve => (* 203-213 *)
      do _ <- check (match wh_curve h with None => true | Some _ => false end);
      Ok (mk_shaper_handle (Some curve) (wh_mode h), [M_curve curve])
  | W_mode m => (* 226-229 *) Ok (mk_shaper_handle (wh_curve h) m, [M_mode m])
  end.
(** 479-515 *)
Definition shaper_on_msg (st : oshaper (V := V) (RS := RS)) (m : shaper_msg) : res (oshaper (V := V) (RS := RS)) :=
  match m with
  | M_curve curve => do sh <- set_curve A curve; Ok (mk_oshaper (o_mode st) sh (o_x2 st) (o_x4 st))
  | M_mode m => Ok (mk_oshaper m (o_shaper st) (o_x2 st) (o_x4 st))
  end.
Definition shaper_process (st : oshaper (V := V) (RS := RS)) (q : nat * quantum * quantum) : res (oshaper (V := V) (RS := RS) * quantum) :=
  let '(s, input, output) := q in over_quantum A size new step st s input output.
(** 154-188: the curve of the options is set like by a call *)
Definition shaper_create (curve : option (list V)) (m : oversample) : node_in_use (handle := shaper_handle) (msg := shaper_msg) (rend := oshaper (V := V) (RS := RS)) :=
  match curve with
  | None => mk_use (mk_shaper_handle None m) [] (oshaper_new new m)
  | Some c => mk_use (mk_shaper_handle (Some c) m) [M_curve c] (oshaper_new new m)
  end.
Definition shaper_use (curve : option (list V)) (m : oversample) (l : list (event shaper_call (nat * quantum * quantum))) :=
  use shaper_do shaper_on_msg shaper_process (shaper_create curve m) l.
End Shaper.

(** ** Biquad filter *)
(** biquad_filter.rs 653-656; the handle is the type *)
Definition biquad_do (h c : filter_type) : res (filter_type * list filter_type) := Ok (c, [c]).
(** 901-908; the renderer is the type and the states of the channels *)
Definition biquad_on_msg (r : filter_type * list (xy (T := T))) (m : filter_type) : res (filter_type * list (xy (T := T))) := Ok (m, snd r).
(** what a quantum gets: the values of the parameters, the number for new buffers, the input, the output before *)
Definition biquad_process (rate : V) (r : filter_type * list (xy (T := T))) (q : biquad_params (V := V) * nat * quantum * quantum) : res (filter_type * list (xy (T := T)) * (quantum * bool)) :=
  let '(p, s, input, output) := q in
  do (st, o, b) <- biquad_quantum A size (fst r) rate p (snd r) s input output; Ok ((fst r, st), (o, b)).
(** 601-625 *)
Definition biquad_use (rate : V) (ty : filter_type) (l : list (event filter_type (biquad_params (V := V) * nat * quantum * quantum))) :=
  use biquad_do biquad_on_msg (biquad_process rate) (mk_use ty [] (ty, [])) l.

(** ** Convolver *)
Section Convolver.
Context {E : Type}.
Variable fresh : list V -> E.
Variable run : E -> list V -> E * list V.
(** a buffer: its sample rate, its length and its channels *)
Definition response : Type := V * nat * list (list V).
(** convolver.rs 158-167 *)
Record conv_handle := mk_conv_handle { ch_normalize : bool; ch_buffer : option response }.
Inductive conv_call := V_buffer (b : response) | V_normalize (b : bool).
(** 259-327; the message is sent before the buffer is stored *)
Definition conv_do (context_rate : V) (h : conv_handle) (c : conv_call) : res (conv_handle * list (message E)) :=
  match c with
  | V_buffer b => let '(rate, len, chs) := b in
      do m <- set_buffer A fresh (ch_normalize h) context_rate rate len chs; Ok (mk_conv_handle (ch_normalize h) (Some b), [m])
  | V_normalize b => Ok (mk_conv_handle b (ch_buffer h), [])
  end.
Definition conv_on_msg (st : conv E) (m : message E) : res (conv E) := Ok (on_message st m).
Definition conv_quantum (st : conv E) (q : nat * quantum * quantum) : res (conv E * (quantum * bool)) :=
  let '(s, input, output) := q in do (st, o, b) <- conv_process A size run st s input output; Ok (st, (o, b)).
(** 200-247: the buffer of the options is set like by a call *)
Definition conv_create (context_rate : V) (normalize : bool) (buffer : option response) : res (node_in_use (handle := conv_handle) (msg := message E) (rend := conv E)) :=
  let h := mk_conv_handle normalize None in
  match buffer with
  | None => Ok (mk_use h [] conv_new)
  | Some b => do (h, ms) <- conv_do context_rate h (V_buffer b); Ok (mk_use h ms conv_new)
  end.
Definition conv_use (context_rate : V) (normalize : bool) (buffer : option response) (l : list (event conv_call (nat * quantum * quantum))) :=
  do w <- conv_create context_rate normalize buffer; use (conv_do context_rate) conv_on_msg conv_quantum w l.
End Convolver.
End Nodes.
Arguments P_set {T}. Arguments P_panning {T}. Arguments mk_panner_handle {T}. Arguments ph_settings {T}. Arguments ph_model {T}.
Arguments W_curve {V}. Arguments W_mode {V}. Arguments mk_shaper_handle {V}. Arguments wh_curve {V}. Arguments wh_mode {V}.
Arguments V_buffer {V}. Arguments V_normalize {V}. Arguments mk_conv_handle {V}. Arguments ch_normalize {V}. Arguments ch_buffer {V}.
