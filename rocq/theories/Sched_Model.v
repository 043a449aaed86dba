(** Model of the control side of the scheduled sources: what the calls of the handles of ConstantSourceNode,
    OscillatorNode and AudioBufferSourceNode accept, keep and send to the render thread.

    Source: /repo/src/node/constant_source.rs 101-128, 130-175, /repo/src/node/oscillator.rs 137-200, 210-277, 301-337,
    /repo/src/node/audio_buffer_source.rs 107-350, /repo/src/lib.rs 239-250.

    The render side is Source_Model.v and Absn_Model.v.  A message reaches the renderer before the next quantum
    that is rendered after the call (C07); calls and quanta are therefore one list. *)
From Coq Require Import List Arith Bool ZArith.
From Verif Require Export Common_Model.
From Verif Require Import Arith_Model Source_Model Absn_Model.
Import ListNotations.

Section Sched.
Context {T V : Type}.
Variable A : arith T V.

(** lib.rs 239-250 assert_valid_time_value *)
Definition assert_valid_time (t : T) : res unit :=
  do _ <- check (t_finite A t);
  check (t_le A (t_zero A) t).

(** What happens: a call of the user, or a quantum with the values of the parameters. *)
Inductive event (call quantum : Type) := Call (c : call) | Render (q : quantum).
Arguments Call {call quantum}. Arguments Render {call quantum}.

(** A handle in use: the calls change the handle and send messages.  All assertions come before the first
    change, so a call that panics leaves the handle as it was and sends nothing. *)
Section Session.
Context {handle call quantum action : Type}.
Variable do_call : handle -> call -> res (handle * list action).
Variable render : quantum -> action.
(** the handle at the end, which calls returned, and what the renderer gets *)
Fixpoint session (h : handle) (l : list (event call quantum)) : handle * list bool * list action :=
  match l with
  | [] => (h, [], [])
  | Render q :: l' => let '(h', rs, ms) := session h l' in (h', rs, render q :: ms)
  | Call c :: l' =>
      match do_call h c with
      | Ok (h1, m) => let '(h', rs, ms) := session h1 l' in (h', true :: rs, m ++ ms)
      | _ => let '(h', rs, ms) := session h l' in (h', false :: rs, ms)
      end
  end.
End Session.

(** ** Constant source *)

(** The trait AudioScheduledSourceNode, scheduled_source.rs 6-33; [now] is what current_time() returns. *)
Inductive cs_call := S_start (now : T) | S_start_at (when : T) | S_stop (now : T) | S_stop_at (when : T).
(** constant_source.rs 107-116 start_at, 123-128 stop_at; the handle is has_start *)
Definition cs_start_at (has_start : bool) (when : T) : res (bool * list (@cs_action T V)) :=
  do _ <- assert_valid_time when;
  do _ <- check (negb has_start);
  Ok (true, [Start when]).
Definition cs_stop_at (has_start : bool) (when : T) : res (bool * list (@cs_action T V)) :=
  do _ <- assert_valid_time when;
  do _ <- check has_start;
  Ok (has_start, [Stop when]).
(** 102-105, 118-121 *)
Definition cs_do (has_start : bool) (c : cs_call) : res (bool * list (@cs_action T V)) :=
  match c with
  | S_start now => cs_start_at has_start now
  | S_start_at when => cs_start_at has_start when
  | S_stop now => cs_stop_at has_start now
  | S_stop_at when => cs_stop_at has_start when
  end.
(** 164-172: a new source has not been started *)
Definition cs_session (l : list (event cs_call (list V))) : bool * list bool * list (@cs_action T V) := session cs_do (@Quantum T V) false l.

(** ** Oscillator *)

(** oscillator.rs 137-151 *)
Record osc_handle := mk_osc_handle { oh_type : wave_type; oh_start : bool }.
(** a periodic wave is its table (PeriodicWave::as_slice) *)
Inductive osc_call := O_sched (c : cs_call) | O_set_type (ty : wave_type) | O_set_wave (table : list V).
Definition is_custom (ty : wave_type) : bool := match ty with Custom => true | _ => false end.
(** 174-188 *)
Definition osc_start_at (h : osc_handle) (when : T) : res (osc_handle * list (@osc_action T V)) :=
  do _ <- assert_valid_time when;
  do _ <- check (negb (oh_start h));
  Ok (mk_osc_handle (oh_type h) true, [O_start when]).
(** 190-200 *)
Definition osc_stop_at (h : osc_handle) (when : T) : res (osc_handle * list (@osc_action T V)) :=
  do _ <- assert_valid_time when;
  do _ <- check (oh_start h);
  Ok (h, [O_stop when]).
(** 334-337 set_periodic_wave *)
Definition osc_set_wave (h : osc_handle) (w : list V) : osc_handle * list (@osc_action T V) := (mk_osc_handle Custom (oh_start h), [O_wave w]).
Definition osc_do (h : osc_handle) (c : osc_call) : res (osc_handle * list (@osc_action T V)) :=
  match c with
  | O_sched (S_start now) => osc_start_at h now
  | O_sched (S_start_at when) => osc_start_at h when
  | O_sched (S_stop now) => osc_stop_at h now
  | O_sched (S_stop_at when) => osc_stop_at h when
  | O_set_type ty => (* 314-327 *)
      do _ <- check (negb (is_custom ty));
      if is_custom (oh_type h) then Ok (h, []) else Ok (mk_osc_handle ty (oh_start h), [O_type ty])
  | O_set_wave w => Ok (osc_set_wave h w)
  end.
(** 257-277: the new handle, and the message sent when the options have a periodic wave *)
Definition osc_create (ty : wave_type) (wave : option (list V)) : osc_handle * list (@osc_action T V) :=
  let h := mk_osc_handle ty false in
  match wave with Some w => osc_set_wave h w | None => (h, []) end.
Definition osc_render (q : list V * list V) : @osc_action T V := O_quantum (fst q) (snd q).
Definition osc_session (ty : wave_type) (wave : option (list V)) (l : list (event osc_call (list V * list V))) : osc_handle * list bool * list (@osc_action T V) :=
  let '(h, m) := osc_create ty wave in
  let '(h', rs, ms) := session osc_do osc_render h l in (h', rs, m ++ ms).

(** ** Buffer source *)

(** audio_buffer_source.rs 107-117 *)
Record absn_handle := mk_absn_handle { ah_buffer : option (@buffer V); ah_loop : bool; ah_lstart : T; ah_lend : T; ah_start : bool }.
Inductive absn_call :=
  | B_sched (c : cs_call) | B_start_offset (when offset : T) | B_start_duration (when offset duration : T)
  | B_set_buffer (b : @buffer V) | B_set_loop (b : bool) | B_set_loop_start (t : T) | B_set_loop_end (t : T).
(** 253-266 *)
Definition absn_start_at (h : absn_handle) (when offset duration : T) : res (absn_handle * list (@absn_action T V)) :=
  do _ <- assert_valid_time when;
  do _ <- assert_valid_time offset;
  do _ <- assert_valid_time duration;
  do _ <- check (negb (ah_start h));
  Ok (mk_absn_handle (ah_buffer h) (ah_loop h) (ah_lstart h) (ah_lend h) true, [A_start when offset duration]).
(** 152-157 *)
Definition absn_stop_at (h : absn_handle) (when : T) : res (absn_handle * list (@absn_action T V)) :=
  do _ <- assert_valid_time when;
  do _ <- check (ah_start h);
  Ok (h, [A_stop when]).
(** 278-289 *)
Definition absn_set_buffer (h : absn_handle) (b : @buffer V) : res (absn_handle * list (@absn_action T V)) :=
  do _ <- check (match ah_buffer h with None => true | Some _ => false end);
  Ok (mk_absn_handle (Some b) (ah_loop h) (ah_lstart h) (ah_lend h) (ah_start h), [A_buffer b]).
Definition absn_do (h : absn_handle) (c : absn_call) : res (absn_handle * list (@absn_action T V)) :=
  match c with
  | B_sched (S_start now) => absn_start_at h now (t_zero A) (t_MAX A)        (* 138-141 *)
  | B_sched (S_start_at when) => absn_start_at h when (t_zero A) (t_MAX A)   (* 143-145 *)
  | B_sched (S_stop now) => absn_stop_at h now                               (* 147-150 *)
  | B_sched (S_stop_at when) => absn_stop_at h when
  | B_start_offset when offset => absn_start_at h when offset (t_MAX A)      (* 244-246 *)
  | B_start_duration when offset duration => absn_start_at h when offset duration
  | B_set_buffer b => absn_set_buffer h b
  | B_set_loop b => Ok (mk_absn_handle (ah_buffer h) b (ah_lstart h) (ah_lend h) (ah_start h), [A_loop b])          (* 324-327 *)
  | B_set_loop_start t => Ok (mk_absn_handle (ah_buffer h) (ah_loop h) t (ah_lend h) (ah_start h), [A_lstart t])    (* 334-338 *)
  | B_set_loop_end t => Ok (mk_absn_handle (ah_buffer h) (ah_loop h) (ah_lstart h) t (ah_start h), [A_lend t])      (* 345-349 *)
  end.
(** 216-236: the buffer of the options is set like by a call *)
Definition absn_create (buffer : option (@buffer V)) (looping : bool) (lstart lend : T) : res (absn_handle * list (@absn_action T V)) :=
  let h := mk_absn_handle None looping lstart lend false in
  match buffer with Some b => absn_set_buffer h b | None => Ok (h, []) end.
Definition absn_render (q : V * V) : @absn_action T V := A_quantum (fst q) (snd q).
Definition absn_session (buffer : option (@buffer V)) (looping : bool) (lstart lend : T) (l : list (event absn_call (V * V))) : res (absn_handle * list bool * list (@absn_action T V)) :=
  do x <- absn_create buffer looping lstart lend;
  let '(h', rs, ms) := session absn_do absn_render (fst x) l in Ok (h', rs, snd x ++ ms).
End Sched.
Arguments Call {call quantum}. Arguments Render {call quantum}.
