(** The events of a context and of its nodes: how they are packed, dispatched and unpacked for the callbacks.

    Source: /repo/src/events.rs 22-34, 84-264, and the functions that install callbacks: /repo/src/node/scheduled_source.rs 44-56,
    /repo/src/node/audio_node.rs 449-464, /repo/src/message_port.rs 34-53, /repo/src/node/script_processor.rs 146-172,
    /repo/src/capacity.rs 144-162, /repo/src/context/base.rs 342-358, /repo/src/context/online.rs 459-475, 484-510,
    /repo/src/context/offline.rs 404-426.

    Event_Model.v has the loop with opaque events; here events have their types and payloads, and callbacks their unpacking,
    with [unreachable!()] as a panic.  Simplification: buffers, reports, errors and messages are numbers. *)
From Coq Require Import List Arith Bool.
From Verif Require Import Common_Model.
Import ListNotations.

(** context/mod.rs: AudioContextState *)
Inductive context_state := Suspended | Running | Closed.
(** events.rs 22-34: EventType; [nat]: the id of a node *)
Inductive topic := T_ended (n : nat) | T_sink_change | T_state_change | T_render_capacity | T_processor_error (n : nat) | T_diagnostics
  | T_message (n : nat) | T_complete | T_audio_processing (n : nat).
(** events.rs 84-95: EventPayload *)
Inductive payload := P_none | P_render_capacity (x : nat) | P_processor_error (x : nat) | P_diagnostics (x : nat) | P_message (x : nat)
  | P_state (c : context_state) | P_complete (x : nat) | P_audio_processing (x : nat).
(** derive(Eq) of EventType *)
Definition topic_eqb (a b : topic) : bool :=
  match a, b with
  | T_ended n, T_ended m | T_processor_error n, T_processor_error m | T_message n, T_message m | T_audio_processing n, T_audio_processing m => n =? m
  | T_sink_change, T_sink_change | T_state_change, T_state_change | T_render_capacity, T_render_capacity | T_diagnostics, T_diagnostics | T_complete, T_complete => true
  | _, _ => false
  end.

(** what happens in the context *)
Inductive news := Ended (n : nat) | Sink_changed | State_changed (c : context_state) | Capacity (x : nat) | Error (n x : nat) | Report (x : nat)
  | Posted (n x : nat) | Completed (x : nat) | Block (n x : nat).
(** events.rs 104-166: the constructors of EventDispatch *)
Definition dispatch (e : news) : topic * payload :=
  match e with
  | Ended n => (T_ended n, P_none)
  | Sink_changed => (T_sink_change, P_none)
  | State_changed c => (T_state_change, P_state c)
  | Capacity x => (T_render_capacity, P_render_capacity x)
  | Error n x => (T_processor_error n, P_processor_error x)
  | Report x => (T_diagnostics, P_diagnostics x)
  | Posted n x => (T_message n, P_message x)
  | Completed x => (T_complete, P_complete x)
  | Block n x => (T_audio_processing n, P_audio_processing x)
  end.

(** the functions that install a callback *)
Inductive setter := On_ended (n : nat) | On_sink_change | On_state_change | On_update | On_processor_error (n : nat) | Run_diagnostics
  | On_message (n : nat) | On_complete | On_audio_process (n : nat).
(** what a callback of the user is given: an Event with its type, or the thing itself; for audio processing also the node that
    the answer goes to *)
Inductive given := Event_ended | Event_sink_change | Event_state_change | Capacity_event (x : nat) | Error_event (x : nat) | Diagnostics_report (x : nat)
  | Message_data (x : nat) | Completion_event (x : nat) | Processing_event (x n : nat).
(** the type of event each is installed for *)
Definition topic_of (f : setter) : topic :=
  match f with
  | On_ended n => T_ended n
  | On_sink_change => T_sink_change
  | On_state_change => T_state_change
  | On_update => T_render_capacity
  | On_processor_error n => T_processor_error n
  | Run_diagnostics => T_diagnostics
  | On_message n => T_message n
  | On_complete => T_complete
  | On_audio_process n => T_audio_processing n
  end.
(** EventHandler::Once or EventHandler::Multiple *)
Definition is_once (f : setter) : bool :=
  match f with On_ended _ | On_processor_error _ | Run_diagnostics | On_complete => true | _ => false end.
(** the closures around the callbacks *)
Definition unpack (f : setter) (p : payload) : res given :=
  match f with
  | On_ended _ => Ok Event_ended
  | On_sink_change => Ok Event_sink_change
  | On_state_change => Ok Event_state_change
  | On_update => match p with P_render_capacity x => Ok (Capacity_event x) | _ => Panic end
  | On_processor_error _ => match p with P_processor_error x => Ok (Error_event x) | _ => Panic end
  | Run_diagnostics => match p with P_diagnostics x => Ok (Diagnostics_report x) | _ => Panic end
  | On_message _ => match p with P_message x => Ok (Message_data x) | _ => Panic end
  | On_complete => match p with P_complete x => Ok (Completion_event x) | _ => Panic end
  | On_audio_process n => match p with P_audio_processing x => Ok (Processing_event x n) | _ => Panic end
  end.

(** [table]: the handlers, with the callback of the user; [running]: the callback that runs and the type of its event; [stopped]: the
    loop has been left; [calls]: what callbacks were given; [unreachable]: a closure met a payload it does not expect *)
Record state := mk_state { table : list (topic * (setter * nat)); queue : list (topic * payload); running : option (topic * (setter * nat)); stopped : bool;
  calls : list (nat * given); unreachable : bool }.
Definition start : state := mk_state [] [] None false [] false.
Definition without (t : topic) (l : list (topic * (setter * nat))) : list (topic * (setter * nat)) := filter (fun p => negb (topic_eqb (fst p) t)) l.
Definition handler_of (t : topic) (l : list (topic * (setter * nat))) : option (setter * nat) :=
  match find (fun p => topic_eqb (fst p) t) l with Some (_, h) => Some h | None => None end.

Inductive action :=
  | Install (f : setter) (cb : nat)  (* 257-259 *)
  | Clear (f : setter)               (* 261-263 *)
  | Emit (e : news)                  (* an event enters the queue *)
  | Take                             (* 188-216: the loop takes an event, and calls its handler *)
  | Return.                          (* 216-224: the callback returns *)
(** [None]: the step cannot be made in this state *)
Definition act (s : state) (a : action) : option state :=
  match a with
  | Install f cb => Some (mk_state ((topic_of f, (f, cb)) :: without (topic_of f) (table s)) (queue s) (running s) (stopped s) (calls s) (unreachable s))
  | Clear f => Some (mk_state (without (topic_of f) (table s)) (queue s) (running s) (stopped s) (calls s) (unreachable s))
  | Emit e => Some (mk_state (table s) (queue s ++ [dispatch e]) (running s) (stopped s) (calls s) (unreachable s))
  | Take =>
      match running s, stopped s, queue s with
      | None, false, (t, p) :: q =>
          (* 190-197 *)
          let '(p', stop) := match p with P_state Closed => (P_none, true) | _ => (p, false) end in
          match handler_of t (table s) with
          | None => Some (mk_state (table s) q None stop (calls s) (unreachable s))
          | Some (f, cb) =>
              match unpack f p' with
              | Ok g => Some (mk_state (without t (table s)) q (Some (t, (f, cb))) stop (calls s ++ [(cb, g)]) (unreachable s))
              | _ => Some (mk_state (without t (table s)) q None true (calls s) true)
              end
          end
      | _, _, _ => None
      end
  | Return =>
      match running s with
      | Some (t, (f, cb)) =>
          let l := if is_once f then table s else (t, (f, cb)) :: without t (table s) in
          Some (mk_state l (queue s) None (stopped s) (calls s) (unreachable s))
      | None => None
      end
  end.
Fixpoint acts (s : state) (l : list action) : option state :=
  match l with [] => Some s | a :: l' => match act s a with Some s' => acts s' l' | None => None end end.
