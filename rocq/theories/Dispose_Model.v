(** What becomes of the data that clients hand to nodes: audio buffers, periodic waves, convolvers, curves, impulse responses.

    Source: /repo/src/render/thread.rs 114-134, 199-204, 543-581 (the garbage collector), the [onmessage] of the
    processors, cited below, /repo/src/render/graph.rs 551-560 (a node is removed), /repo/src/context/mod.rs 132-140
    (a message is posted).

    A piece of data is a number; [None] is a value that needs no memory (an empty buffer, no curve).  Simplifications: a
    processor holds one piece of data; the thread that drops the render thread counts as the render thread; the rest
    of what the messages and processors do is not modelled. *)
From Coq Require Import List Arith Bool.
Import ListNotations.

Notation slot := (option nat).
Definition held (s : slot) : list nat := match s with Some r => [r] | None => [] end.

(** processors that hold data, and all others (worklet.rs 111-113: the message is left as it is) *)
Inductive kind := Buffer_source | Oscillator | Convolver | Wave_shaper | Panner | Other.

(** [onmessage]: the new content of the processor, what is left in the message, and what is dropped on the way *)
(** audio_buffer_source.rs 853-866 *)
Definition receive_buffer (current msg : slot) : slot * slot * list nat :=
  match current with Some _ => (msg, current, []) | None => (msg, None, []) end.
(** oscillator.rs 487-497 *)
Definition receive_wave (current msg : slot) : slot * slot * list nat :=
  match current with Some _ => (msg, current, []) | None => (msg, None, []) end.
(** convolver.rs 493-505: swap *)
Definition receive_convolvers (current msg : slot) : slot * slot * list nat := (msg, current, []).
(** waveshaper.rs 495-512: swap *)
Definition receive_curve (current msg : slot) : slot * slot * list nat := (msg, current, []).
(** panner.rs 916: [self.hrtf_state = value.take()] *)
Definition receive_hrtf (current msg : slot) : slot * slot * list nat := (msg, None, held current).
Definition receive (k : kind) (current msg : slot) : slot * slot * list nat :=
  match k with
  | Buffer_source => receive_buffer current msg
  | Oscillator => receive_wave current msg
  | Convolver => receive_convolvers current msg
  | Wave_shaper => receive_curve current msg
  | Panner => receive_hrtf current msg
  | Other => (current, msg, [])
  end.

(** the queue to the garbage collector: a message, or the end (556-557) *)
Inductive item := Content (s : slot) | Terminate.
Inductive who := Render | Collector.

(** [collector]: it has been started (114-120) and has not ended; [sends]: the render thread has the queue's producer;
    [alive]: the render thread has not been dropped *)
Record state := mk_state { nodes : list (option (kind * slot)); channel : list (nat * slot); garbage : list item;
  collector : bool; sends : bool; alive : bool; dropped : list (who * nat) }.
(** a realtime context has a garbage collector (cpal.rs 311, cubeb.rs 353, none.rs 107), an offline one has not *)
Definition start (realtime : bool) : state := mk_state [] [] [] realtime realtime true [].

Definition by_who (w : who) (l : list nat) : list (who * nat) := map (fun r => (w, r)) l.
Definition set_nth {X} (n : nat) (x : X) (l : list X) : list X := firstn n l ++ x :: skipn (S n) l.

Inductive action :=
  | Make (k : kind) (s : slot)  (* a node is made, with data or without *)
  | Post (n : nat) (s : slot)   (* context/mod.rs 132-138: a setter sends a message *)
  | Handle                      (* thread.rs 199-204: the render thread handles the next message *)
  | Remove (n : nat)            (* graph.rs 551-560: the render thread removes a node and drops it *)
  | Finish                      (* thread.rs 543-548: the render thread is dropped, with the graph and the channel *)
  | Collect.                    (* thread.rs 565-577: one round of the garbage collector *)

(** the messages that were still waiting and the nodes, dropped with the render thread *)
Definition rest (s : state) : list nat :=
  flat_map (fun n => match n with Some (_, x) => held x | None => [] end) (nodes s) ++ flat_map (fun m => held (snd m)) (channel s).

(** [None]: the step cannot be made.  (A message for a node that is gone would panic, see C91_message_panic_refuted;
    a setter needs a handle, with which the node is not removed unless it has failed.) *)
Definition act (s : state) (a : action) : option state :=
  match a with
  | Make k x => if alive s then Some (mk_state (nodes s ++ [Some (k, x)]) (channel s) (garbage s) (collector s) (sends s) true (dropped s)) else None
  | Post n x => if alive s then Some (mk_state (nodes s) (channel s ++ [(n, x)]) (garbage s) (collector s) (sends s) true (dropped s)) else None
  | Handle =>
      match alive s, channel s with
      | true, (n, m) :: ms =>
          match nth_error (nodes s) n with
          | Some (Some (k, x)) =>
              let '(x', m', gone) := receive k x m in
              let nodes' := set_nth n (Some (k, x')) (nodes s) in
              let dropped' := dropped s ++ by_who Render gone in
              Some (if sends s then mk_state nodes' ms (garbage s ++ [Content m']) (collector s) true true dropped'
                    else mk_state nodes' ms (garbage s) (collector s) false true (dropped' ++ by_who Render (held m')))
          | _ => None
          end
      | _, _ => None
      end
  | Remove n =>
      match alive s, nth_error (nodes s) n with
      | true, Some (Some (k, x)) =>
          Some (mk_state (set_nth n None (nodes s)) (channel s) (garbage s) (collector s) (sends s) true (dropped s ++ by_who Render (held x)))
      | _, _ => None
      end
  | Finish =>
      if alive s
      then Some (mk_state [] [] (if sends s then garbage s ++ [Terminate] else garbage s) (collector s) false false (dropped s ++ by_who Render (rest s)))
      else None
  | Collect =>
      if collector s
      then match garbage s with
           | Terminate :: g => Some (mk_state (nodes s) (channel s) g false (sends s) (alive s) (dropped s))
           | Content m :: g => Some (mk_state (nodes s) (channel s) g true (sends s) (alive s) (dropped s ++ by_who Collector (held m)))
           | [] => Some s
           end
      else None
  end.
Fixpoint acts (s : state) (l : list action) : option state :=
  match l with [] => Some s | a :: l' => match act s a with Some s' => acts s' l' | None => None end end.
