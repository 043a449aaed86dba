(** Model of the life of an OfflineAudioContext used with the asynchronous interface: its state, its events, its promises.

    Source: /repo/src/context/offline.rs 26-58, 78-145, 205-236, 294-324, 395-399, /repo/src/context/concrete_base.rs 392-401,
    /repo/src/render/thread.rs 309-396, 534-539, /repo/src/events.rs 189-236.

    The rendering itself is that of Thread_Model.v.  The tasks of the program (the future of [start_rendering], those of [suspend],
    calls of [resume] and of everything that changes the graph) run in any order, also in several threads: a run is a list of
    [label]s, one for each step of one of them.  Simplifications: [set_state] (a load and a store) is one step, and so is the end of
    the rendering (offline.rs 226-235).  The synchronous interface: OfflineSync_Model.v.  Not modelled: a future of [start_rendering] that is dropped.

    futures::channel: a oneshot [send] fails when the receiver is dropped, a oneshot receiver yields an error when the sender is
    dropped; mpsc::channel(0) has room for one message of every clone of the sender, and [resume] sends on a new clone: the message
    is always accepted as long as the receiver exists. *)
From Coq Require Import List Arith Bool.
From Verif Require Import Thread_Model.
Import ListNotations.

(** ** What happens *)
Section Offline.
Context {G M V : Type}.

(** events.rs 23-35, 79-92: a change of state, the end of the rendering, an event of a node *)
Inductive event := Changed (s : cstate) | Complete (buffer : list (list V)) | Node_event (i : nat).
(** the record of a run: an event is emitted, its handler is called, a quantum is rendered, a call panics *)
Inductive entry := Emit (e : event) | Heard (e : event) | Rendered (quantum : nat) | Refused.

(** offline.rs 294-324: a future of [suspend] after its first poll: it waits on the oneshot channel; the renderer has notified it; the
    sender was dropped; it has returned; it was dropped; it has panicked *)
Inductive fut := F_pending | F_notified | F_canceled | F_done | F_dropped | F_panicked.
(** thread.rs 309-352: where the task of [start_rendering] stands: not started; before the first messages; before quantum [q]; at
    the [await] before quantum [q]; after it; about to render [q]; about to handle the events after [q]; returned; panicked *)
Inductive task := T_none | T_init | T_check (q : nat) | T_waiting (q : nat) | T_resumed (q : nat) | T_quantum (q : nat) | T_events (q : nat)
  | T_done (buffer : list (list V)) | T_panicked.

Variable GO : @graph_ops G M V.
Variable zero : V.
Variable RQ : nat.
Variable channels len : nat.   (* of the buffer to render *)

(** offline.rs 26-58.  [w_renderer] is the content of the mutex: the promises, sorted; [None] = the renderer is taken.  [w_left]:
    those the rendering has not reached.  [w_tokens]: messages in the channel of [resume].  [w_chan]: control messages.
    [w_events]: events not handled yet.  [w_log]: record. *)
Record world := mk_world {
  w_state : cstate;
  w_renderer : option (list (nat * nat));
  w_futures : list fut;
  w_task : task;
  w_left : list (nat * nat);
  w_tokens : nat;
  w_chan : list (@cmsg G M);
  w_thread : @thread G V;
  w_buffer : list (list V);
  w_events : list event;
  w_log : list entry
}.

(** offline.rs 78-145; thread.rs 84-112 *)
Definition new_thread : @thread G V := mk_thread None false Suspended 0 true None [] [] [].
Definition new_context (g : G) : world :=
  mk_world Suspended (Some []) [] T_none [] 0 [StartupMsg g] new_thread (repeat [] channels) [] [].

Definition cstate_eqb (a b : cstate) : bool :=
  match a, b with Suspended, Suspended | Running, Running | Closed, Closed => true | _, _ => false end.

Definition with_task (w : world) (t : task) : world :=
  mk_world (w_state w) (w_renderer w) (w_futures w) t (w_left w) (w_tokens w) (w_chan w) (w_thread w) (w_buffer w) (w_events w) (w_log w).
Definition with_futures (w : world) (f : list fut) : world :=
  mk_world (w_state w) (w_renderer w) f (w_task w) (w_left w) (w_tokens w) (w_chan w) (w_thread w) (w_buffer w) (w_events w) (w_log w).
Definition with_left (w : world) (l : list (nat * nat)) : world :=
  mk_world (w_state w) (w_renderer w) (w_futures w) (w_task w) l (w_tokens w) (w_chan w) (w_thread w) (w_buffer w) (w_events w) (w_log w).
Definition with_tokens (w : world) (k : nat) : world :=
  mk_world (w_state w) (w_renderer w) (w_futures w) (w_task w) (w_left w) k (w_chan w) (w_thread w) (w_buffer w) (w_events w) (w_log w).
Definition with_chan (w : world) (c : list (@cmsg G M)) : world :=
  mk_world (w_state w) (w_renderer w) (w_futures w) (w_task w) (w_left w) (w_tokens w) c (w_thread w) (w_buffer w) (w_events w) (w_log w).
Definition with_renderer (w : world) (r : option (list (nat * nat))) : world :=
  mk_world (w_state w) r (w_futures w) (w_task w) (w_left w) (w_tokens w) (w_chan w) (w_thread w) (w_buffer w) (w_events w) (w_log w).
Definition with_log (w : world) (l : list entry) : world :=
  mk_world (w_state w) (w_renderer w) (w_futures w) (w_task w) (w_left w) (w_tokens w) (w_chan w) (w_thread w) (w_buffer w) (w_events w) (w_log w ++ l).

(** concrete_base.rs 381-390 (the event channel of an offline context is unbounded) *)
Definition send_event (w : world) (e : event) : world :=
  mk_world (w_state w) (w_renderer w) (w_futures w) (w_task w) (w_left w) (w_tokens w) (w_chan w) (w_thread w) (w_buffer w)
    (w_events w ++ [e]) (w_log w ++ [Emit e]).
(** concrete_base.rs 392-401 *)
Definition change_state (w : world) (s : cstate) : world :=
  if cstate_eqb (w_state w) s then w
  else send_event (mk_world s (w_renderer w) (w_futures w) (w_task w) (w_left w) (w_tokens w) (w_chan w) (w_thread w) (w_buffer w)
                     (w_events w) (w_log w)) (Changed s).
(** events.rs 226-236: all events are taken from the channel and handled *)
Definition handle_pending_events (w : world) : world :=
  mk_world (w_state w) (w_renderer w) (w_futures w) (w_task w) (w_left w) (w_tokens w) (w_chan w) (w_thread w) (w_buffer w)
    [] (w_log w ++ map Heard (w_events w)).

(** element [i] of a list is replaced *)
Fixpoint set_nth {A} (i : nat) (x : A) (l : list A) : list A :=
  match l, i with
  | [], _ => []
  | _ :: l', O => x :: l'
  | y :: l', S i' => y :: set_nth i' x l'
  end.
(** the senders of the promises that are left are dropped (thread.rs 312, end of the function or a panic) *)
Definition cancel (w : world) : world :=
  with_futures w (fold_left (fun f p => match nth_error f (snd p) with
                                        | Some F_pending => set_nth (snd p) F_canceled f
                                        | _ => f
                                        end) (w_left w) (w_futures w)).
Definition panicked (w : world) : world := with_task (cancel w) T_panicked.

(** thread.rs 123-134, with the state and the event channel shared with the context (thread.rs 534-539); [next] = where the task goes on *)
Definition handle_messages (w : world) (next : task) : world :=
  match handle_control_messages GO (w_thread w) (w_chan w) with
  | None => panicked w
  | Some (t', rest) =>
      let new := skipn (length (t_events (w_thread w))) (t_events t') in
      mk_world (last new (w_state w)) (w_renderer w) (w_futures w) next (w_left w) (w_tokens w) rest t' (w_buffer w)
        (w_events w ++ map Changed new) (w_log w ++ map (fun s => Emit (Changed s)) new)
  end.

(** thread.rs 347-351, offline.rs 226-235 *)
Definition finish (w : world) : world :=
  let w1 := cancel (handle_pending_events w) in
  let w2 := send_event (change_state w1 Closed) (Complete (w_buffer w)) in
  with_task (handle_pending_events w2) (T_done (w_buffer w)).

(** ** The steps *)

(** - [Suspend q]: a call of [suspend] for quantum [q] (see Suspend_Model.v for the quantum), up to the [await];
    - [Poll i]: the future of the [i]-th of these calls goes on; [Drop i]: it is dropped;
    - [Send ms]: the program changes the graph;
    - [Resume], [Start]: calls of [resume] and [start_rendering];
    - [Work], [Quantum evs], [Events ms]: a step of the rendering task; the nodes emit [evs]; the handlers change the graph by [ms]. *)
Inductive label := Suspend (q : nat) | Poll (i : nat) | Drop (i : nat) | Send (ms : list M) | Resume | Start
  | Work | Quantum (evs : list nat) | Events (ms : list M).

(** the receiver of the channel of [resume] exists *)
Definition listening (w : world) : bool := match w_task w with T_done _ | T_panicked => false | _ => true end.

(** thread.rs 327-332, 347 *)
Definition check_suspension (w : world) (q : nat) : world :=
  if Nat.eqb q (div_ceil len RQ) then finish w
  else match w_left w with
       | (q', i) :: left' =>
           if Nat.eqb q' q then
             match nth_error (w_futures w) i with
             | Some F_pending => with_task (with_left (with_futures w (set_nth i F_notified (w_futures w))) left') (T_waiting q)
             | _ => panicked (with_left w left')     (* [sender.send(()).unwrap()] *)
             end
           else with_task w (T_quantum q)
       | [] => with_task w (T_quantum q)
       end.

(** thread.rs 338, 355-396 *)
Definition render (w : world) (q : nat) (evs : list nat) : world :=
  match render_quantum GO RQ (w_thread w) with
  | None => panicked w
  | Some (t', out) =>
      match extend_offline zero RQ len (w_buffer w) out with
      | None => panicked w
      | Some b' =>
          mk_world (w_state w) (w_renderer w) (w_futures w) (T_events q) (w_left w) (w_tokens w) (w_chan w) t' b'
            (w_events w ++ map Node_event evs) (w_log w ++ Rendered q :: map (fun i => Emit (Node_event i)) evs)
      end
  end.

(** [None] = this step is not possible now *)
Definition step (w : world) (l : label) : option world :=
  match l with
  | Suspend q =>                                             (* offline.rs 295-320 *)
      let refused := Some (with_log (with_futures w (w_futures w ++ [F_panicked])) [Refused]) in
      match w_renderer w with
      | None => refused
      | Some ps => match insert_suspension q (length (w_futures w)) ps with
                   | None => refused
                   | Some ps' => Some (with_renderer (with_futures w (w_futures w ++ [F_pending])) (Some ps'))
                   end
      end
  | Poll i =>                                                (* offline.rs 322-323 *)
      match nth_error (w_futures w) i with
      | Some F_notified => Some (change_state (with_futures w (set_nth i F_done (w_futures w))) Suspended)
      | Some F_canceled => Some (with_log (with_futures w (set_nth i F_panicked (w_futures w))) [Refused])
      | _ => None
      end
  | Drop i =>
      match nth_error (w_futures w) i with
      | Some F_pending | Some F_notified | Some F_canceled => Some (with_futures w (set_nth i F_dropped (w_futures w)))
      | _ => None
      end
  | Send ms => Some (with_chan w (w_chan w ++ map GraphMsg ms))
  | Resume =>                                                (* offline.rs 396-399 *)
      let w1 := change_state w Running in
      if listening w then Some (with_tokens w1 (S (w_tokens w1))) else Some (with_log w1 [Refused])
  | Start =>                                                 (* offline.rs 206-222 *)
      match w_renderer w with
      | None => Some (with_log w [Refused])
      | Some ps => Some (change_state (with_left (with_task (with_renderer w None) T_init) ps) Running)
      end
  | Work =>
      match w_task w with
      | T_init => Some (handle_messages w (T_check 0))       (* thread.rs 325 *)
      | T_check q => Some (check_suspension w q)
      | T_waiting q =>                                       (* thread.rs 332 *)
          match w_tokens w with
          | O => None
          | S k => Some (with_task (with_tokens w k) (T_resumed q))
          end
      | T_resumed q => Some (handle_messages w (T_quantum q))  (* thread.rs 335 *)
      | _ => None
      end
  | Quantum evs =>
      match w_task w with
      | T_quantum q => Some (render w q evs)
      | _ => None
      end
  | Events ms =>                                             (* thread.rs 340-344 *)
      match w_task w with
      | T_events q =>
          match w_events w, ms with
          | [], [] => Some (with_task w (T_check (S q)))
          | [], _ :: _ => None
          | _ :: _, _ => Some (handle_messages (handle_pending_events (with_chan w (w_chan w ++ map GraphMsg ms))) (T_check (S q)))
          end
      | _ => None
      end
  end.

Fixpoint run (w : world) (ls : list label) : option world :=
  match ls with
  | [] => Some w
  | l :: ls' => match step w l with None => None | Some w' => run w' ls' end
  end.

End Offline.
