(** Model of the synchronous interface of an OfflineAudioContext: [suspend_sync] and [start_rendering_sync].

    Source: /repo/src/context/offline.rs 147-185, 326-387, /repo/src/render/thread.rs 260-302.

    The context is that of Offline_Model.v; both calls borrow it exclusively, so nothing else is done with it meanwhile, except in the callbacks of the
    suspensions and in the event handlers.  A callback is given by what it does to the graph.  Not modelled: callbacks that call [resume] or panic, and
    other threads that use nodes while the call runs. *)
From Coq Require Import List Arith Bool.
From Verif Require Import Thread_Model Offline_Model.
Import ListNotations.

Section Sync.
Context {G M V : Type}.
Variable GO : @graph_ops G M V.
Variable zero : V.
Variable RQ : nat.
Variable len : nat.
Notation world := (@world G M V).

(** a call before the start: [suspend_sync] for quantum [q] with a callback that changes the graph by [ms]; a change of the graph *)
Inductive call := Suspend_sync (q : nat) (ms : list M) | Change (ms : list M).

(** offline.rs 356-387: the callbacks are kept sorted; [None] = panic *)
Definition sync_call (s : world * list (nat * list M)) (c : call) : option (world * list (nat * list M)) :=
  let (w, cbs) := s in
  match c with
  | Suspend_sync q ms =>
      match w_renderer w with
      | None => None
      | Some _ => match insert_suspension q ms cbs with None => None | Some cbs' => Some (w, cbs') end
      end
  | Change ms => Some (with_chan w (w_chan w ++ map GraphMsg ms), cbs)
  end.
Fixpoint sync_calls (s : world * list (nat * list M)) (cs : list call) : option (world * list (nat * list M)) :=
  match cs with
  | [] => Some s
  | c :: cs' => match sync_call s c with None => None | Some s' => sync_calls s' cs' end
  end.

Definition has_panicked (w : world) : bool := match w_task w with T_panicked => true | _ => false end.

(** offline.rs 377-381, thread.rs 280-286 *)
Definition run_callback (w : world) (q : nat) (ms : list M) : world :=
  let w1 := change_state w Suspended in
  let w2 := with_chan w1 (w_chan w1 ++ map GraphMsg ms) in
  handle_messages GO (change_state w2 Running) (T_quantum q).

(** thread.rs 290-294: the handlers, if any event is to be handled, change the graph by [ms] *)
Definition run_handlers (w : world) (q : nat) (ms : list M) : world :=
  match w_events w with
  | [] => with_task w (T_check (S q))
  | _ :: _ => handle_messages GO (handle_pending_events (with_chan w (w_chan w ++ map GraphMsg ms))) (T_check (S q))
  end.

(** thread.rs 278-301; [evs q]: the events of nodes in quantum [q]; [ms q]: what the handlers do after it *)
Fixpoint sync_loop (evs : nat -> list nat) (ms : nat -> list M) (k q : nat) (w : world) (cbs : list (nat * list M)) : world :=
  match k with
  | O => finish w
  | S k' =>
      let (w1, cbs') :=
        match cbs with
        | (q', c) :: rest => if Nat.eqb q' q then (run_callback w q c, rest) else (with_task w (T_quantum q), cbs)
        | [] => (with_task w (T_quantum q), [])
        end in
      if has_panicked w1 then w1 else
      let w2 := render GO zero RQ len w1 q (evs q) in
      if has_panicked w2 then w2 else
      let w3 := run_handlers w2 q (ms q) in
      if has_panicked w3 then w3 else
      sync_loop evs ms k' (S q) w3 cbs'
  end.

(** offline.rs 158-185, thread.rs 275-276 *)
Definition start_rendering_sync (evs : nat -> list nat) (ms : nat -> list M) (s : world * list (nat * list M)) : world :=
  let (w, cbs) := s in
  match w_renderer w with
  | None => with_log w [Refused]
  | Some _ =>
      let w1 := handle_messages GO (change_state (with_task (with_renderer w None) T_init) Running) (T_check 0) in
      if has_panicked w1 then w1 else sync_loop evs ms (div_ceil len RQ) 0 w1 cbs
  end.

End Sync.
