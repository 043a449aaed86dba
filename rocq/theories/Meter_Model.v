(** Starting and stopping the collection of render capacity.

    Source: /repo/src/capacity.rs 65-70, 94-138 (start, stop, the thread that collects), the queue of events
    /repo/src/context/concrete_base.rs 322-324, the callbacks /repo/src/events.rs 239-252.

    The steps of all threads are interleaved.  Client 0 is the event thread: what it does between two events is what a
    callback does.  The contents of the events are in Stats_Model.v. *)
From Coq Require Import List Arith Bool.
Import ListNotations.

(** the thread of a collection: not spawned yet, in [recv_timeout] (110), past the time-out (114), about to send an
    event (122), ended *)
Inductive wphase := Preparing | Waiting | Awake | Posting | Ended.
(** [w_sender]: the sender of its stop channel exists *)
Record worker := mk_worker { w_phase : wphase; w_sender : bool }.

(** a client: in no call; at the beginning of [stop] (133), which a [start] calls first (97); in [stop_send.send] (136)
    to a collection; in [start] before the sender is stored (100); before the thread is spawned (109) *)
Inductive cphase := Idle | Want_stop (start : bool) | Sending (i : nat) (start : bool) | To_store | To_spawn (i : nat).

(** [cell] and [locked]: the mutex [stop_send]; it stays locked in the body of [if let] (135-137); [pending]: the
    number of events in the queue; [updates]: the collections that have sent an event, in order; [waits]: the collections
    that have waited for an interval *)
Record state := mk_state { clients : nat -> cphase; cell : option nat; locked : bool; workers : list worker; pending : nat;
  updates : list nat; waits : list nat }.
Definition start : state := mk_state (fun _ => Idle) None false [] 0 [] [].

Inductive action :=
  | Call_start (c : nat) | Call_stop (c : nat)
  | Lock (c : nat)           (* 135: the mutex is locked and the sender taken *)
  | Meet (c : nat)           (* 136 and 110-112: the message is handed over, the thread returns *)
  | Store (c : nat)          (* 99-100 *)
  | Spawn (c : nat)          (* 102-109 *)
  | Time_out (i : nat)       (* 110: the interval has passed *)
  | Disconnected (i : nat)   (* 110: [recv_timeout] fails as there is no sender any more: at once *)
  | Skip (i : nat)           (* 115-117: there was no callback *)
  | Prepare (i : nat)        (* 119-120 *)
  | Update (i : nat)         (* 122: the event is sent; waits while the queue is full *)
  | Other_event              (* another event is queued, if there is room *)
  | Take                     (* the event thread takes an event; it is in no callback *)
  | Drop_handles.            (* the context and all clones of the AudioRenderCapacity are dropped: the sender is dropped *)

Definition set_client (s : state) (c : nat) (p : cphase) : nat -> cphase := fun d => if d =? c then p else clients s d.
Definition set_worker (i : nat) (w : worker) (l : list worker) : list worker := firstn i l ++ w :: skipn (S i) l.
Definition after_stop (b : bool) : cphase := if b then To_store else Idle.
(** the sender in the cell is dropped *)
Definition drop_sender (s : state) : list worker :=
  match cell s with
  | Some j => match nth_error (workers s) j with Some w => set_worker j (mk_worker (w_phase w) false) (workers s) | None => workers s end
  | None => workers s
  end.

Section Meter.
Variable capacity : nat.
(** [None]: the step cannot be made in this state *)
Definition act (s : state) (a : action) : option state :=
  match a with
  | Call_start c => match clients s c with Idle => Some (mk_state (set_client s c (Want_stop true)) (cell s) (locked s) (workers s) (pending s) (updates s) (waits s)) | _ => None end
  | Call_stop c => match clients s c with Idle => Some (mk_state (set_client s c (Want_stop false)) (cell s) (locked s) (workers s) (pending s) (updates s) (waits s)) | _ => None end
  | Lock c =>
      match clients s c, locked s with
      | Want_stop b, false =>
          match cell s with
          | None => Some (mk_state (set_client s c (after_stop b)) None false (workers s) (pending s) (updates s) (waits s))
          | Some i => Some (mk_state (set_client s c (Sending i b)) None true (workers s) (pending s) (updates s) (waits s))
          end
      | _, _ => None
      end
  | Meet c =>
      match clients s c with
      | Sending i b =>
          match nth_error (workers s) i with
          | Some w =>
              match w_phase w with
              | Waiting | Ended => (* an ended thread has dropped its receiver: the send fails *)
                  Some (mk_state (set_client s c (after_stop b)) (cell s) false (set_worker i (mk_worker Ended false) (workers s)) (pending s) (updates s) (waits s))
              | _ => None
              end
          | None => None
          end
      | _ => None
      end
  | Store c =>
      match clients s c, locked s with
      | To_store, false =>
          let i := length (workers s) in
          Some (mk_state (set_client s c (To_spawn i)) (Some i) false (drop_sender s ++ [mk_worker Preparing true]) (pending s) (updates s) (waits s))
      | _, _ => None
      end
  | Spawn c =>
      match clients s c with
      | To_spawn i =>
          match nth_error (workers s) i with
          | Some w => Some (mk_state (set_client s c Idle) (cell s) (locked s) (set_worker i (mk_worker Waiting (w_sender w)) (workers s)) (pending s) (updates s) (waits s))
          | None => None
          end
      | _ => None
      end
  | Time_out i =>
      match nth_error (workers s) i with
      | Some (mk_worker Waiting b) => Some (mk_state (clients s) (cell s) (locked s) (set_worker i (mk_worker Awake b) (workers s)) (pending s) (updates s) (waits s ++ [i]))
      | _ => None
      end
  | Disconnected i =>
      match nth_error (workers s) i with
      | Some (mk_worker Waiting false) => Some (mk_state (clients s) (cell s) (locked s) (set_worker i (mk_worker Awake false) (workers s)) (pending s) (updates s) (waits s))
      | _ => None
      end
  | Skip i =>
      match nth_error (workers s) i with
      | Some (mk_worker Awake b) => Some (mk_state (clients s) (cell s) (locked s) (set_worker i (mk_worker Waiting b) (workers s)) (pending s) (updates s) (waits s))
      | _ => None
      end
  | Prepare i =>
      match nth_error (workers s) i with
      | Some (mk_worker Awake b) => Some (mk_state (clients s) (cell s) (locked s) (set_worker i (mk_worker Posting b) (workers s)) (pending s) (updates s) (waits s))
      | _ => None
      end
  | Update i =>
      match nth_error (workers s) i with
      | Some (mk_worker Posting b) =>
          if pending s <? capacity
          then Some (mk_state (clients s) (cell s) (locked s) (set_worker i (mk_worker Waiting b) (workers s)) (pending s + 1) (updates s ++ [i]) (waits s))
          else None
      | _ => None
      end
  | Other_event => if pending s <? capacity then Some (mk_state (clients s) (cell s) (locked s) (workers s) (pending s + 1) (updates s) (waits s)) else None
  | Take =>
      match clients s 0, pending s with
      | Idle, S n => Some (mk_state (clients s) (cell s) (locked s) (workers s) n (updates s) (waits s))
      | _, _ => None
      end
  | Drop_handles => Some (mk_state (clients s) None (locked s) (drop_sender s) (pending s) (updates s) (waits s))
  end.
Fixpoint acts (s : state) (l : list action) : option state :=
  match l with [] => Some s | a :: l' => match act s a with Some s' => acts s' l' | None => None end end.
End Meter.
