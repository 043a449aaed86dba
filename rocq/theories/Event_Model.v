(** The event loop: events are queued by any thread and passed to handlers by one thread.

    Source: /repo/src/events.rs 169-263; the queue holds 256 events (/repo/src/io/mod.rs 127), the render thread
    drops events when it is full (/repo/src/render/processor.rs 49-74, /repo/src/render/thread.rs 536-538), the
    control thread waits (/repo/src/context/concrete_base.rs 322-324).

    The steps of all threads are interleaved.  Operations on the table of handlers that a callback makes itself are
    [Set] and [Clear] steps between the [Take] and the [Return] of that callback. *)
From Coq Require Import List Arith Bool.
Import ListNotations.

(** 23-34: the type of an event, with the node if it has one *)
Definition key := nat.
(** 95-99: an event; [e_closed]: the payload is AudioContextState::Closed; [e_id] stands for the rest of the payload *)
Record event := mk_event { e_key : key; e_closed : bool; e_id : nat }.
(** 164-167: handlers with an identity in place of the closure *)
Inductive handler := Once (h : nat) | Multiple (h : nat).
(** 177: HashMap *)
Definition table := list (key * handler).
Definition lookup (k : key) (t : table) : option handler :=
  match find (fun p => fst p =? k) t with Some (_, h) => Some h | None => None end.
Definition remove (k : key) (t : table) : table := filter (fun p => negb (fst p =? k)) t.
Definition insert (k : key) (h : handler) (t : table) : table := (k, h) :: remove k t.

(** 169-178; [running] is the callback that runs, with its event; [calls] lists the calls made so far;
    [stopped]: the loop has been left (248-250), or a callback has panicked *)
Record loop := mk_loop { handlers : table; queue : list event; running : option (event * handler); stopped : bool; calls : list (handler * event) }.
Definition new_loop : loop := mk_loop [] [] None false [].

Inductive label :=
  | Set_handler (k : key) (h : handler)  (* 256-258 *)
  | Clear_handler (k : key)              (* 260-262 *)
  | Send (e : event)                     (* blocking send *)
  | Try_send (e : event)                 (* non-blocking send *)
  | Take                                 (* 188-211: the loop takes the next event, removes the handler and calls it *)
  | Return                               (* 213-222: the callback returns *)
  | Unwind.                              (* the callback panics *)

Section Loop.
Variable capacity : nat.
(** the event thread (246-251) leaves the loop after the closed event; [handle_pending_events] (226-237) does not *)
Variable thread : bool.
(** [None]: the step cannot be made in this state *)
Definition step (s : loop) (l : label) : option loop :=
  match l with
  | Set_handler k h => Some (mk_loop (insert k h (handlers s)) (queue s) (running s) (stopped s) (calls s))
  | Clear_handler k => Some (mk_loop (remove k (handlers s)) (queue s) (running s) (stopped s) (calls s))
  | Send e => if length (queue s) <? capacity then Some (mk_loop (handlers s) (queue s ++ [e]) (running s) (stopped s) (calls s)) else None
  | Try_send e => Some (if length (queue s) <? capacity then mk_loop (handlers s) (queue s ++ [e]) (running s) (stopped s) (calls s) else s)
  | Take =>
      match running s, stopped s, queue s with
      | None, false, e :: q =>
          let stop := thread && e_closed e in
          match lookup (e_key e) (handlers s) with
          | Some h => Some (mk_loop (remove (e_key e) (handlers s)) q (Some (e, h)) stop (calls s ++ [(h, e)]))
          | None => Some (mk_loop (handlers s) q None stop (calls s))
          end
      | _, _, _ => None
      end
  | Return =>
      match running s with
      | Some (e, Multiple h) => Some (mk_loop (insert (e_key e) (Multiple h) (handlers s)) (queue s) None (stopped s) (calls s))
      | Some (e, Once h) => Some (mk_loop (handlers s) (queue s) None (stopped s) (calls s))
      | None => None
      end
  | Unwind =>
      match running s with
      | Some _ => Some (mk_loop (handlers s) (queue s) None true (calls s))
      | None => None
      end
  end.
Fixpoint run (s : loop) (ls : list label) : option loop :=
  match ls with
  | [] => Some s
  | l :: ls' => match step s l with Some s' => run s' ls' | None => None end
  end.
End Loop.
