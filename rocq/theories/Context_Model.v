(** Model of the online context: the calls suspend, resume, close and
    set_sink_id of any number of threads, the message channel, and the render
    threads of the old and new output streams, in micro steps that interleave
    freely.

    Source: /repo/src/context/online.rs 365-453, 523-646, 662-784,
    /repo/src/context/concrete_base.rs 272-330, 393-405,
    /repo/src/render/thread.rs 123-252, 438-532, 534-539,
    /repo/src/io/mod.rs 108-148, /repo/src/io/none.rs 43-75, 78-200.

    The audio graph is the list of graph messages applied to it. The stream is
    the one of the "none" sink (io/none.rs): requests to it are queued. Atomic
    accesses are sequentially consistent. Not modelled: the bounds 256 and 32
    of the channels (a full channel blocks the sender), a full event channel
    (see [C38_dropped_refuted]), errors of the device, and cancelled futures.
    [resume_control_msgs] sends the stored messages in one step (see
    [C07_in_order_exactly_once_refuted] for the race with other senders). *)
From Coq Require Import List Arith Bool.
From Verif Require Export Thread_Model.
Import ListNotations.

Section Context.
Context {M : Type}.

(** message.rs 14-86; a notification is named by the waiting thread *)
Inductive msg :=
| Apply (m : M)
| Suspend (t : nat)
| Resume (t : nat)
| Close (t : nat)
| Startup (g : list M)
| Recycle (t : nat).

(** io/none.rs 15-19 *)
Inductive request := BResume | BSuspend | BClose.

(** where a render thread is: between callbacks, handling messages at the start
    of a callback of [k] quanta, about to render the next of [k] quanta, handling
    messages before the remaining [k], or dead by a panic *)
Inductive rpc := ROff | RFirst (k : nat) | RChunk (k : nat) | RNext (k : nat) | RCrash.

(** thread.rs 32-48 and io/none.rs 37-42 *)
Record stream := mk_stream {
  s_queue : list request;
  s_running : bool;
  s_alive : bool;
  s_graph : option (list M);
  s_suspended : bool;
  s_listening : bool;
  s_pc : rpc
}.
(** thread.rs 75-97, io/none.rs 112-119 *)
Definition fresh_stream : stream := mk_stream [] true true None false true ROff.

(** the calls *)
Inductive op :=
| OSuspend (sync : bool)
| OResume (sync : bool)
| OClose (sync : bool)
| OSink
| OSend (m : M).

(** where a thread is in its call *)
Inductive pc :=
| Idle
| SuspChk (sync : bool) | SuspChk2 (sync : bool) (st : cstate) | SuspSend (sync : bool) | SuspWait (sync : bool) | SuspStream (sync : bool)
| ResChk (sync : bool) | ResStream (sync : bool) | ResSend (sync : bool) | ResWait (sync : bool)
| CloseChk (sync : bool) | CloseChk2 (sync : bool) | CloseSend (sync : bool) | CloseWait (sync : bool) | CloseManual (sync : bool) | CloseStream (sync : bool)
| SinkChk | SinkLock (st : cstate) | SinkDrain (st : cstate) (p : list msg) | SinkRecycle (st : cstate) (p : list msg)
| SinkWake (st : cstate) (p : list msg) | SinkRecv (st : cstate) (p : list msg) | SinkClose (st : cstate) (g : list M) (p : list msg)
| SinkBuild (st : cstate) (g : list M) (p : list msg) | SinkStop (st : cstate) (g : list M) (p : list msg)
| SinkShip (st : cstate) (g : list M) (p : list msg) | SinkFlush (p : list msg)
| Failed.

(** the shared state; [w_events] and [w_issued] record the statechange events and the graph messages sent so far *)
Record world := mk_world {
  w_state : cstate;
  w_pending : bool;                  (* startup_pending *)
  w_frames : nat;
  w_chan : list msg;
  w_buf : option (list msg);         (* suspended_messages *)
  w_lock : option nat;               (* backend_manager *)
  w_wlock : option nat;              (* render_channel, held for writing *)
  w_done : list nat;                 (* notifications not yet received *)
  w_given : list (nat * list M);     (* graphs handed out and not yet received *)
  w_streams : list stream;           (* the last is the current one *)
  w_pcs : nat -> pc;
  w_events : list cstate;
  w_issued : list M
}.

Definition with_state (w : world) (st : cstate) : world :=
  mk_world st (w_pending w) (w_frames w) (w_chan w) (w_buf w) (w_lock w) (w_wlock w) (w_done w) (w_given w) (w_streams w) (w_pcs w) (w_events w ++ [st]) (w_issued w).
Definition with_pending (w : world) (b : bool) : world :=
  mk_world (w_state w) b (w_frames w) (w_chan w) (w_buf w) (w_lock w) (w_wlock w) (w_done w) (w_given w) (w_streams w) (w_pcs w) (w_events w) (w_issued w).
Definition with_frames (w : world) (n : nat) : world :=
  mk_world (w_state w) (w_pending w) n (w_chan w) (w_buf w) (w_lock w) (w_wlock w) (w_done w) (w_given w) (w_streams w) (w_pcs w) (w_events w) (w_issued w).
Definition with_chan (w : world) (c : list msg) : world :=
  mk_world (w_state w) (w_pending w) (w_frames w) c (w_buf w) (w_lock w) (w_wlock w) (w_done w) (w_given w) (w_streams w) (w_pcs w) (w_events w) (w_issued w).
Definition with_buf (w : world) (b : option (list msg)) : world :=
  mk_world (w_state w) (w_pending w) (w_frames w) (w_chan w) b (w_lock w) (w_wlock w) (w_done w) (w_given w) (w_streams w) (w_pcs w) (w_events w) (w_issued w).
Definition with_lock (w : world) (l : option nat) : world :=
  mk_world (w_state w) (w_pending w) (w_frames w) (w_chan w) (w_buf w) l (w_wlock w) (w_done w) (w_given w) (w_streams w) (w_pcs w) (w_events w) (w_issued w).
Definition with_wlock (w : world) (l : option nat) : world :=
  mk_world (w_state w) (w_pending w) (w_frames w) (w_chan w) (w_buf w) (w_lock w) l (w_done w) (w_given w) (w_streams w) (w_pcs w) (w_events w) (w_issued w).
Definition with_done (w : world) (d : list nat) : world :=
  mk_world (w_state w) (w_pending w) (w_frames w) (w_chan w) (w_buf w) (w_lock w) (w_wlock w) d (w_given w) (w_streams w) (w_pcs w) (w_events w) (w_issued w).
Definition with_given (w : world) (g : list (nat * list M)) : world :=
  mk_world (w_state w) (w_pending w) (w_frames w) (w_chan w) (w_buf w) (w_lock w) (w_wlock w) (w_done w) g (w_streams w) (w_pcs w) (w_events w) (w_issued w).
Definition with_streams (w : world) (s : list stream) : world :=
  mk_world (w_state w) (w_pending w) (w_frames w) (w_chan w) (w_buf w) (w_lock w) (w_wlock w) (w_done w) (w_given w) s (w_pcs w) (w_events w) (w_issued w).
Definition goto (w : world) (t : nat) (p : pc) : world :=
  mk_world (w_state w) (w_pending w) (w_frames w) (w_chan w) (w_buf w) (w_lock w) (w_wlock w) (w_done w) (w_given w) (w_streams w) (fun u => if Nat.eqb u t then p else w_pcs w u) (w_events w) (w_issued w).
Definition with_issued (w : world) (l : list M) : world :=
  mk_world (w_state w) (w_pending w) (w_frames w) (w_chan w) (w_buf w) (w_lock w) (w_wlock w) (w_done w) (w_given w) (w_streams w) (w_pcs w) (w_events w) l.

(** online.rs 223-275, io/mod.rs 108-148: a new context; the constructor has sent [Startup] *)
Definition new_context : world :=
  mk_world Suspended true 0 [Startup []] None None None [] [] [fresh_stream] (fun _ => Idle) [] [].

Fixpoint set_nth {X} (l : list X) (i : nat) (x : X) : list X :=
  match l, i with
  | [], _ => []
  | _ :: l', O => x :: l'
  | y :: l', S i' => y :: set_nth l' i' x
  end.
Definition put (w : world) (i : nat) (s : stream) : world := with_streams w (set_nth (w_streams w) i s).

Definition st_pc (s : stream) (p : rpc) : stream := mk_stream (s_queue s) (s_running s) (s_alive s) (s_graph s) (s_suspended s) (s_listening s) p.
Definition st_graph (s : stream) (g : option (list M)) : stream := mk_stream (s_queue s) (s_running s) (s_alive s) g (s_suspended s) (s_listening s) (s_pc s).
Definition st_suspended (s : stream) (b : bool) : stream := mk_stream (s_queue s) (s_running s) (s_alive s) (s_graph s) b (s_listening s) (s_pc s).
Definition st_deaf (s : stream) : stream := mk_stream (s_queue s) (s_running s) (s_alive s) (s_graph s) (s_suspended s) false (s_pc s).
Definition st_ask (s : stream) (r : request) : stream := mk_stream (s_queue s ++ [r]) (s_running s) (s_alive s) (s_graph s) (s_suspended s) (s_listening s) (s_pc s).

(** thread.rs 136-252 for stream [i] *)
Definition handle (w : world) (i : nat) (s : stream) (m : msg) : world :=
  match m with
  | Apply x => match s_graph s with
               | Some g => put w i (st_graph s (Some (g ++ [x])))
               | None => put w i (st_pc s RCrash)
               end
  | Suspend t => let w1 := with_state w Suspended in put (with_done w1 (w_done w1 ++ [t])) i (st_suspended s true)
  | Resume t => let w1 := with_state w Running in put (with_done w1 (w_done w1 ++ [t])) i (st_suspended s false)
  | Close t => let w1 := with_state w Closed in put (with_done w1 (w_done w1 ++ [t])) i (st_suspended s true)
  | Startup g => put (with_state (with_pending w false) Running) i (st_graph s (Some g))
  | Recycle t => match s_graph s with
                 | Some g => let w1 := with_state w Suspended in put (with_given w1 (w_given w1 ++ [(t, g)])) i (st_deaf (st_graph s None))
                 | None => put (with_state w Suspended) i (st_pc s RCrash)
                 end
  end.

Variable active : list M -> bool.   (* Graph::is_active *)
Variable RQ : nat.                  (* RENDER_QUANTUM_SIZE *)

(** thread.rs 123-134, 471-531: one step of the render thread inside a callback *)
Definition render_step (w : world) (i : nat) (s : stream) : option world :=
  let next := match (if s_listening s then w_chan w else []) with m :: c => Some (m, c) | [] => None end in
  match s_pc s with
  | RFirst k =>
      match next with
      | Some (m, c) => Some (handle (with_chan w c) i s m)
      | None => Some (put w i (st_pc s (if s_suspended s || negb (match s_graph s with Some g => active g | None => false end) then ROff else RChunk k)))
      end
  | RNext k =>
      match next with
      | Some (m, c) => Some (handle (with_chan w c) i s m)
      | None => Some (put w i (st_pc s (RChunk k)))
      end
  | RChunk O => Some (put w i (st_pc s ROff))
  | RChunk (S k) =>
      match s_graph s with
      | None => Some (put w i (st_pc s RCrash))
      | Some _ => Some (put (with_frames w (w_frames w + RQ)) i (st_pc s (RNext k)))
      end
  | ROff | RCrash => None
  end.

(** io/none.rs 43-75 *)
Definition stream_start (w : world) (i k : nat) (s : stream) : option world :=
  match s_pc s with
  | ROff => if s_alive s && s_running s then Some (put w i (st_pc s (RFirst k))) else None
  | _ => None
  end.
Definition stream_request (w : world) (i : nat) (s : stream) : option world :=
  match s_pc s, s_queue s with
  | ROff, r :: q =>
      if s_alive s then Some (put w i (mk_stream q (match r with BResume => true | BSuspend => false | BClose => s_running s end)
                                         (match r with BClose => false | _ => true end) (s_graph s) (s_suspended s) (s_listening s) ROff))
      else None
  | _, _ => None
  end.

Definition current (w : world) : nat := length (w_streams w) - 1.
(** io/none.rs 146-190: a request to the current stream; [None] when its thread is gone *)
Definition ask (w : world) (r : request) : option world :=
  match nth_error (w_streams w) (current w) with
  | Some s => if s_alive s && negb (match s_pc s with RCrash => true | _ => false end) then Some (put w (current w) (st_ask s r)) else None
  | None => None
  end.

(** the end of a call that holds the lock if it is [sync] *)
Definition finish (w : world) (t : nat) (sync : bool) : world := goto (if sync then with_lock w None else w) t Idle.
(** a call that has to hold the lock for this step only, unless it holds it already *)
Definition may_lock (w : world) (sync : bool) : bool := sync || match w_lock w with None => true | Some _ => false end.
Definition free {X} (l : option X) : bool := match l with None => true | Some _ => false end.
Definition remove_one (t : nat) (l : list nat) : option (list nat) :=
  if existsb (Nat.eqb t) l then Some (filter (fun u => negb (Nat.eqb t u)) l) else None.
Definition take_given (t : nat) (l : list (nat * list M)) : option (list M * list (nat * list M)) :=
  match find (fun x => Nat.eqb t (fst x)) l with
  | Some x => Some (snd x, filter (fun y => negb (Nat.eqb t (fst y))) l)
  | None => None
  end.
(** [?] or [unwrap_or_else(panic)] on a request to the stream *)
Definition asked (w : world) (t : nat) (r : request) (k : world -> world) : option world :=
  Some (match ask w r with Some w' => k w' | None => goto w t Failed end).

(** concrete_base.rs 274-290: [None] = blocked *)
Definition send_msg (w : world) (m : msg) : option world :=
  match w_state w with
  | Closed => Some w
  | _ => if free (w_wlock w) then
           Some (match w_buf w with
                 | Some l => with_buf w (Some (l ++ [m]))
                 | None => with_chan w (w_chan w ++ [m])
                 end)
         else None
  end.

Definition is_state (a b : cstate) : bool :=
  match a, b with Suspended, Suspended | Running, Running | Closed, Closed => true | _, _ => false end.

(** the beginning of a call by an idle thread *)
Definition call (w : world) (t : nat) (o : op) : option world :=
  match w_pcs w t with
  | Idle =>
      match o with
      | OSuspend true => if free (w_lock w) then Some (goto (with_lock w (Some t)) t (SuspChk true)) else None
      | OSuspend false => Some (goto w t (SuspChk false))
      | OResume sync => if free (w_lock w) then Some (goto (with_lock w (Some t)) t (ResChk sync)) else None
      | OClose true => if free (w_lock w) then Some (goto (with_lock w (Some t)) t (CloseChk true)) else None
      | OClose false => Some (goto w t (CloseChk false))
      | OSink => if free (w_lock w) then Some (goto (with_lock w (Some t)) t SinkChk) else None
      | OSend m => match w_state w with
                   | Closed => Some w
                   | _ => match send_msg w (Apply m) with
                          | Some w' => Some (with_issued w' (w_issued w' ++ [m]))
                          | None => None
                          end
                   end
      end
  | _ => None
  end.

(** one step of a thread inside a call *)
Definition thread_step (w : world) (t : nat) : option world :=
  match w_pcs w t with
  | Idle | Failed => None
  (* online.rs 523-558, 662-695; the state and [startup_pending] are loaded one after the other *)
  | SuspChk sync => match w_state w with
                    | Closed => Some (finish w t sync)
                    | st => Some (goto w t (SuspChk2 sync st))
                    end
  | SuspChk2 sync st => if negb (is_state st Running) && negb (w_pending w) then Some (finish w t sync) else Some (goto w t (SuspSend sync))
  | SuspSend sync => (* concrete_base.rs 292-298 *)
      if free (w_wlock w) then Some (goto (with_chan (with_buf w (Some [])) (w_chan w ++ [Suspend t])) t (SuspWait sync)) else None
  | SuspWait sync => match remove_one t (w_done w) with
                     | Some d => Some (goto (with_done w d) t (SuspStream sync))
                     | None => None
                     end
  | SuspStream sync => if may_lock w sync then asked w t BSuspend (fun w' => finish w' t sync) else None
  (* online.rs 569-600, 709-733 *)
  | ResChk sync => if is_state (w_state w) Suspended then Some (goto w t (ResStream sync)) else Some (goto (with_lock w None) t Idle)
  | ResStream sync => asked w t BResume (fun w' => goto w' t (ResSend sync))
  | ResSend sync => (* concrete_base.rs 300-322 *)
      if free (w_wlock w) then
        let stored := match w_buf w with Some l => l | None => [] end in
        let w1 := with_chan (with_buf w None) (w_chan w ++ stored ++ [Resume t]) in
        Some (goto (if sync then w1 else with_lock w1 None) t (ResWait sync))
      else None
  | ResWait sync => match remove_one t (w_done w) with
                    | Some d => Some (finish (with_done w d) t sync)
                    | None => None
                    end
  (* online.rs 610-646, 748-784 *)
  | CloseChk sync => if is_state (w_state w) Closed then Some (finish w t sync) else Some (goto w t (CloseChk2 sync))
  | CloseChk2 sync => if is_state (w_state w) Running then Some (goto w t (CloseSend sync)) else Some (goto w t (CloseManual sync))
  | CloseSend sync => match w_state w with
                      | Closed => Some (goto w t (if sync then CloseStream sync else Failed))  (* discarded; the receiver gets an error *)
                      | _ => match send_msg w (Close t) with
                             | Some w' => Some (goto w' t (CloseWait sync))
                             | None => None
                             end
                      end
  | CloseWait sync => match remove_one t (w_done w) with
                      | Some d => Some (goto (with_done w d) t (CloseStream sync))
                      | None => None
                      end
  | CloseManual sync => (* concrete_base.rs 397-405 *)
      Some (goto (if is_state (w_state w) Closed then w else with_state w Closed) t (CloseStream sync))
  | CloseStream sync => if may_lock w sync then asked w t BClose (fun w' => finish w' t sync) else None
  (* online.rs 377-383 *)
  | SinkChk => if is_state (w_state w) Closed then Some (finish w t true) else Some (goto w t (SinkLock (w_state w)))
  (* 386-387 *)
  | SinkLock st => if free (w_wlock w) then Some (goto (with_wlock w (Some t)) t (SinkDrain st [])) else None
  (* 390: [try_iter] receives one message after the other; 393-403 *)
  | SinkDrain st p => match w_chan w with
                      | m :: c => Some (goto (with_chan w c) t (SinkDrain st (p ++ [m])))
                      | [] => match p with
                              | Startup g :: p' => Some (goto w t (SinkClose st g p'))
                              | _ => Some (goto w t (SinkRecycle st p))
                              end
                      end
  (* 408-415 *)
  | SinkRecycle st p => Some (goto (with_chan w (w_chan w ++ [Recycle t])) t (if is_state st Suspended then SinkWake st p else SinkRecv st p))
  | SinkWake st p => asked w t BResume (fun w' => goto w' t (SinkRecv st p))
  | SinkRecv st p => match take_given t (w_given w) with
                     | Some (g, l) => Some (goto (with_given w l) t (SinkClose st g p))
                     | None => None
                     end
  (* 420 *)
  | SinkClose st g p => asked w t BClose (fun w' => goto w' t (SinkBuild st g p))
  (* 423-430 *)
  | SinkBuild st g p => Some (goto (with_streams w (w_streams w ++ [fresh_stream])) t (if is_state st Suspended then SinkStop st g p else SinkShip st g p))
  (* 433-436 *)
  | SinkStop st g p => asked w t BSuspend (fun w' => goto w' t (SinkShip st g p))
  (* 439-440 *)
  | SinkShip st g p => Some (goto (with_chan w (w_chan w ++ [Startup g])) t (SinkFlush p))
  (* 443-449: [send_control_msg] takes the lock for reading that this call holds for writing until its end *)
  | SinkFlush (m :: p) => match send_msg w m with
                          | Some w' => Some (goto w' t (SinkFlush p))
                          | None => None
                          end
  | SinkFlush [] => Some (finish (with_wlock w None) t true)
  end.

(** who makes the next step: a thread begins a call, a thread goes on, stream [i] starts a callback of [k] quanta,
    goes on, or looks at the requests to it *)
Inductive label :=
| LCall (t : nat) (o : op)
| LStep (t : nat)
| LStart (i k : nat)
| LRender (i : nat)
| LRequest (i : nat).
Definition step (w : world) (l : label) : option world :=
  match l with
  | LCall t o => call w t o
  | LStep t => thread_step w t
  | LStart i k => match nth_error (w_streams w) i with Some s => stream_start w i k s | None => None end
  | LRender i => match nth_error (w_streams w) i with Some s => if s_alive s then render_step w i s else None | None => None end
  | LRequest i => match nth_error (w_streams w) i with Some s => stream_request w i s | None => None end
  end.
(** a schedule; [None] when a step is not possible *)
Fixpoint exec (w : world) (ls : list label) : option world :=
  match ls with
  | [] => Some w
  | l :: ls' => match step w l with Some w' => exec w' ls' | None => None end
  end.
End Context.
Arguments msg : clear implicits. Arguments stream : clear implicits. Arguments world : clear implicits. Arguments pc : clear implicits. Arguments op : clear implicits. Arguments label : clear implicits.
