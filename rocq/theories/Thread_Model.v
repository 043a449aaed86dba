(** Model of the render thread: message dispatch, the hardware callback, and
    offline rendering.

    Source: /repo/src/render/thread.rs 32-48, 123-252, 260-396, 413-532,
    /repo/src/context/offline.rs 157-185, 241-251, 294-387.

    The audio graph is a parameter (it is modelled in Graph_Model.v): rendering a
    quantum and applying a control message are functions on its state.  Sample
    buffers are lists of channels, a channel is a list of samples.  Not
    modelled: render statistics, diagnostics, the garbage collector, denormal
    flushing. *)
From Coq Require Import List Arith Bool ZArith QArith Qround.
Import ListNotations.
Local Open Scope nat_scope.

(** context/mod.rs, [AudioContextState] *)
Inductive cstate := Suspended | Running | Closed.

(** ** Interleaved output buffers *)

(** thread.rs 453-458 and 514-519:
    [data.iter_mut().skip(skip).step_by(n).zip(channel)], each position assigned *)
Fixpoint strided {T : Type} (data : list T) (skip n : nat) (ch : list T) : list T :=
  match data with
  | [] => []
  | x :: data' =>
      match skip with
      | O => match ch with
             | [] => data
             | c :: ch' => c :: strided data' (pred n) n ch'
             end
      | S k => x :: strided data' k n ch
      end
  end.

(** slice::chunks_mut *)
Fixpoint chunks_fuel {A} (fuel n : nat) (l : list A) : list (list A) :=
  match fuel with
  | O => []
  | S fuel' => match l with
               | [] => []
               | _ => firstn n l :: chunks_fuel fuel' n (skipn n l)
               end
  end.
Definition chunks {A} (n : nat) (l : list A) : list (list A) := chunks_fuel (length l) n l.

Section Thread.
Context {G M V T : Type}.

(** the audio graph *)
Record graph_ops := mk_graph_ops {
  g_render : G -> nat -> option (G * list (list V));  (* Graph::render at a frame; None = panic *)
  g_apply : G -> M -> option G;                       (* thread.rs 139-184, 199-204, 232-248 *)
  g_active : G -> bool                                (* Graph::is_active *)
}.

(** message.rs 14-86: the messages of the render thread itself; all others are
    messages for the graph *)
Inductive cmsg :=
| GraphMsg (m : M)
| SuspendMsg (notify : nat)
| ResumeMsg (notify : nat)
| CloseMsg (notify : nat)
| StartupMsg (g : G)
| RecycleMsg.

Variable GO : graph_ops.
Variable zero : V.
Variable conv : V -> T.          (* S::from_sample_ *)
Variable RQ : nat.               (* lib.rs: RENDER_QUANTUM_SIZE *)

(** thread.rs 32-48.  [t_events], [t_notified], [t_given] record what the thread
    sent: state changes, notifications, recycled graphs. *)
Record thread := mk_thread {
  t_graph : option G;
  t_suspended : bool;
  t_state : cstate;
  t_frames : nat;
  t_listening : bool;                       (* receiver.is_some() *)
  t_offset : option (nat * list (list V));  (* buffer_offset *)
  t_events : list cstate;
  t_notified : list nat;
  t_given : list G
}.

Definition set_graph (t : thread) (g : option G) : thread :=
  mk_thread g (t_suspended t) (t_state t) (t_frames t) (t_listening t) (t_offset t) (t_events t) (t_notified t) (t_given t).
Definition set_offset (t : thread) (o : option (nat * list (list V))) : thread :=
  mk_thread (t_graph t) (t_suspended t) (t_state t) (t_frames t) (t_listening t) o (t_events t) (t_notified t) (t_given t).

(** thread.rs 534-539; the event channel is assumed not to be full *)
Definition set_state (t : thread) (susp : bool) (st : cstate) (n : list nat) : thread :=
  mk_thread (t_graph t) susp st (t_frames t) (t_listening t) (t_offset t) (t_events t ++ [st]) (t_notified t ++ n) (t_given t).

(** thread.rs 136-252; [inl] = Continue, [inr] = Break; [None] = panic
    ([graph.as_mut().unwrap()] or a panic of the graph operation) *)
Definition handle_control_message (t : thread) (m : cmsg) : option (thread + thread) :=
  match m with
  | GraphMsg gm =>
      match t_graph t with
      | None => None
      | Some g => match g_apply GO g gm with
                  | None => None
                  | Some g' => Some (inl (set_graph t (Some g')))
                  end
      end
  | SuspendMsg n => Some (inl (set_state t true Suspended [n]))
  | ResumeMsg n => Some (inl (set_state t false Running [n]))
  | CloseMsg n => Some (inl (set_state t true Closed [n]))
  | StartupMsg g => Some (inl (set_state (set_graph t (Some g)) (t_suspended t) Running []))
  | RecycleMsg =>
      match t_graph t with
      | None => None
      | Some g =>
          let t1 := set_state t (t_suspended t) Suspended [] in
          Some (inr (mk_thread None (t_suspended t1) (t_state t1) (t_frames t1) false (t_offset t1)
                       (t_events t1) (t_notified t1) (t_given t1 ++ [g])))
      end
  end.

Fixpoint handle_all (t : thread) (q : list cmsg) : option (thread * list cmsg) :=
  match q with
  | [] => Some (t, [])
  | m :: q' => match handle_control_message t m with
               | None => None
               | Some (inl t') => handle_all t' q'
               | Some (inr t') => Some (t', q')
               end
  end.

(** thread.rs 123-134: handle what is in the channel; the second component is
    what remains in it *)
Definition handle_control_messages (t : thread) (q : list cmsg) : option (thread * list cmsg) :=
  if t_listening t then handle_all t q else Some (t, q).

(** ** The hardware callback *)

(** quantum.rs, [mix(n, Discrete)] to a larger number of channels *)
Definition pad (n : nat) (q : list (list V)) : list (list V) :=
  if Nat.ltb (length q) n then q ++ repeat (repeat zero RQ) (n - length q) else q.

(** thread.rs 452-459 and 513-520: write channels [i .. i+k-1] from [offset];
    [None] = [channel_data(i)] out of bounds *)
Fixpoint copy_channels (k i n offset : nat) (q : list (list V)) (data : list T) : option (list T) :=
  match k with
  | O => Some data
  | S k' =>
      match nth_error q i with
      | None => None
      | Some ch => copy_channels k' (S i) n offset q (strided data i n (map conv (skipn offset ch)))
      end
  end.

(** thread.rs 489-503: render a quantum and advance the clock *)
Definition render_quantum (t : thread) : option (thread * list (list V)) :=
  match t_graph t with
  | None => None
  | Some g =>
      match g_render GO g (t_frames t) with
      | None => None
      | Some (g', q) =>
          Some (mk_thread (Some g') (t_suspended t) (t_state t) (t_frames t + RQ) (t_listening t) (t_offset t)
                  (t_events t) (t_notified t) (t_given t), q)
      end
  end.

(** The messages that are in the channel at successive calls of
    [handle_control_messages]: what remained plus the next batch. *)
Definition arrivals : Type := list (list cmsg).
Definition receive (t : thread) (rest : list cmsg) (bs : arrivals) : option (thread * list cmsg * arrivals) :=
  match handle_control_messages t (rest ++ hd [] bs) with
  | None => None
  | Some (t', rest') => Some (t', rest', tl bs)
  end.

(** thread.rs 487-531 *)
Fixpoint render_chunks (n : nat) (t : thread) (cs : list (list T)) (rest : list cmsg) (bs : arrivals)
  : option (thread * list T * list cmsg * arrivals) :=
  match cs with
  | [] => Some (t, [], rest, bs)
  | data :: cs' =>
      match render_quantum t with
      | None => None
      | Some (t1, q) =>
          let q' := pad n q in
          match copy_channels n 0 n 0 q' data with
          | None => None
          | Some data' =>
              let t2 := if Nat.eqb (length data) (RQ * n) then t1
                        else set_offset t1 (Some (length data / n, q')) in
              match receive t2 rest bs with
              | None => None
              | Some (t3, rest', bs') =>
                  match render_chunks n t3 cs' rest' bs' with
                  | None => None
                  | Some (t4, out, rest'', bs'') => Some (t4, data' ++ out, rest'', bs'')
                  end
              end
          end
      end
  end.

(** thread.rs 473-531: what is done with the part of the buffer that the previous
    quantum does not fill *)
Definition render_next (n : nat) (t : thread) (buf : list T) (rest : list cmsg) (bs : arrivals)
  : option (thread * list T * list cmsg * arrivals) :=
  match receive t rest bs with
  | None => None
  | Some (t1, rest1, bs1) =>
      if t_suspended t1 || negb (match t_graph t1 with Some g => g_active GO g | None => false end)
      then Some (t1, map (fun _ => conv zero) buf, rest1, bs1)
      else render_chunks n t1 (chunks (RQ * n) buf) rest1 bs1
  end.

(** thread.rs 441-532; [buf] is the content of the buffer before the call, [n]
    the number of channels *)
Definition render_inner (n : nat) (t : thread) (buf : list T) (rest : list cmsg) (bs : arrivals)
  : option (thread * list T * list cmsg * arrivals) :=
  match t_offset t with
  | None => render_next n t buf rest bs
  | Some (offset, prev) =>
      let t0 := set_offset t None in
      let leftover := (RQ - offset) * n in
      let first := firstn (Nat.min leftover (length buf)) buf in
      let next := skipn (Nat.min leftover (length buf)) buf in
      match copy_channels n 0 n offset prev first with
      | None => None
      | Some first' =>
          match next with
          | [] => Some (set_offset t0 (Some (offset + length first / n, prev)), first', rest, bs)
          | _ => match render_next n t0 next rest bs with
                 | None => None
                 | Some (t', out, rest', bs') => Some (t', first' ++ out, rest', bs')
                 end
          end
      end
  end.

(** a sequence of hardware callbacks *)
Fixpoint callbacks (n : nat) (t : thread) (bufs : list (list T)) (rest : list cmsg) (bs : arrivals)
  : option (thread * list (list T) * list cmsg * arrivals) :=
  match bufs with
  | [] => Some (t, [], rest, bs)
  | buf :: bufs' =>
      match render_inner n t buf rest bs with
      | None => None
      | Some (t1, out, rest1, bs1) =>
          match callbacks n t1 bufs' rest1 bs1 with
          | None => None
          | Some (t2, outs, rest2, bs2) => Some (t2, out :: outs, rest2, bs2)
          end
      end
  end.

(** ** Offline rendering *)

(** thread.rs 385-395; [cap] is the capacity of the vectors, i.e. the length of the
    buffer to render ([Vec::with_capacity(length)] is assumed to allocate
    exactly [length]); [None] = index panic ([buffer[0]]) *)
Definition extend_offline (cap : nat) (buffer : list (list V)) (q : list (list V)) : option (list (list V)) :=
  match buffer with
  | [] => None
  | b0 :: _ =>
      let remaining := Nat.min (cap - length b0) RQ in
      Some (map (fun ib => snd ib ++ firstn remaining (nth (fst ib) q (repeat zero RQ)))
                (combine (seq 0 (length buffer)) buffer))
  end.

(** one suspension: the quantum it is scheduled for, and the messages its callback
    submits (sync) or that are submitted until resume (async) *)
Definition suspension : Type := nat * list cmsg.

(** thread.rs 278-295 and 327-345.  [evs]: the messages submitted by the event
    handlers run after each quantum.  The last component of the result records
    the suspensions that took place: scheduled quantum and clock. *)
Fixpoint offline_loop (k quantum cap : nat) (t : thread) (buffer : list (list V))
    (susp : list suspension) (evs : arrivals)
  : option (thread * list (list V) * list (nat * nat)) :=
  match k with
  | O => Some (t, buffer, [])
  | S k' =>
      let '(here, ran, susp') :=
        match susp with
        | (q, ms) :: susp' => if Nat.eqb q quantum then (ms, [(q, t_frames t)], susp') else ([], [], susp)
        | [] => ([], [], [])
        end in
      match handle_control_messages t here with
      | None => None
      | Some (t1, _) =>
          match render_quantum t1 with
          | None => None
          | Some (t2, q) =>
              match extend_offline cap buffer q with
              | None => None
              | Some buffer' =>
                  match handle_control_messages t2 (hd [] evs) with
                  | None => None
                  | Some (t3, _) =>
                      match offline_loop k' (S quantum) cap t3 buffer' susp' (tl evs) with
                      | None => None
                      | Some (t4, buf, ran') => Some (t4, buf, ran ++ ran')
                      end
                  end
              end
          end
      end
  end.

(** usize::div_ceil *)
Definition div_ceil (a b : nat) : nat := (a + (b - 1)) / b.

(** thread.rs 260-302 and 309-352 *)
Definition render_audiobuffer (n length : nat) (t : thread) (init : list cmsg) (susp : list suspension) (evs : arrivals)
  : option (thread * list (list V) * list (nat * nat)) :=
  match handle_control_messages t init with
  | None => None
  | Some (t1, _) => offline_loop (div_ceil length RQ) 0 length t1 (repeat [] n) susp evs
  end.

End Thread.

(** ** Scheduling offline suspensions (offline.rs) *)

(** offline.rs 241-251.  Simplification: exact rational arithmetic instead of
    f64 (division by 128 is exact; the product is rounded once in the source).
    [None] = the assertion fails. *)
Definition calculate_suspend_frame (RQ length : nat) (sample_rate time : Q) : option nat :=
  if Qle_bool 0 time && negb (Qle_bool (inject_Z (Z.of_nat length) / sample_rate) time)
  then Some (Z.to_nat (Qceiling (time * sample_rate / inject_Z (Z.of_nat RQ))))
  else None.

(** offline.rs 305-315 and 369-386: insertion in the sorted vector; [None] =
    already scheduled *)
Fixpoint insert_suspension {A} (q : nat) (a : A) (l : list (nat * A)) : option (list (nat * A)) :=
  match l with
  | [] => Some [(q, a)]
  | (q', a') :: l' =>
      if Nat.ltb q q' then Some ((q, a) :: l)
      else if Nat.eqb q q' then None
      else option_map (cons (q', a')) (insert_suspension q a l')
  end.

(** a call of [suspend] / [suspend_sync] *)
Definition suspend_at {A} (RQ length : nat) (sample_rate time : Q) (a : A) (l : list (nat * A)) : option (list (nat * A)) :=
  match calculate_suspend_frame RQ length sample_rate time with
  | None => None
  | Some q => insert_suspension q a l
  end.
