(** Model of the protocol between the control thread(s) and the render thread:
    node identifiers, registration, connections, handle drops, message buffering
    while suspended, message handling and rendering.

    Source: /repo/src/context/concrete_base.rs, /repo/src/context/mod.rs 134-147,
    /repo/src/context/online.rs (suspend, resume, close), /repo/src/render/thread.rs
    123-254.

    An execution is any list of atomic steps of the control thread(s) and of the
    render thread.  A constructor call is a sequence of steps (allocate,
    register, connect parameters, ...), so that constructors running on several
    threads interleave.  Simplifications: recording a connection and sending its
    message are one step ([connect] holds no lock in between); memory is
    sequentially consistent; the messages Startup and CloseAndRecycle (change of
    output device) are modelled in Sink_Model.v. *)
From Coq Require Import List Arith Bool.
From Verif Require Import Graph_Model Graph_TraceModel.
Import ListNotations.

Section Protocol.
Context {P Q CFG : Type}.

(** /repo/src/message.rs 14-86, [ControlMessage] *)
Inductive msg :=
| MRegister (id : nat) (p : P) (ins outs : nat) (cfg : CFG)
| MConnect (src out dst : nat) (port : option nat)
| MDisconnect (src out dst : nat) (port : option nat)
| MDrop (id : nat)
| MBreaker (id : nat)
| MCfg (id : nat) (f : CFG -> CFG)
| MPost (id : nat) (onmsg : P -> option P)
| MSuspend
| MResume
| MClose.

(** thread.rs 139-243: the graph operation a message stands for *)
Definition to_gop (m : msg) : option (gop P CFG) :=
  match m with
  | MRegister id p ins outs cfg => Some (OpAdd id p ins outs cfg)
  | MConnect s o d p => Some (OpConnect s o d p)
  | MDisconnect s o d p => Some (OpDisconnect s o d p)
  | MDrop id => Some (OpDrop id)
  | MBreaker id => Some (OpBreaker id)
  | MCfg id f => Some (OpCfg id f)
  | MPost id m => Some (OpMessage id m)
  | MSuspend | MResume | MClose => None
  end.

(** What the user program holds for an identifier: Rust's ownership rules allow
    API calls on a node exactly while its handle exists.  [Reserved]: a
    constructor owns the registration and has not sent RegisterNode yet.
    [Dropped]: the handle is gone, the identifier was not yet given back.  The
    port counts are those of the node type.  [fresh]: no connection was made
    from the node yet. *)
Inductive handle :=
| Unused
| Reserved
| Alive (ins outs : nat) (fresh : bool)
| Dropped.

(** concrete_base.rs 103-105: (from, output, to, input) *)
Definition conn : Type := nat * nat * nat * option nat.

Record sys := mk_sys {
  s_next : nat;                  (* concrete_base.rs 28, id_inc *)
  s_reclaim : list nat;          (* concrete_base.rs 30, id_consumer, oldest first *)
  s_handle : nat -> handle;      (* the user program's handles *)
  s_conns : list conn;           (* concrete_base.rs 105, a HashSet *)
  s_queued : list (nat * nat);   (* concrete_base.rs 96, queued_messages: (param, node) *)
  s_buf : option (list msg);     (* concrete_base.rs 88, suspended_messages *)
  s_closed : bool;               (* state = Closed *)
  s_chan : list msg;             (* the channel, oldest first *)
  s_graph : graph P Q CFG;       (* the render thread's graph *)
  s_idle : bool;                 (* thread.rs 47, suspended *)
  (* ghost fields *)
  s_issued : list msg;           (* every message the API issued *)
  s_handled : list msg;          (* every message the render thread handled *)
  s_trace : list (gop P CFG)     (* every operation applied to the graph *)
}.

Inductive op :=
(* control side *)
| CAlloc
| CRegister (id : nat) (p : P) (ins outs : nat) (cfg : CFG)
| CQueueParam (param node : nat)
| CResolve (id : nat)
| CConnect (src out dst : nat) (port : option nat)
| CDisconnect (src : nat) (out dst : option nat) (port : option (option nat))
| CDrop (id : nat)
| CBreaker (id : nat)
| CCfg (id : nat) (f : CFG -> CFG)
| CPost (id : nat) (onmsg : P -> option P)
| CSuspend
| CResume
| CClose
| CCloseNow
| CAbandon (id : nat)
| CSendDrop (id : nat)
| CForget (id : nat)
(* render side *)
| RHandle
| RRender (frame : nat).

Definition set_handle (h : nat -> handle) (id : nat) (v : handle) : nat -> handle :=
  fun i => if Nat.eqb i id then v else h i.

Definition with_handle (s : sys) (id : nat) (v : handle) : sys :=
  mk_sys (s_next s) (s_reclaim s) (set_handle (s_handle s) id v) (s_conns s) (s_queued s) (s_buf s)
         (s_closed s) (s_chan s) (s_graph s) (s_idle s) (s_issued s) (s_handled s) (s_trace s).

Definition with_conns (s : sys) (c : list conn) : sys :=
  mk_sys (s_next s) (s_reclaim s) (s_handle s) c (s_queued s) (s_buf s)
         (s_closed s) (s_chan s) (s_graph s) (s_idle s) (s_issued s) (s_handled s) (s_trace s).

Definition with_queued (s : sys) (q : list (nat * nat)) : sys :=
  mk_sys (s_next s) (s_reclaim s) (s_handle s) (s_conns s) q (s_buf s)
         (s_closed s) (s_chan s) (s_graph s) (s_idle s) (s_issued s) (s_handled s) (s_trace s).

(** concrete_base.rs 276-290, [send_control_msg] *)
Definition send (s : sys) (m : msg) : sys :=
  let iss := s_issued s ++ [m] in
  if s_closed s then
    mk_sys (s_next s) (s_reclaim s) (s_handle s) (s_conns s) (s_queued s) (s_buf s)
           (s_closed s) (s_chan s) (s_graph s) (s_idle s) iss (s_handled s) (s_trace s)
  else
    match s_buf s with
    | Some b =>
        mk_sys (s_next s) (s_reclaim s) (s_handle s) (s_conns s) (s_queued s) (Some (b ++ [m]))
               (s_closed s) (s_chan s) (s_graph s) (s_idle s) iss (s_handled s) (s_trace s)
    | None =>
        mk_sys (s_next s) (s_reclaim s) (s_handle s) (s_conns s) (s_queued s) None
               (s_closed s) (s_chan s ++ [m]) (s_graph s) (s_idle s) iss (s_handled s) (s_trace s)
    end.

Definition send_all (s : sys) (ms : list msg) : sys := fold_left send ms s.

(** concrete_base.rs 40-46, [AudioNodeIdProvider::get] *)
Definition next_id (s : sys) : nat := match s_reclaim s with [] => s_next s | i :: _ => i end.
Definition alloc (s : sys) : sys :=
  let id := next_id s in
  match s_reclaim s with
  | [] => mk_sys (S (s_next s)) [] (set_handle (s_handle s) id Reserved) (s_conns s) (s_queued s) (s_buf s)
                 (s_closed s) (s_chan s) (s_graph s) (s_idle s) (s_issued s) (s_handled s) (s_trace s)
  | _ :: r => mk_sys (s_next s) r (set_handle (s_handle s) id Reserved) (s_conns s) (s_queued s) (s_buf s)
                 (s_closed s) (s_chan s) (s_graph s) (s_idle s) (s_issued s) (s_handled s) (s_trace s)
  end.

Definition conn_eqb (a b : conn) : bool :=
  let '(s1, o1, d1, p1) := a in let '(s2, o2, d2, p2) := b in
  Nat.eqb s1 s2 && Nat.eqb o1 o2 && Nat.eqb d1 d2 && port_eqb p1 p2.

(** concrete_base.rs 443-456: HashSet insertion *)
Definition record (c : conn) (l : list conn) : list conn :=
  if existsb (conn_eqb c) l then l else l ++ [c].

(** concrete_base.rs 484-490: which recorded connections a disconnect call selects *)
Definition selects (src : nat) (out dst : option nat) (port : option (option nat)) (c : conn) : bool :=
  let '(s, o, d, p) := c in
  Nat.eqb s src
  && match out with Some x => Nat.eqb o x | None => true end
  && match dst with Some x => Nat.eqb d x | None => true end
  && match port with Some x => port_eqb p x | None => true end.

Definition to_disconnect (c : conn) : msg := let '(s, o, d, p) := c in MDisconnect s o d p.

(** concrete_base.rs 340-346 *)
Definition mentions (id : nat) (c : conn) : bool :=
  let '(s, _, d, _) := c in Nat.eqb s id || Nat.eqb d id.

(** concrete_base.rs 332-336: destination, listener and the nine listener
    parameters are never dropped *)
Definition magic (id : nat) : bool := Nat.leb id 10.

Definition is_alive (s : sys) (id : nat) : bool :=
  match s_handle s id with Alive _ _ _ => true | _ => false end.

(** concrete_base.rs 434-436: one queued parameter connection *)
Definition send_param (s : sys) (pq : nat * nat) : sys :=
  let m := MConnect (fst pq) 0 (snd pq) None in
  match s_handle s (fst pq) with
  | Alive i o _ => send (with_handle s (fst pq) (Alive i o false)) m
  | _ => send s m
  end.

(** the identifiers given back by a quantum; a node freed because its processor
    panicked may still be held by the program *)
Definition give_back (freed : list nat) (h : nat -> handle) : nat -> handle :=
  fun i => if mem i freed then match h i with Alive ins outs f => Alive ins outs f | _ => Unused end else h i.

(** what the render thread does with one message, thread.rs 136-254; [None] = it
    panics *)
Definition handle_msg (E : env P Q CFG) (m : msg) (s : sys) : option sys :=
  match to_gop m with
  | Some g =>
      match gstep E g (s_graph s) with
      | None => None
      | Some (g', _) =>
          Some (mk_sys (s_next s) (s_reclaim s) (s_handle s) (s_conns s) (s_queued s) (s_buf s)
                  (s_closed s) (s_chan s) g' (s_idle s) (s_issued s) (s_handled s ++ [m]) (s_trace s ++ [g]))
      end
  | None =>
      let idle := match m with MResume => false | _ => true end in
      let closed := match m with MClose => true | _ => s_closed s end in
      Some (mk_sys (s_next s) (s_reclaim s) (s_handle s) (s_conns s) (s_queued s) (s_buf s)
                  closed (s_chan s) (s_graph s) idle (s_issued s) (s_handled s ++ [m]) (s_trace s))
  end.

(** A step.  A control step whose precondition fails is a call the program cannot
    make (no handle) or one that is rejected on the control thread (bad port):
    nothing happens.  [None] = the render thread panics. *)
Definition step (E : env P Q CFG) (o : op) (s : sys) : option sys :=
  match o with
  | CAlloc => Some (alloc s)
  | CRegister id p ins outs cfg =>                     (* concrete_base.rs 248-266 *)
      match s_handle s id with
      | Reserved => Some (send (with_handle s id (Alive ins outs true)) (MRegister id p ins outs cfg))
      | _ => Some s
      end
  | CQueueParam param node =>                          (* concrete_base.rs 461-471 *)
      match s_handle s param, s_handle s node with
      | Unused, _ | Dropped, _ | _, Unused | _, Dropped => Some s
      | _, _ => Some (with_queued s (s_queued s ++ [(param, node)]))
      end
  | CResolve id =>                                     (* concrete_base.rs 428-440 *)
      if is_alive s id then
        let mine := filter (fun pq => Nat.eqb (snd pq) id) (s_queued s) in
        let rest := filter (fun pq => negb (Nat.eqb (snd pq) id)) (s_queued s) in
        Some (fold_left send_param mine (with_queued s rest))
      else Some s
  | CConnect src out dst port =>                       (* concrete_base.rs 443-456, audio_node.rs connect *)
      match s_handle s src, s_handle s dst with
      | Alive i o _, Alive di do_ _ =>
          if Nat.ltb out o && (match port with Some p => Nat.ltb p di | None => true end) then
            Some (send (with_conns (with_handle s src (Alive i o false)) (record (src, out, dst, port) (s_conns s)))
                       (MConnect src out dst port))
          else Some s
      | _, _ => Some s
      end
  | CDisconnect src out dst port =>                    (* concrete_base.rs 474-508 *)
      if is_alive s src then
        let sel := filter (selects src out dst port) (s_conns s) in
        let rest := filter (fun c => negb (selects src out dst port c)) (s_conns s) in
        Some (send_all (with_conns s rest) (map to_disconnect sel))
      else Some s
  | CDrop id =>                                        (* concrete_base.rs 330-347 *)
      if is_alive s id && negb (magic id) then
        let s1 := send (with_handle s id Dropped) (MDrop id) in
        Some (with_conns s1 (filter (fun c => negb (mentions id c)) (s_conns s1)))
      else Some s
  | CBreaker id =>                                     (* concrete_base.rs 350-354 *)
      if is_alive s id then Some (send s (MBreaker id)) else Some s
  | CCfg id f => if is_alive s id then Some (send s (MCfg id f)) else Some s
  | CPost id m =>                                      (* context/mod.rs 134-139 *)
      if is_alive s id then Some (send s (MPost id m)) else Some s
  | CSuspend =>                                        (* concrete_base.rs 292-298 *)
      if s_closed s then Some s else
      Some (mk_sys (s_next s) (s_reclaim s) (s_handle s) (s_conns s) (s_queued s) (Some [])
              (s_closed s) (s_chan s ++ [MSuspend]) (s_graph s) (s_idle s) (s_issued s ++ [MSuspend])
              (s_handled s) (s_trace s))
  | CResume =>                                         (* concrete_base.rs 300-320 *)
      if s_closed s then Some s else
      Some (mk_sys (s_next s) (s_reclaim s) (s_handle s) (s_conns s) (s_queued s) None
              (s_closed s) (s_chan s ++ match s_buf s with Some b => b | None => [] end ++ [MResume])
              (s_graph s) (s_idle s) (s_issued s ++ [MResume]) (s_handled s) (s_trace s))
  | CClose => if s_closed s then Some s else Some (send s MClose)   (* online.rs 610-646, while running *)
  | CCloseNow =>                                       (* online.rs 610-646, while suspended; set_state *)
      Some (mk_sys (s_next s) (s_reclaim s) (s_handle s) (s_conns s) (s_queued s) (s_buf s)
              true (s_chan s) (s_graph s) (s_idle s) (s_issued s) (s_handled s) (s_trace s))
  | CAbandon id =>                                     (* a constructor panics: its registration is dropped *)
      match s_handle s id with
      | Reserved => if magic id then Some s else Some (send (with_handle s id Dropped) (MDrop id))
      | _ => Some s
      end
  | CSendDrop id =>                                    (* concrete_base.rs 337-339, first half of a drop *)
      if is_alive s id && negb (magic id) then Some (send (with_handle s id Dropped) (MDrop id)) else Some s
  | CForget id =>                                      (* concrete_base.rs 341-346, second half of a drop *)
      Some (with_conns s (filter (fun c => negb (mentions id c)) (s_conns s)))
  | RHandle =>
      match s_chan s with
      | [] => Some s
      | m :: ms =>
          handle_msg E m
            (mk_sys (s_next s) (s_reclaim s) (s_handle s) (s_conns s) (s_queued s) (s_buf s)
               (s_closed s) ms (s_graph s) (s_idle s) (s_issued s) (s_handled s) (s_trace s))
      end
  | RRender frame =>                                   (* thread.rs 497-530, 413-447 *)
      if s_idle s || negb (is_active (s_graph s)) then Some s else
      match render E frame (s_graph s) with
      | None => None
      | Some (g', lgs, _) =>
          let freed := reclaimed lgs in
          Some (mk_sys (s_next s) (s_reclaim s ++ freed)
                  (give_back freed (s_handle s))
                  (s_conns s) (s_queued s) (s_buf s) (s_closed s) (s_chan s) g' (s_idle s)
                  (s_issued s) (s_handled s) (s_trace s ++ [OpRender frame]))
      end
  end.

Fixpoint run (E : env P Q CFG) (ops : list op) (s : sys) : option sys :=
  match ops with
  | [] => Some s
  | o :: ops' => match step E o s with Some s' => run E ops' s' | None => None end
  end.

(** concrete_base.rs 144-222: a new context.  The destination (id 0) is
    registered; the listener and its parameters (1 to 10) wait for their first
    use, with the parameters' connections queued. *)
Definition sys0 (dest : P) (cfg : CFG) : sys :=
  let m := MRegister 0 dest 1 1 cfg in
  mk_sys 11 [] (fun i => if Nat.eqb i 0 then Alive 1 1 true else if Nat.leb i 10 then Reserved else Unused)
         [] (map (fun i => (i, 1)) (seq 2 9)) None false [m] graph_new false [m] [] [].

End Protocol.
Arguments msg : clear implicits.
Arguments op : clear implicits.
Arguments sys : clear implicits.
