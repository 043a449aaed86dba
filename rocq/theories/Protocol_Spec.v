(** What well-behaved programs do, and the notions used to state the protocol
    properties. *)
From Coq Require Import List Arith Bool.
From Verif Require Import Graph_Model Graph_Spec Graph_TraceModel Graph_TraceSpec Protocol_Model.
Import ListNotations.

Section ProtocolSpec.
Context {P Q CFG : Type}.
Notation sys := (sys P Q CFG).
Notation op := (op P CFG).
Notation msg := (msg P CFG).
Variable E : env P Q CFG.

(** messages sent and not yet handled, oldest first *)
Definition pending (s : sys) : list msg :=
  s_chan s ++ match s_buf s with Some b => b | None => [] end.

(** no processor panics while rendering *)
Definition no_panics : Prop := forall p ins outs v frame, process E p ins outs v frame <> None.

(** The API calls of the library's own node types and of programs that use them
    as documented:
    - parameters are created by the constructor of their node, which owns them
      until the node is registered and connected (base.rs 315-340);
    - a delay writer is marked right after its registration (delay.rs 316-384);
    - suspend is not called again before resume;
    - constructors do not panic, message handlers do not panic;
    - a node's handle is dropped as a whole (not racing with another thread). *)
Definition careful (s : sys) (o : op) : Prop :=
  match o with
  | CQueueParam param node => s_handle s node = Reserved
  | CResolve id => forall param, In (param, id) (s_queued s) ->
      exists ins outs fresh, s_handle s param = Alive ins outs fresh /\ 0 < outs
  | CBreaker id => forall ins outs fresh, s_handle s id = Alive ins outs fresh -> fresh = true
  | CPost _ onmsg => forall p, onmsg p <> None
  | CSuspend => s_buf s = None
  | CAbandon _ | CSendDrop _ | CForget _ => False
  | _ => True
  end.

(** suspend is not called again before resume *)
Definition single_suspend (s : sys) (o : op) : Prop :=
  match o with CSuspend => s_buf s = None | _ => True end.

(** a predicate that holds at each step of an execution *)
Fixpoint throughout (C : sys -> op -> Prop) (ops : list op) (s : sys) : Prop :=
  match ops with
  | [] => True
  | o :: ops' => C s o /\ forall s', step E o s = Some s' -> throughout C ops' s'
  end.

(** the message is about node [id] *)
Definition about (id : nat) (m : msg) : Prop :=
  match m with
  | MRegister i _ _ _ _ | MDrop i | MBreaker i | MCfg i _ | MPost i _ => i = id
  | MConnect s _ d _ | MDisconnect s _ d _ => s = id \/ d = id
  | MSuspend | MResume | MClose => False
  end.

(** the identifier is in use: in the render graph, by the user's program, by a
    message on its way, or in the table of connections *)
Definition in_use (s : sys) (id : nat) : Prop :=
  live (g_nodes (s_graph s)) id \/ s_handle s id <> Unused \/
  (exists m, In m (pending s) /\ about id m) \/
  (exists c, In c (s_conns s) /\ mentions id c = true).

(** the render graph sends output [out] of [src] into input [port] of [dst] *)
Definition has_edge (s : sys) (src out dst : nat) (port : option nat) : Prop :=
  exists n, get (g_nodes (s_graph s)) src = Some n /\ In (mk_edge out dst port) (n_edges n).

(** the program holds the node *)
Definition held (s : sys) (id : nat) : Prop := exists ins outs fresh, s_handle s id = Alive ins outs fresh.

(** [id] is not the writing half of a delay (whose internal connection is cut when
    the delay is part of a cycle) *)
Definition not_writer (s : sys) (id : nat) : Prop :=
  (forall n, get (g_nodes (s_graph s)) id = Some n -> n_breaker n = false) /\ ~ In (MBreaker id) (pending s).

End ProtocolSpec.

(** Is rendering paused after the messages: the last of suspend, resume and close was not resume *)
Definition paused {P CFG} (ms : list (msg P CFG)) : bool :=
  fold_left (fun b m => match m with MSuspend | MClose => true | MResume => false | _ => b end) ms false.

(** The connection [(a, o, b, p)] is one of those a call of disconnect is about: it starts
    at the node, and at the output, leads to the node, and to the input, as far as the
    call names them. *)
Definition disconnects (src : nat) (out dst : option nat) (port : option (option nat)) (a o b : nat) (p : option nat) : Prop :=
  a = src /\ (out = None \/ out = Some o) /\ (dst = None \/ dst = Some b) /\ (port = None \/ port = Some p).
