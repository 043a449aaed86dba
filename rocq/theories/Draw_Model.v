(** The messages of the connection calls (Calls_Model.v) as the renderer of a
    context receives them.  Source: /repo/src/render/thread.rs 139-243. *)
From Coq Require Import List.
From Verif Require Import Graph_Model Graph_TraceModel Calls_Model.
Import ListNotations.

Section Draw.
Context {P CFG : Type}.
(** the processor and channel configuration each node is registered with, concrete_base.rs 249-262 *)
Variables (proc : nat -> P) (cfg : nat -> CFG).

(** thread.rs 139-243, the messages about nodes and connections *)
Definition op_of (m : note) : gop P CFG :=
  match m with
  | NRegister id ins outs => OpAdd id (proc id) ins outs (cfg id)
  | NConnect s o d p => OpConnect s o d p
  | NDisconnect s o d p => OpDisconnect s o d p
  | NDrop id => OpDrop id
  | NBreaker id => OpBreaker id
  end.

(** concrete_base.rs 277-290: what the renderer of [ctx] is sent by a program *)
Definition script (n : nat) (cs : list call) (ctx : nat) : list (gop P CFG) :=
  map op_of (w_sent (snd (calls cs (world0 n))) ctx).
End Draw.
