(** Diagnostics: specification. *)
From Coq Require Import List Arith Bool.
From Verif Require Import Graph_TraceModel Event_Model Diag_Model.
Import ListNotations.

(** the calls made with reports *)
Definition delivered (w : world) : list (handler * event) := filter (fun c => e_key (snd c) =? K) (calls (w_loop w)).
(** reports that wait in the queue of events *)
Definition in_queue (w : world) : list event := filter (fun e => e_key e =? K) (queue (w_loop w)).
(** no report is asked for before the callback of the request before has been called *)
Fixpoint one_at_a_time (capacity : nat) (w : world) (ms : list move) : Prop :=
  match ms with
  | [] => True
  | m :: ms' =>
      match m with Ask _ _ => length (delivered w) = length (w_asked w) | _ => True end /\
      match wstep capacity w m with Some w' => one_at_a_time capacity w' ms' | None => True end
  end.
(** the requests of a history *)
Definition requests (ms : list move) : list (handler * event) :=
  flat_map (fun m => match m with Ask h r => [(Once h, answer r)] | _ => [] end) ms.

(** In the history [ops], output [out] of node [a] was connected to input [port] of [dst] and not disconnected from it
    since, and [a] is still the same node. *)
Definition made {P CFG} (ops : list (gop P CFG)) (a out dst : nat) (port : option nat) : Prop :=
  exists ops1 ops2, ops = ops1 ++ OpConnect a out dst port :: ops2 /\ ~ In (OpDisconnect a out dst port) ops2 /\
    forall p ins outs cfg, ~ In (OpAdd a p ins outs cfg) ops2.
