(** Model of the connection calls a program makes on its node handles: the
    constructors as far as connections are concerned, connect, the five forms
    of disconnect, dropping a handle, and the audio listener entering the graph
    at its first use.

    Source: /repo/src/node/audio_node.rs 246-402, /repo/src/node/delay.rs
    106-274 and 276-364, /repo/src/node/panner.rs 488-497,
    /repo/src/context/concrete_base.rs 152-203, 229-272, 330-347, 442-534,
    /repo/src/context/base.rs 320-336, /repo/src/param.rs 300-334.

    Simplifications: calls are atomic (interleavings inside a call are the
    subject of Protocol_Model.v); a HashSet is a list without duplicates in
    insertion order; messages are recorded as issued, without the processors
    they carry, while the context is not closed; a processor's parameters are
    objects of their own, dropped by their own call. *)
From Coq Require Import List Arith Bool.
From Verif Require Import Graph_Model Protocol_Model.
Import ListNotations.

(** audio_node.rs 224-231: what a handle knows.  [o_in] is the node connections
    to the handle arrive at, [o_out] the node its connections leave from; they
    differ for a DelayNode (delay.rs 111-113, 149-150). *)
Record object := mk_object { o_ctx : nat; o_in : nat; o_out : nat; o_ins : nat; o_outs : nat }.

(** message.rs 14-60, without payloads *)
Inductive note :=
| NRegister (id ins outs : nat)
| NConnect (src out dst : nat) (port : option nat)
| NDisconnect (src out dst : nat) (port : option nat)
| NDrop (id : nat)
| NBreaker (id : nat).

(** One flag per object: does its handle still exist?  [w_waiting]: the node ids
    of queued_audio_listener_msgs, concrete_base.rs 100, in the order of the Vec;
    [w_params]: the ids of the listener's parameters whose connections are in
    queued_messages, concrete_base.rs 96. *)
Record world := mk_world {
  w_objs : list (object * bool);
  w_conns : nat -> list conn;
  w_waiting : nat -> list nat;
  w_params : nat -> list nat;
  w_sent : nat -> list note
}.

Inductive call :=
| MakeNode (ctx id ins outs : nat) (params : list nat)
| MakeDelay (ctx writer reader param : nat)
| MakePanner (ctx id : nat) (params : list nat)
| Listener (ctx : nat)
| Connect (a out b inp : nat)
| Disconnect (a : nat)
| DisconnectDest (a b : nat)
| DisconnectOutput (a out : nat)
| DisconnectDestFromOutput (a b out : nat)
| DisconnectDestFromOutputToInput (a b out inp : nat)
| Drop (a : nat).

Inductive error := InvalidAccess | IndexSize.

(** [Impossible]: the program has no such handle *)
Inductive outcome := Accepted | Rejected (e : error) | Impossible.

Definition set {X} (f : nat -> X) (i : nat) (v : X) : nat -> X := fun j => if Nat.eqb j i then v else f j.

(** concrete_base.rs 277-290, [send_control_msg] *)
Definition say (w : world) (ctx : nat) (ms : list note) : world :=
  mk_world (w_objs w) (w_conns w) (w_waiting w) (w_params w) (set (w_sent w) ctx (w_sent w ctx ++ ms)).

(** concrete_base.rs 443-456, [connect] *)
Definition link_up (w : world) (ctx src out dst : nat) (port : option nat) : world :=
  say (mk_world (w_objs w) (set (w_conns w) ctx (record (src, out, dst, port) (w_conns w ctx)))
         (w_waiting w) (w_params w) (w_sent w))
      ctx [NConnect src out dst port].

(** concrete_base.rs 484-499: the message for a removed connection; it carries
    the [from] of the call *)
Definition undo (src : nat) (c : conn) : note := let '(_, o, d, p) := c in NDisconnect src o d p.

(** concrete_base.rs 474-508, [disconnect]: panics when a destination is named
    and nothing was removed *)
Definition link_down (w : world) (ctx src : nat) (out dst inp : option nat) : outcome * world :=
  let port := match inp with Some i => Some (Some i) | None => None end in
  let sel := filter (selects src out dst port) (w_conns w ctx) in
  let rest := filter (fun c => negb (selects src out dst port c)) (w_conns w ctx) in
  let w' := say (mk_world (w_objs w) (set (w_conns w) ctx rest) (w_waiting w) (w_params w) (w_sent w))
                ctx (map (undo src) sel) in
  match sel, dst with
  | [], Some _ => (Rejected InvalidAccess, w')
  | _, _ => (Accepted, w')
  end.

(** concrete_base.rs 516-534, [ensure_audio_listener_present]: the messages are
    popped from the end of the Vec *)
Definition shape (id : nat) : note := if Nat.eqb id 1 then NRegister 1 0 9 else NRegister id 1 1.
Definition wake_listener (w : world) (ctx : nat) : world :=
  match w_waiting w ctx with
  | [] => w
  | ids =>
      let w1 := say (mk_world (w_objs w) (w_conns w) (set (w_waiting w) ctx []) (set (w_params w) ctx []) (w_sent w))
                    ctx (map shape (rev ids) ++ map (fun p => NConnect p 0 1 None) (w_params w ctx)) in
      link_up w1 ctx 1 0 0 None
  end.

Definition new_objs (w : world) (os : list object) : world :=
  mk_world (w_objs w ++ map (fun o => (o, true)) os) (w_conns w) (w_waiting w) (w_params w) (w_sent w).

(** concrete_base.rs 330-347, [mark_node_dropped] *)
Definition drop_id (w : world) (ctx id : nat) : world :=
  if magic id then w
  else say (mk_world (w_objs w) (set (w_conns w) ctx (filter (fun c => negb (mentions id c)) (w_conns w ctx)))
              (w_waiting w) (w_params w) (w_sent w)) ctx [NDrop id].

Definition held (w : world) (a : nat) : option object :=
  match nth_error (w_objs w) a with Some (o, true) => Some o | _ => None end.

Definition param_of (ctx id : nat) : object := mk_object ctx id id 1 1.

Fixpoint release (l : list (object * bool)) (a : nat) : list (object * bool) :=
  match l, a with
  | [], _ => []
  | (o, _) :: r, 0 => (o, false) :: r
  | x :: r, S a' => x :: release r a'
  end.

Definition call_step (c : call) (w : world) : outcome * world :=
  match c with
  | MakeNode ctx id ins outs params =>                 (* concrete_base.rs 229-272, base.rs 320-336 *)
      (Accepted,
       say (new_objs w (mk_object ctx id id ins outs :: map (param_of ctx) params)) ctx
           (map (fun p => NRegister p 1 1) params ++ [NRegister id ins outs]
            ++ map (fun p => NConnect p 0 id None) params))
  | MakeDelay ctx wr rd p =>                           (* delay.rs 316-363 *)
      (Accepted,
       link_up (say (new_objs w [mk_object ctx wr rd 1 1; param_of ctx p]) ctx
                    [NRegister p 1 1; NRegister rd 1 1; NConnect p 0 rd None; NRegister wr 1 1; NBreaker wr])
               ctx wr 0 rd (Some 0))
  | MakePanner ctx id params =>                        (* panner.rs 400-497 *)
      let w1 := say w ctx (map (fun p => NRegister p 1 1) params) in
      let w2 := wake_listener w1 ctx in
      let w3 := say w2 ctx (NRegister id 1 1 :: map (fun p => NConnect p 0 id None) params) in
      (Accepted, new_objs (link_up w3 ctx 1 0 id None) (mk_object ctx id id 1 1 :: map (param_of ctx) params))
  | Listener ctx => (Accepted, wake_listener w ctx)    (* concrete_base.rs 363-384 *)
  | Connect a out b inp =>                             (* audio_node.rs 260-291, delay.rs 131-160 *)
      match held w a, held w b with
      | Some x, Some y =>
          if negb (Nat.eqb (o_ctx x) (o_ctx y)) then (Rejected InvalidAccess, w)
          else if negb (Nat.ltb out (o_outs x)) then (Rejected IndexSize, w)
          else if negb (Nat.ltb inp (o_ins y)) then (Rejected IndexSize, w)
          else (Accepted, link_up w (o_ctx x) (o_out x) out (o_in y) (Some inp))
      | _, _ => (Impossible, w)
      end
  | Disconnect a =>                                    (* audio_node.rs 294-297, delay.rs 163-166 *)
      match held w a with
      | Some x => link_down w (o_ctx x) (o_out x) None None None
      | None => (Impossible, w)
      end
  | DisconnectDest a b =>                              (* audio_node.rs 306-318, delay.rs 175-187 *)
      match held w a, held w b with
      | Some x, Some y =>
          if negb (Nat.eqb (o_ctx x) (o_ctx y)) then (Rejected InvalidAccess, w)
          else link_down w (o_ctx x) (o_out x) None (Some (o_in y)) None
      | _, _ => (Impossible, w)
      end
  | DisconnectOutput a out =>                          (* audio_node.rs 326-335, delay.rs 195-204 *)
      match held w a with
      | Some x =>
          if negb (Nat.ltb out (o_outs x)) then (Rejected IndexSize, w)
          else link_down w (o_ctx x) (o_out x) (Some out) None None
      | None => (Impossible, w)
      end
  | DisconnectDestFromOutput a b out =>                (* audio_node.rs 345-363, delay.rs 214-232 *)
      match held w a, held w b with
      | Some x, Some y =>
          if negb (Nat.eqb (o_ctx x) (o_ctx y)) then (Rejected InvalidAccess, w)
          else if negb (Nat.ltb out (o_outs x)) then (Rejected IndexSize, w)
          else link_down w (o_ctx x) (o_out x) (Some out) (Some (o_in y)) None
      | _, _ => (Impossible, w)
      end
  | DisconnectDestFromOutputToInput a b out inp =>     (* audio_node.rs 374-402, delay.rs 244-273 *)
      match held w a, held w b with
      | Some x, Some y =>
          if negb (Nat.eqb (o_ctx x) (o_ctx y)) then (Rejected InvalidAccess, w)
          else if negb (Nat.ltb out (o_outs x)) then (Rejected IndexSize, w)
          else if negb (Nat.ltb inp (o_ins y)) then (Rejected IndexSize, w)
          else link_down w (o_ctx x) (o_out x) (Some out) (Some (o_in y)) (Some inp)
      | _, _ => (Impossible, w)
      end
  | Drop a =>                                          (* mod.rs 143-147; delay.rs 101-105: the reader's field first *)
      match held w a with
      | Some x =>
          let w1 := drop_id w (o_ctx x) (o_out x) in
          let w2 := if Nat.eqb (o_in x) (o_out x) then w1 else drop_id w1 (o_ctx x) (o_in x) in
          (Accepted,
           if magic (o_in x) then w2
           else mk_world (release (w_objs w2) a) (w_conns w2) (w_waiting w2) (w_params w2) (w_sent w2))
      | None => (Impossible, w)
      end
  end.

Fixpoint calls (cs : list call) (w : world) : list outcome * world :=
  match cs with
  | [] => ([], w)
  | c :: cs' => let '(r, w1) := call_step c w in let '(rs, w2) := calls cs' w1 in (r :: rs, w2)
  end.

(** concrete_base.rs 152-222: [n] new contexts.  Each has its destination and the
    nine parameters of its listener, which can be asked for at any time and are
    never dropped. *)
Definition fixtures (ctx : nat) : list object :=
  mk_object ctx 0 0 1 1 :: map (param_of ctx) (seq 2 9).
Definition world0 (n : nat) : world :=
  mk_world (map (fun o => (o, true)) (flat_map fixtures (seq 0 n))) (fun _ => [])
           (fun _ => seq 2 9 ++ [1]) (fun _ => seq 2 9) (fun _ => [NRegister 0 1 1]).
