(** The two sides of an AudioParam: calls of the control threads, messages, and the render thread.

    The cell that holds the value is shared: [p_current] of Param_Model.v.  One [action] is one atomic step of a control thread or of the
    render thread; a history is any interleaving of the steps of any number of threads.  The order in which the stores and loads (Release,
    Acquire) of the one cell become visible is that of the history.

    Source: /repo/src/param.rs 290-298 (shared state), 339-363 (automation rate), 388-425 (value), 658-661 (send_event), 704-727
    (onmessage), 1506-1510 (the cell is written at each quantum), 1603-1654. *)
From Coq Require Import List Arith Bool.
From Verif Require Import Common_Model Param_Model.
Import ListNotations.

Section Value.
Context {T V : Type}.
Variable P : @param_ops T V.
Variable RQ : nat.

(** param.rs 704-727: what the processor understands *)
Inductive message := M_event (e : @event T V) | M_rate (arate : bool).

(** param.rs 290-298 and 670-680; [s_fixed]: automation_rate_constrained *)
Record shared := mk_shared { s_param : @param T V; s_rate : bool; s_fixed : bool; s_queue : list message }.

Inductive action :=
| Assign (v : V)                                            (* the first half of set_value *)
| Post (c : @call T V)                                      (* the message of a call; the second half of set_value *)
| Set_rate (arate : bool)
| Read_value
| Read_rate
| Receive                                                   (* the render thread takes a message *)
| Play (time dt : T) (input : list V) (silent : bool).      (* the render thread renders a quantum *)
Inductive seen := Value (v : V) | Rate_is (arate : bool) | Refused | Played (values : list V).

(** param.rs 1603-1654; 361-363 for [fixed] *)
Definition shared_new (arate fixed : bool) (dflt lo hi : V) : shared := mk_shared (new_param arate dflt lo hi) arate fixed [].

(** [Refused]: the call panics, in the thread of the caller.  The assertion of set_automation_rate takes the mutex before the assignment
    takes it again; as the rate of a constrained parameter does not change, one step is the same. *)
Definition vstep (a : action) (s : shared) : res (shared * list seen) :=
  let p := s_param s in
  match a with
  (* param.rs 407-413 *)
  | Assign v =>
      if v_finite P v then
        do c <- from_option (v_clamp P v (p_min p) (p_max p));
        Ok (mk_shared (set_current p c) (s_rate s) (s_fixed s) (s_queue s), [])
      else Ok (s, [Refused])
  (* param.rs 403-661 *)
  | Post c =>
      match call_event P c with
      | None => Ok (s, [Refused])
      | Some e => Ok (mk_shared p (s_rate s) (s_fixed s) (s_queue s ++ [M_event e]), [])
      end
  (* param.rs 348-359 *)
  | Set_rate arate =>
      if negb (s_fixed s) || Bool.eqb arate (s_rate s)
      then Ok (mk_shared p arate (s_fixed s) (s_queue s ++ [M_rate arate]), [])
      else Ok (s, [Refused])
  (* param.rs 388-390 *)
  | Read_value => Ok (s, [Value (p_current p)])
  (* param.rs 339-341 *)
  | Read_rate => Ok (s, [Rate_is (s_rate s)])
  (* param.rs 704-727 *)
  | Receive =>
      match s_queue s with
      | [] => Ok (s, [])
      | M_event e :: q => do p' <- handle_incoming_event P p e; Ok (mk_shared p' (s_rate s) (s_fixed s) q, [])
      | M_rate arate :: q => Ok (mk_shared (set_rate p arate) (s_rate s) (s_fixed s) q, [])
      end
  (* param.rs 686-702 *)
  | Play time dt input silent =>
      do r <- process P RQ p time dt input silent;
      Ok (mk_shared (fst r) (s_rate s) (s_fixed s) (s_queue s), [Played (snd r)])
  end.

Fixpoint vrun (l : list action) (s : shared) : res (shared * list seen) :=
  match l with
  | [] => Ok (s, [])
  | a :: l' => do r <- vstep a s; do r' <- vrun l' (fst r); Ok (fst r', snd r ++ snd r')
  end.
End Value.
Arguments message : clear implicits.
Arguments shared : clear implicits.
Arguments action : clear implicits.
Arguments seen : clear implicits.
