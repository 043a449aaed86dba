(** What the calls of a scheduled source mean, from the history of calls alone. *)
From Coq Require Import List Bool ZArith.
From Verif Require Import Source_Model Sched_Model.
Import ListNotations.

Section Spec.
Context {TB TE call quantum : Type}.
(** the times of a call of start, or stop, whose arguments are valid *)
Variable begins : call -> option TB.
Variable ends : call -> option TE.
(** whether another call (or one with arguments that are not valid) returns *)
Variable other : list (event call quantum) -> call -> bool.

(** the first valid call of start *)
Fixpoint started (l : list (event call quantum)) : option TB :=
  match l with
  | [] => None
  | Call c :: l' => match begins c with Some t => Some t | None => started l' end
  | Render _ :: l' => started l'
  end.
(** the latest valid call of stop *)
Fixpoint latest_stop (l : list (event call quantum)) : option TE :=
  match l with
  | [] => None
  | Call c :: l' => match latest_stop l' with Some t => Some t | None => ends c end
  | Render _ :: l' => latest_stop l'
  end.
(** ... after the source has been started *)
Fixpoint stopped (l : list (event call quantum)) : option TE :=
  match l with
  | [] => None
  | Call c :: l' => match begins c with Some _ => latest_stop l' | None => stopped l' end
  | Render _ :: l' => stopped l'
  end.

(** the calls that return: the first valid call of start, and the valid calls of stop after it *)
Definition accepted (l : list (event call quantum)) (c : call) : bool :=
  match begins c, ends c with
  | Some _, _ => match started l with None => true | Some _ => false end
  | None, Some _ => match started l with None => false | Some _ => true end
  | None, None => other l c
  end.
Definition calls (l : list (event call quantum)) : nat := length (filter (fun e => match e with Call _ => true | _ => false end) l).
Definition renders (l : list (event call quantum)) : nat := length (filter (fun e => match e with Render _ => true | _ => false end) l).
End Spec.

(** a time is valid when it is finite and not negative; start and stop mean the present time *)
Definition begin_time {T} (valid : T -> bool) (c : @cs_call T) : option T :=
  match c with S_start t | S_start_at t => if valid t then Some t else None | _ => None end.
Definition end_time {T} (valid : T -> bool) (c : @cs_call T) : option T :=
  match c with S_stop t | S_stop_at t => if valid t then Some t else None | _ => None end.

(** the same for the other nodes *)
Definition osc_begin {T V} (valid : T -> bool) (c : @osc_call T V) : option T := match c with O_sched c => begin_time valid c | _ => None end.
Definition osc_end {T V} (valid : T -> bool) (c : @osc_call T V) : option T := match c with O_sched c => end_time valid c | _ => None end.
(** a buffer source can be started with an offset and a duration too: the time, offset and duration *)
Definition absn_begin {T V} (zero max : T) (valid : T -> bool) (c : @absn_call T V) : option (T * T * T) :=
  match c with
  | B_sched c => match begin_time valid c with Some t => Some (t, zero, max) | None => None end
  | B_start_offset t o => if valid t && valid o then Some (t, o, max) else None
  | B_start_duration t o d => if valid t && valid o && valid d then Some (t, o, d) else None
  | _ => None
  end.
Definition absn_end {T V} (valid : T -> bool) (c : @absn_call T V) : option T := match c with B_sched c => end_time valid c | _ => None end.

(** the other calls: only the type custom cannot be set; the buffer can be set once *)
Definition cs_other {T V} (l : list (event (@cs_call T) (list V))) (c : @cs_call T) : bool := false.
Definition osc_other {T V quantum} (l : list (event (@osc_call T V) quantum)) (c : @osc_call T V) : bool :=
  match c with O_sched _ => false | O_set_type Custom => false | O_set_type _ => true | O_set_wave _ => true end.
Fixpoint given_buffer {T V quantum} (b : option (@Absn_Model.buffer V)) (l : list (event (@absn_call T V) quantum)) : option (@Absn_Model.buffer V) :=
  match l with
  | [] => b
  | Call (B_set_buffer b') :: l' => given_buffer (match b with None => Some b' | Some _ => b end) l'
  | _ :: l' => given_buffer b l'
  end.
Definition absn_other {T V quantum} (b : option (@Absn_Model.buffer V)) (l : list (event (@absn_call T V) quantum)) (c : @absn_call T V) : bool :=
  match c with
  | B_sched _ | B_start_offset _ _ | B_start_duration _ _ _ => false
  | B_set_buffer _ => match given_buffer b l with None => true | Some _ => false end
  | B_set_loop _ | B_set_loop_start _ | B_set_loop_end _ => true
  end.
(** the latest values of the loop attributes *)
Fixpoint latest_loop {T V quantum} (x : bool * T * T) (l : list (event (@absn_call T V) quantum)) : bool * T * T :=
  match l with
  | [] => x
  | Call (B_set_loop b) :: l' => latest_loop (b, snd (fst x), snd x) l'
  | Call (B_set_loop_start t) :: l' => latest_loop (fst (fst x), t, snd x) l'
  | Call (B_set_loop_end t) :: l' => latest_loop (fst x, t) l'
  | _ :: l' => latest_loop x l'
  end.

(** the waveform the user has chosen: a periodic wave once there is one, otherwise the latest type *)
Section Choice.
Context {T V quantum : Type}.
Fixpoint chosen_wave (w : option (list V)) (l : list (event (@osc_call T V) quantum)) : option (list V) :=
  match l with
  | [] => w
  | Call (O_set_wave w') :: l' => chosen_wave (Some w') l'
  | _ :: l' => chosen_wave w l'
  end.
Fixpoint chosen_type (ty : wave_type) (l : list (event (@osc_call T V) quantum)) : wave_type :=
  match l with
  | [] => ty
  | Call (O_set_wave _) :: l' => Custom
  | Call (O_set_type ty') :: l' => chosen_type (match ty, ty' with Custom, _ | _, Custom => ty | _, _ => ty' end) l'
  | _ :: l' => chosen_type ty l'
  end.
End Choice.

(** the loop points in effect: within the buffer; an end that is not in the buffer is the end of the buffer *)
Definition loop_points {T V} (A : Arith_Model.arith T V) (b : option (@Absn_Model.buffer V)) (x : bool * T * T) : bool * T * T :=
  match b with
  | None => x
  | Some b =>
      let zero := Arith_Model.t_zero A in let d := Absn_Model.b_duration A b in let '(looping, s, e) := x in
      (looping, if Arith_Model.t_lt A s zero then zero else if Arith_Model.t_lt A d s then d else s,
                if Arith_Model.t_le A e zero || Arith_Model.t_lt A d e then d else e)
  end.
