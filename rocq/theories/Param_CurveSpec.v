(** The automation curve of the Web Audio specification (section "AudioParam
    Automation", "setValueAtTime" and "linearRampToValueAtTime"), in exact arithmetic,
    independent of the code. *)
From Coq Require Import List Arith Bool ZArith QArith Qround.
From Verif Require Import Param_Model.
Import ListNotations.
Local Open Scope Q_scope.

Inductive kind := Jump | Linear.
Record sev := mk_sev { s_kind : kind; s_value : Q; s_time : Q }.

(** The value at time [t].  The list is sorted by time; [reached e] tells whether the
    instant of event [e] has come; (t0, v0) is the last event before the list. *)
Fixpoint curve (reached : sev -> bool) (t0 v0 : Q) (l : list sev) (t : Q) : Q :=
  match l with
  | [] => v0
  | e :: l' =>
      if reached e then curve reached (s_time e) (s_value e) l' t
      else match s_kind e with
           | Jump => v0
           | Linear => v0 + (s_value e - v0) * ((t - t0) / (s_time e - t0))
           end
  end.

(** the curve of the specification: an event at [T] is in effect from [T] on *)
Definition ideal_curve (dflt : Q) (l : list sev) (t : Q) : Q := curve (fun e => Qle_bool (s_time e) t) 0 dflt l t.

Section Frames.
Variable dt : Q.        (* length of a frame *)
Variable RQ : nat.      (* frames per render quantum *)

(** the frame nearest to a time *)
Definition nearest (t : Q) : Z := Qfloor (t / dt + (1 # 2)).
Definition frame_time (f : Z) : Q := inject_Z f * dt.
(** the sampled curve: an event is in effect from the nearest frame on *)
Definition frame_curve (dflt : Q) (l : list sev) (f : Z) : Q :=
  curve (fun e => Z.leb (nearest (s_time e)) f) 0 dflt l (frame_time f).

(** the time of quantum number [n] *)
Definition first_frame (n : nat) : Z := Z.of_nat (n * RQ).
Definition now (n : nat) : Q := frame_time (first_frame n).

(** inserting an event: behind the events with the same time *)
Fixpoint insert_stable (s : sev) (l : list sev) : list sev :=
  match l with
  | [] => [s]
  | x :: l' => if Qle_bool (s_time x) (s_time s) then x :: insert_stable s l' else s :: l
  end.
(** scheduling before quantum [n]; a ramp that is the very first event starts from the
    current value *)
Definition plan (dflt : Q) (n : nat) (l : list sev) (s : sev) : list sev :=
  insert_stable s (match l, s_kind s with [], Linear => [mk_sev Jump dflt (now n)] | _, _ => l end).

(** Scheduling calls and quanta.  [Play input silent]: a quantum with the modulation
    [input]. *)
Inductive sop := Plan (s : sev) | Play (input : list Q) (silent : bool).

Definition clamped (lo hi v : Q) : Q := if Qle_bool v lo then lo else if Qle_bool hi v then hi else v.

Fixpoint expected (dflt lo hi : Q) (n : nat) (l : list sev) (os : list sop) : list (list Q) :=
  match os with
  | [] => []
  | Plan s :: os' => expected dflt lo hi n (plan dflt n l s) os'
  | Play input _ :: os' =>
      map (fun j => clamped lo hi (frame_curve dflt l (first_frame n + Z.of_nat j) + nth j input 0)) (seq 0 RQ)
      :: expected dflt lo hi (S n) l os'
  end.

(** The schedule is built legally: no event in the past, no ramp before all other events, no event
    before the end of a ramp in progress. *)
Definition plan_ok (n : nat) (l : list sev) (s : sev) : Prop :=
  now n <= s_time s /\
  (s_kind s = Linear -> l <> [] -> exists e, In e l /\ s_time e <= s_time s) /\
  ((0 < n)%nat -> forall l1 r l2, l = l1 ++ r :: l2 -> s_kind r = Linear ->
     Forall (fun e => s_time e <= now n) l1 -> now n < s_time r -> s_time r <= s_time s).

Definition input_ok (input : list Q) (silent : bool) : Prop :=
  length input = RQ /\ (silent = true -> Forall (fun x => x == 0) input).

Fixpoint plans_ok (dflt : Q) (n : nat) (l : list sev) (os : list sop) : Prop :=
  match os with
  | [] => True
  | Plan s :: os' => plan_ok n l s /\ plans_ok dflt n (plan dflt n l s) os'
  | Play input silent :: os' => input_ok input silent /\ plans_ok dflt (S n) l os'
  end.

(** the same operations for the model *)
Fixpoint to_ops (n : nat) (os : list sop) : list (@pop Q Q) :=
  match os with
  | [] => []
  | Plan s :: os' =>
      Schedule (match s_kind s with Jump => C_set_value_at_time | Linear => C_linear_ramp end (s_value s) (s_time s)) :: to_ops n os'
  | Play input silent :: os' => Quantum (now n) dt input silent :: to_ops (S n) os'
  end.

(** What a node sees: a single value stands for the whole quantum. *)
Definition spread (out : list Q) : list Q := match out with [v] => repeat v RQ | _ => out end.
End Frames.
