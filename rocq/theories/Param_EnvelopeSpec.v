(** The automation curve of the Web Audio specification with all five kinds of events
    (section "AudioParam Automation"), over the real numbers, independent of the code. *)
From Coq Require Import List Arith Bool ZArith Reals.
From Flocq Require Import Core.
From Verif Require Import Param_Model.
Import ListNotations.
Local Open Scope R_scope.

(** setValueAtTime and value setter, linear and exponential ramp (the time is the end of the ramp),
    setTargetAtTime with a time constant, setValueCurveAtTime with a duration *)
Inductive shape :=
| Jump (v : R) | Linear (v : R) | Expo (v : R) | Target (v tc : R) | Curve (vs : list R) (d : R).
Record sev := mk_sev { s_shape : shape; s_time : R }.
(** the end of an event (a target has no end of its own) *)
Definition s_end (s : sev) : R := match s_shape s with Curve _ d => s_time s + d | _ => s_time s end.
Definition is_slope (s : sev) : bool := match s_shape s with Linear _ | Expo _ => true | _ => false end.

(** ** What holds after an event: a constant value, or the approach of a target *)
Inductive phase := Hold (t v : R) | Decay (t0 v0 vt tc : R).

(** the exponential approach from [v0] at [t0] to [vt] *)
Definition approach (t0 v0 vt tc t : R) : R := vt + (v0 - vt) * exp (- ((t - t0) / tc)).

(** a point of a value curve, and the line between two neighbouring points *)
Definition curve_at (T d : R) (vs : list R) (t : R) : R :=
  if Rle_dec d (t - T) then last vs 0
  else
    let x := INR (length vs - 1) * (t - T) / d in
    let k := Z.to_nat (Zfloor x) in
    nth k vs 0 + (nth (k + 1) vs 0 - nth k vs 0) * (x - IZR (Zfloor x)).

Section Frames.
Variable dt : R.        (* length of a frame *)
Variable RQ : nat.      (* frames per render quantum *)

(** the time of a frame, the frame nearest to a time *)
Definition frame_time (f : Z) : R := IZR f * dt.
Definition nearest (t : R) : Z := Zfloor (t / dt + / 2).
(** the first frame and the time of quantum number [n] *)
Definition first_frame (n : nat) : Z := Z.of_nat (n * RQ).
Definition now (n : nat) : R := frame_time (first_frame n).
(** the start of the quantum a time belongs to *)
Definition quantum_start (t : R) : R := now (Z.to_nat (Zfloor (t / (INR RQ * dt)))).

(** An approach counts as finished at the first quantum boundary where it is within 10^-10 of its
    target (the specification lets an implementation choose this). *)
Definition settled (t0 v0 vt tc b : R) : Prop := t0 <= b /\ Rabs (vt - approach t0 v0 vt tc b) < 1 / 10000000000.
Definition settledb (t0 v0 vt tc b : R) : bool :=
  if Rle_dec t0 b then if Rlt_dec (Rabs (vt - approach t0 v0 vt tc b)) (1 / 10000000000) then true else false else false.

Definition value (ph : phase) (t : R) : R :=
  match ph with
  | Hold _ v => v
  | Decay t0 v0 vt tc =>
      if Rlt_dec t t0 then v0 else if settledb t0 v0 vt tc (quantum_start t) then vt else approach t0 v0 vt tc t
  end.
(** where a ramp that follows starts *)
Definition start (ph : phase) : R * R := match ph with Hold t v => (t, v) | Decay t0 v0 _ _ => (t0, v0) end.

(** the phase after an event *)
Definition pass (ph : phase) (s : sev) : phase :=
  let T := s_time s in
  match s_shape s with
  | Jump v | Linear v | Expo v => Hold T v
  | Target v tc => Decay T (value ph T) v tc
  | Curve vs d => Hold (T + d) (last vs 0)
  end.
Definition after (ph : phase) (l : list sev) : phase := fold_left pass l ph.

(** the value at frame [f] before the end of the event [s] *)
Definition during (ph : phase) (s : sev) (f : Z) : R :=
  let t := frame_time f in
  let T := s_time s in
  let '(t0, v0) := start ph in
  match s_shape s with
  | Jump _ | Target _ _ => value ph t
  | Linear v => v0 + (v - v0) * ((t - t0) / (T - t0))
  | Expo v => if Req_EM_T v0 0 then v0 else if Rlt_dec (v0 * v) 0 then v0 else v0 * Rpower (v / v0) ((t - t0) / (T - t0))
  | Curve vs d => if Z.leb (nearest T) f then (if Rlt_dec t T then value ph T else curve_at T d vs t) else value ph t
  end.

(** The value at frame [f]: an event is in effect from the frame nearest to its time on. *)
Fixpoint curve (ph : phase) (l : list sev) (f : Z) : R :=
  match l with
  | [] => value ph (frame_time f)
  | s :: l' => if Z.leb (nearest (s_end s)) f then curve (pass ph s) l' f else during ph s f
  end.

(** ** Histories: scheduling calls and quanta *)
Inductive sop := Plan (s : sev) | Set_value (v : R) | Play (input : list R) (silent : bool).

(** a ramp that is the very first event starts from the current value *)
Definition plan (dflt : R) (n : nat) (l : list sev) (s : sev) : list sev :=
  match l with [] => if is_slope s then [mk_sev (Jump dflt) (now n); s] else [s] | _ => l ++ [s] end.
Definition setter (n : nat) (l : list sev) (v : R) : list sev := l ++ [mk_sev (Jump v) (now n)].

Definition clamped (lo hi v : R) : R := Rmin (Rmax v lo) hi.

Fixpoint expected (dflt lo hi : R) (n : nat) (l : list sev) (os : list sop) : list (list R) :=
  match os with
  | [] => []
  | Plan s :: os' => expected dflt lo hi n (plan dflt n l s) os'
  | Set_value v :: os' => expected dflt lo hi n (setter n l v) os'
  | Play input _ :: os' =>
      map (fun j => clamped lo hi (curve (Hold 0 dflt) l (first_frame n + Z.of_nat j) + nth j input 0)) (seq 0 RQ)
      :: expected dflt lo hi (S n) l os'
  end.

(** ** Legal use *)

(** the arguments the calls accept *)
Definition arguments_ok (s : sev) : Prop :=
  match s_shape s with Jump _ | Linear _ => True | Expo v => v <> 0 | Target _ tc => 0 < tc | Curve vs d => (2 <= length vs)%nat /\ 0 < d end.

(** events are scheduled in the order of their times, not inside a value curve; no ramp follows a target; a
    target is not closer than 10^-10 to the value it starts from, unless it is that value *)
Definition follows (ph : phase) (s : sev) : Prop :=
  match ph with Hold t _ => t <= s_time s | Decay t _ _ _ => t <= s_time s /\ is_slope s = false end /\
  match s_shape s with
  | Target v _ => v = value ph (s_time s) \/ 1 / 10000000000 <= Rabs (v - value ph (s_time s))
  | _ => True
  end.

(** A target or a value curve is scheduled at most a quantum ahead, or starts where its predecessor ends, or during
    the approach of a previous target, or is a value curve and the first event. *)
Definition in_time (n : nat) (l : list sev) (ph : phase) (s : sev) : Prop :=
  match s_shape s with
  | Target _ _ | Curve _ _ =>
      s_time s <= now (S n) \/
      match ph with
      | Hold t _ => l <> [] /\ s_time s = t
      | Decay t0 v0 vt tc => ~ settled t0 v0 vt tc (quantum_start (s_time s))
      end \/
      (l = [] /\ match s_shape s with Curve _ _ => True | _ => False end)
  | _ => True
  end.

Definition plan_ok (dflt : R) (n : nat) (l : list sev) (s : sev) : Prop :=
  arguments_ok s /\ now n <= s_time s /\ follows (after (Hold 0 dflt) l) s /\ in_time n l (after (Hold 0 dflt) l) s.

(** the value setter: all earlier events are over *)
Definition setter_ok (dflt : R) (n : nat) (l : list sev) : Prop :=
  l = [] \/ match after (Hold 0 dflt) l with Hold t _ => t < now n | Decay _ _ _ _ => False end.

Definition input_ok (input : list R) (silent : bool) : Prop :=
  length input = RQ /\ (silent = true -> Forall (fun x => x = 0) input).

Fixpoint plans_ok (dflt : R) (n : nat) (l : list sev) (os : list sop) : Prop :=
  match os with
  | [] => True
  | Plan s :: os' => plan_ok dflt n l s /\ plans_ok dflt n (plan dflt n l s) os'
  | Set_value v :: os' => setter_ok dflt n l /\ plans_ok dflt n (setter n l v) os'
  | Play input silent :: os' => input_ok input silent /\ plans_ok dflt (S n) l os'
  end.

(** the same operations for the model *)
Definition call_of (s : sev) : @call R R :=
  match s_shape s with
  | Jump v => C_set_value_at_time v (s_time s)
  | Linear v => C_linear_ramp v (s_time s)
  | Expo v => C_exponential_ramp v (s_time s)
  | Target v tc => C_set_target v (s_time s) tc
  | Curve vs d => C_curve vs (s_time s) d
  end.
Fixpoint to_ops (n : nat) (os : list sop) : list (@pop R R) :=
  match os with
  | [] => []
  | Plan s :: os' => Schedule (call_of s) :: to_ops n os'
  | Set_value v :: os' => Schedule (C_set_value v) :: to_ops n os'
  | Play input silent :: os' => Quantum (now n) dt input silent :: to_ops (S n) os'
  end.

(** What a node sees: a single value stands for the whole quantum. *)
Definition spread (out : list R) : list R := match out with [v] => repeat v RQ | _ => out end.
End Frames.
