(** The automation curve at any moment, and what a k-rate parameter should play: one value per render quantum, the
    one at the beginning of the quantum.  Independent of the code. *)
From Coq Require Import List Arith Bool ZArith Reals.
From Verif Require Import Param_EnvelopeSpec.
Import ListNotations.
Local Open Scope R_scope.

Section Krate.
Variable dt : R.        (* length of a frame *)
Variable RQ : nat.      (* frames per render quantum *)

(** the value at [t] before the end of the event [s] *)
Definition within (ph : phase) (s : sev) (t : R) : R :=
  let T := s_time s in
  let '(t0, v0) := start ph in
  match s_shape s with
  | Jump _ | Target _ _ => value dt RQ ph t
  | Linear v => v0 + (v - v0) * ((t - t0) / (T - t0))
  | Expo v => if Req_EM_T v0 0 then v0 else if Rlt_dec (v0 * v) 0 then v0 else v0 * Rpower (v / v0) ((t - t0) / (T - t0))
  | Curve vs d => if Rle_dec T t then curve_at T d vs t else value dt RQ ph t
  end.

(** the value at time [t]: an event is in effect from its time on *)
Fixpoint level (ph : phase) (l : list sev) (t : R) : R :=
  match l with
  | [] => value dt RQ ph t
  | s :: l' => if Rle_dec (s_end s) t then level (pass dt RQ ph s) l' t else within ph s t
  end.

(** one value per quantum, plus the first sample of the input *)
Fixpoint kexpected (dflt lo hi : R) (n : nat) (l : list sev) (os : list sop) : list (list R) :=
  match os with
  | [] => []
  | Plan s :: os' => kexpected dflt lo hi n (plan dt RQ dflt n l s) os'
  | Set_value v :: os' => kexpected dflt lo hi n (setter dt RQ n l v) os'
  | Play input _ :: os' =>
      [clamped lo hi (level (Hold 0 dflt) l (now dt RQ n) + nth 0 input 0)] :: kexpected dflt lo hi (S n) l os'
  end.

(** Besides the legal use of [plans_ok]: no event but a target has its time exactly at the beginning of a quantum, and a
    ramp is scheduled before it starts. *)
Definition phase_from (ph : phase) : R := match ph with Hold t _ => t | Decay t _ _ _ => t end.
Definition kplan_ok (dflt : R) (n : nat) (l : list sev) (s : sev) : Prop :=
  match s_shape s with
  | Target _ _ => True
  | Jump _ | Curve _ _ => forall k, s_time s <> now dt RQ k
  | Linear _ | Expo _ => (forall k, s_time s <> now dt RQ k) /\ (l = [] \/ now dt RQ n <= phase_from (after dt RQ (Hold 0 dflt) l))
  end.
Fixpoint kplans_ok (dflt : R) (n : nat) (l : list sev) (os : list sop) : Prop :=
  match os with
  | [] => True
  | Plan s :: os' => kplan_ok dflt n l s /\ kplans_ok dflt n (plan dt RQ dflt n l s) os'
  | Set_value v :: os' => kplans_ok dflt n (setter dt RQ n l v) os'
  | Play _ _ :: os' => kplans_ok dflt (S n) l os'
  end.
End Krate.
