(** Specification of media stream tracks and of the media stream destination. *)
From Coq Require Import List Arith Bool Sorted.
From Verif Require Import Track_Model.
Import ListNotations.

Section Spec.
Context {X : Type}.
(** what the calls of consumer [i] returned, in the order of time *)
Definition told (i : nat) (log : list (nat * option X)) : list (option X) := map snd (filter (fun e => fst e =? i) log).
(** [xs] are items at increasing (or never decreasing) places of [items] *)
Definition in_order (items xs : list X) : Prop := exists places, StronglySorted le places /\ Forall2 (fun k x => nth_error items k = Some x) places xs.
Definition each_once (items xs : list X) : Prop := exists places, StronglySorted lt places /\ Forall2 (fun k x => nth_error items k = Some x) places xs.

(** a call is in progress *)
Definition busy (l : listener) : bool := match l_at l with Idle => false | _ => true end.
Definition calm (s : track X) : Prop := length (filter busy (t_listeners s)) <= 1.
(** at no time two calls are in progress *)
Fixpoint calm_acts (s : track X) (l : list action) : Prop :=
  calm s /\ match l with [] => True | a :: l' => match act s a with Some (s', _) => calm_acts s' l' | None => True end end.

(** a track with one consumer which nobody closes *)
Definition one_consumer (n : nat) : list action := NewIter :: repeat (Step 0) n.
End Spec.

(** the quanta rendered so far *)
Fixpoint rendered {X} (l : list (dest_action X)) : list X :=
  match l with [] => [] | Try x :: l' => x :: rendered l' | _ :: l' => rendered l' end.

(** the consumer takes a buffer between any two quanta *)
Fixpoint paced {X} (waiting : bool) (l : list (dest_action X)) : Prop :=
  match l with
  | [] => True
  | Try _ :: l' => waiting = false /\ paced false l'
  | Send :: l' => paced true l'
  | Recv :: l' => paced false l'
  | Free :: l' => paced waiting l'
  end.
