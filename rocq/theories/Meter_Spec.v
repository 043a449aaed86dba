(** Collection of render capacity: specification. *)
From Coq Require Import List Arith Bool.
From Verif Require Import Meter_Model.
Import ListNotations.

(** [start] or [stop] is called *)
Definition is_call (a : action) : Prop := match a with Call_start _ | Call_stop _ => True | _ => False end.
(** calls are made one after the other: none begins while another one has not returned; handles are kept *)
Fixpoint one_at_a_time (capacity : nat) (s : state) (l : list action) : Prop :=
  match l with
  | [] => True
  | a :: l' => (is_call a -> forall c, clients s c = Idle) /\ a <> Drop_handles /\ forall s', act capacity s a = Some s' -> one_at_a_time capacity s' l'
  end.
(** the thread of a collection runs *)
Definition running (s : state) (i : nat) : Prop :=
  exists w, nth_error (workers s) i = Some w /\ (w_phase w = Waiting \/ w_phase w = Awake \/ w_phase w = Posting).
Definition how_often (i : nat) (l : list nat) : nat := count_occ Nat.eq_dec l i.
