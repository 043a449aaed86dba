(** The synchronous interface of an OfflineAudioContext: specification. *)
From Coq Require Import List Arith Bool.
From Verif Require Import Thread_Model Offline_Model Offline_Spec OfflineSync_Model.
Import ListNotations.

(** the quanta for which the program schedules suspensions; the changes it makes to the graph before the start *)
Definition quanta {M} (cs : list (@call M)) : list nat := flat_map (fun c => match c with Suspend_sync q _ => [q] | Change _ => [] end) cs.
Definition initial {M} (cs : list (@call M)) : list M := flat_map (fun c => match c with Suspend_sync _ _ => [] | Change ms => ms end) cs.

(** What the event handlers do after quantum [k], if they would do [ms k] when called: they are called after the first quantum (the start of the rendering),
    after a suspension, and when a node has emitted an event. *)
Definition answers {M} (susp : list nat) (evs : nat -> list nat) (ms : nat -> list M) (k : nat) : list M :=
  if Nat.eqb k 0 || existsb (Nat.eqb k) susp || match evs k with [] => false | _ => true end then ms k else [].
