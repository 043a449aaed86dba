(** Stability of an IIR filter. *)
From Coq Require Import List Arith Reals.
Import ListNotations.
Local Open Scope R_scope.

(** [a0 * e(t) + a1 * e(t-1) + ...], for times [t] that are late enough *)
Fixpoint dot (cs : list R) (e : nat -> R) (t : nat) : R :=
  match cs with [] => 0 | c :: cs' => c * e t + dot cs' e (t - 1) end.
(** The filter is stable: without input it falls silent, at an exponential rate, from whatever
    values it has emitted before. *)
Definition stable (feedback : list R) : Prop :=
  exists K r, 0 <= K /\ 0 < r < 1 /\ forall (e : nat -> R) n B, 0 <= B ->
    (forall t, (length feedback - 1 <= t < n)%nat -> dot feedback e t = 0) ->
    (forall t, (t < length feedback - 1)%nat -> Rabs (e t) <= B) ->
    forall t, (t < n)%nat -> Rabs (e t) <= K * B * r ^ t.
(** the sum of the absolute values *)
Definition weight (cs : list R) : R := fold_right (fun c s => Rabs c + s) 0 cs.
