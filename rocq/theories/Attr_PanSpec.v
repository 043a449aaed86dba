(** What a panner plays in one quantum, given its attributes. *)
From Coq Require Import List Arith Bool Reals.
From Verif Require Import Arith_Model Arith_Real Quantum_Model Route_Spec Sched_Model Pan_Model Pan_Spec Pan_NodeProofs Pan_HrtfProofs Attr_Model.
Import ListNotations.
Local Open Scope R_scope.

(** quanta of one or two channels of the right length *)
Definition pan_fine (size : nat) (e : event (panner_call (T := R)) (nat * list (chan R) * list (chan R) * positions (V := R))) : Prop :=
  match e with
  | Call _ => True
  | Render (_, input, output, l) => given l /\ sized size input /\ (length input <= 2)%nat /\ silent_zero (sops_of exact) size input /\ sized size output
  end.
(** equal power: the law of C36 for the position of the source, with the gains for distance and cone;
    impulse responses: those of C53, for some earlier sound [h], or silence when they are over *)
Definition pan_sound {H} (size : nat) (hp : H -> list R -> R -> vec (V := R) -> H * list (R * R)) (p : settings (T := R)) (m : panning_model) (q : nat * list (chan R) * list (chan R) * positions (V := R)) (o : list (chan R) * bool) : Prop :=
  let '(_, input, _, l) := q in let '(out, more) := o in
  match m with
  | EqualPower => more = false /\ length out = (if is_silent input then 1 else 2)%nat /\
      forall t, (t < size)%nat -> let u := if single_valued l then 0%nat else t in
        (sample 0 out 0 t, sample 0 out 1 t) = scaled (dist_at p l u * cone_at p l u) (panned (pan_of (azimuth_at l u)) (frame_of input t))
  | Hrtf =>
      if more then exists h, length out = 2%nat /\ forall t, (t < size)%nat ->
        (sample 0 out 0 t, sample 0 out 1 t) = scaled (INR (length input)) (nth t (snd (hp h (heard size input) (cone_at p l 0 * dist_at p l 0) (direction (azimuth_at l 0) (elevation_at l 0)))) (0, 0))
      else is_silent input = true /\ out = [silence_chan (sops_of exact) size]
  end.
