(** What a mixing desk plays. *)
From Coq Require Import List Arith Bool.
Import ListNotations.

(** The speakers a mono signal goes to, of [n] (Web Audio specification, up-mixing of speaker layouts): both front speakers in stereo and
    quad, the centre in 5.1, the first channel otherwise *)
Definition speaker (n k : nat) : bool :=
  match n with
  | 2 | 4 => k <? 2
  | 6 => k =? 2
  | _ => k =? 0
  end.

Section Sum.
Context {V : Type}.
Variable plus : V -> V -> V.
(** Signals of a quantum; [None] is silence, which is not added. *)
Definition sum2 (x y : option (list V)) : option (list V) :=
  match x, y with
  | None, _ => y
  | _, None => x
  | Some a, Some b => Some (map (fun p => plus (fst p) (snd p)) (combine a b))
  end.
Definition sum (xs : list (option (list V))) : option (list V) := fold_left sum2 xs None.
End Sum.
