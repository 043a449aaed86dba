(** What a delay line is to output, on an unbounded history of its input. *)
From Coq Require Import List Arith Bool ZArith Reals.
From Flocq Require Import Core.
Import ListNotations.

(** The quanta written so far.  When the number of channels changes, the samples that have
    not been output yet are mixed to the new number. *)
Section History.
Context {V : Type}.
Variable remix : nat -> list (list V) -> list (list V).
Definition channels (hist : list (list (list V))) : nat := length (last hist [[]]).
Definition record (hist : list (list (list V))) (input : list (list V)) : list (list (list V)) :=
  (if channels hist =? length input then hist else map (remix (length input)) hist) ++ [input].
Definition recorded (inputs : list (list (list V))) : list (list (list V)) := fold_left record inputs [].

(** Sample of channel [c] at frame [t] counted from the first quantum; silence before and after *)
Definition signal (zero : V) (hist : list (list (list V))) (c : nat) (t : Z) : V :=
  if (t <? 0)%Z then zero else nth (Z.to_nat (t mod 128)) (nth c (nth (Z.to_nat (t / 128)) hist []) []) zero.
End History.

Local Open Scope R_scope.
(** linear interpolation at a position between frames *)
Definition lerp (x : Z -> R) (p : R) : R := let f := Zfloor p in (1 - (p - IZR f)) * x f + (p - IZR f) * x (f + 1)%Z.

(** sample [i] of a delay that is given for the quantum or per sample *)
Definition delay_at (delays : list R) (i : nat) : R := match delays with [d] => d | _ => nth i delays 0 end.
(** delay in frames; at least a quantum in a cycle *)
Definition frames (sr d : R) (in_cycle : bool) : R := if in_cycle then Rmax (d * sr) 128 else d * sr.

(** A ring of [n] quanta that is never overwritten again: after its end the signal of [n] quanta earlier repeats *)
Definition ghost {V} (zero : V) (n : nat) (hist : list (list (list V))) (c : nat) (t : Z) : V :=
  signal zero hist c (if (t / 128 <? Z.of_nat (length hist))%Z then t else t - 128 * Z.of_nat n)%Z.
