(** Specification of the ConvolverNode: linear convolution of the input, mixed up to stereo. *)
From Coq Require Import List Arith Bool Reals.
From Verif Require Import Quantum_Model Conv_Model.
Import ListNotations.
Local Open Scope R_scope.

Definition sum (f : nat -> R) (n : nat) : R := fold_right Rplus 0 (map f (seq 0 n)).
(** frame [n] of the convolution of [x], which is 0 before its first frame, with the impulse response [ir] *)
Definition convolution (ir x : list R) (n : nat) : R :=
  sum (fun k => nth k ir 0 * (if (k <=? n)%nat then nth (n - k) x 0 else 0)) (length ir).

(** what the engine is assumed to do: blocks of [size] samples in, the convolution of all of them out *)
Section Engine.
Context {E : Type}.
Variable size : nat.
Variable fresh : list R -> E.
Variable run : E -> list R -> E * list R.
Definition feed (e : E) (bs : list (list R)) : E := fold_left (fun e b => fst (run e b)) bs e.
Definition convolves : Prop :=
  forall ir bs b, Forall (fun b => length b = size) (bs ++ [b]) ->
    snd (run (feed (fresh ir) bs) b) = map (fun n => convolution ir (concat (bs ++ [b])) (length (concat bs) + n)) (seq 0 size).
End Engine.

(** an engine that does *)
Definition direct_fresh (ir : list R) : list R * list R := (ir, []).
Definition direct_run (e : list R * list R) (b : list R) : (list R * list R) * list R :=
  ((fst e, snd e ++ b), map (fun n => convolution (fst e) (snd e ++ b) (length (snd e) + n)) (seq 0 (length b))).

(** channel [c] (0 left, 1 right) of a quantum mixed up to stereo *)
Definition side (c : nat) (q : list (chan R)) : list R := c_val (nth (if (length q <=? 1)%nat then 0 else c) q (mk_chan 0 [])).
(** all of it *)
Definition heard (c : nat) (qs : list (list (chan R))) : list R := concat (map (side c) qs).

(** mono or stereo, with all samples present, and the channels marked silent are *)
Definition proper (size : nat) (q : list (chan R)) : Prop :=
  (length q = 1 \/ length q = 2)%nat /\ Forall (fun c => length (c_val c) = size /\ (c_name c = 0%nat -> Forall (fun x => x = 0) (c_val c))) q.

(** frame [n] of channel [c] of the output for the stereo input [l], [r]: a mono response is applied to both sides,
    a stereo response has one channel for each; of four channels, the first two go from the left to left and right,
    the last two from the right to left and right *)
Definition expected (irs : list (list R)) (l r : list R) (c n : nat) : R :=
  match irs, c with
  | [a], O => convolution a l n
  | [a], _ => convolution a r n
  | [a; b], O => convolution a l n
  | [a; b], _ => convolution b r n
  | [ll; lr; rl; rr], O => convolution ll l n + convolution rl r n
  | [ll; lr; rl; rr], _ => convolution lr l n + convolution rr r n
  | _, _ => 0
  end.

(** the gain of the equal power normalization *)
Definition rms (chs : list (list R)) (len : nat) : R := sqrt (fold_right Rplus 0 (map (fun x => x * x) (concat chs)) / INR (length chs * len)).
