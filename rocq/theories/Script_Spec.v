(** The script processor: specification. *)
From Coq Require Import List Arith Bool ZArith.
From Verif Require Import Arith_Model Script_Model.
Import ListNotations.

Section Spec.
Context {V : Type}.
Variable zero : V.
Variable size : nat.    (* of a quantum *)
Variable N : nat.       (* quanta in a block *)

(** the [b]-th part of [N] elements *)
Definition part {X} (b : nat) (l : list X) : list X := firstn N (skipn (b * N) l).
(** the quanta of a block in one piece, with as many channels as the widest of them; missing channels are silent *)
Definition joined (quanta : list (list (list V))) : list (list V) :=
  map (fun c => flat_map (fun q => nth c q (repeat zero size)) quanta) (seq 0 (fold_right max 0 (map (@length (list V)) quanta))).
(** quantum [j] of a buffer *)
Definition cut (j : nat) (buffer : list (list V)) : list (list V) := map (fun c => firstn size (skipn (j * size) c)) buffer.
(** what is played in quantum [k]: quantum [k mod N] of the last answer that arrived during the block before; silence if there was none *)
Definition heard (outputs : nat) (answers : list (list (list (list V)))) (k : nat) : list (list V) :=
  if k / N <? 2 then [repeat zero size]
  else match rev (concat (part (k / N - 1) answers)) with
       | [] => repeat (repeat zero size) outputs
       | a :: _ => cut (k mod N) a
       end.
(** what the callback gets: the last [N] quanta of input, after each block *)
Definition handed (inputs : list (list (list V))) (k : nat) : option (list (list V)) :=
  if k mod N =? N - 1 then Some (joined (part (k / N) inputs)) else None.
(** a buffer of [outputs] channels and [N] quanta *)
Definition fits (outputs : nat) (buffer : list (list V)) : Prop := length buffer = outputs /\ Forall (fun c => length c = N * size) buffer.
(** a quantum of 1 to 32 channels *)
Definition proper (q : list (list V)) : Prop := 1 <= length q <= 32 /\ Forall (fun c => length c = size) q.
End Spec.
