(** What a buffer source is to output at unit rate. *)
From Coq Require Import List Arith Bool ZArith.
Import ListNotations.

(** Frame [n] of a channel that is played from frame [first] on *)
Definition play {V} (zero : V) (first : Z) (ch : list V) (n : Z) : V :=
  if ((first <=? n) && (n <? first + Z.of_nat (length ch)))%Z then nth (Z.to_nat (n - first)) ch zero else zero.

(** Sample [i] of channel [c] of a quantum's output; a missing channel is silent (the output has one
    channel while the source does not play) *)
Definition sample_at {V} (zero : V) (out : list (list V)) (c i : nat) : V := nth i (nth c out []) zero.

(** the source ends in the quantum starting at frame [f] *)
Definition ends_in (first : Z) (len : nat) (f : Z) : bool := ((f <? first + Z.of_nat len) && (first + Z.of_nat len <=? f + 128))%Z.
