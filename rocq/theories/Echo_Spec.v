(** What an echo is. *)
From Coq Require Import List Arith ZArith Reals.
Import ListNotations.
Local Open Scope R_scope.

(** sample [t] of a signal given in quanta; silent before and after *)
Definition sample_of (quanta : list (list R)) (t : Z) : R :=
  if (t <? 0)%Z then 0 else nth (Z.to_nat (t mod 128)) (nth (Z.to_nat (t / 128)) quanta []) 0.

(** The gain a GainNode applies: within 10^-6 of 0 it is mute, within 10^-6 of 1 it passes its input *)
Definition applied (g : R) : R := if Rle_dec (Rabs g) (1 / 1000000) then 0 else if Rle_dec (Rabs (1 - g)) (1 / 1000000) then 1 else g.

Definition total (l : list R) : R := fold_right Rplus 0 l.
(** The echoes of [x] heard at frame [t]: one every [d] frames, each [g] times the one before, the first one as loud as [x] *)
Definition echoes (g : R) (d : Z) (x : Z -> R) (t : Z) : R :=
  total (map (fun j => g ^ j * x (t - (Z.of_nat j + 1) * d)%Z) (seq 0 (Z.to_nat (t / d)))).
