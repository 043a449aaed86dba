(** The periodic wave: specification. *)
From Coq Require Import List Arith Reals.
Import ListNotations.
Local Open Scope R_scope.

(** the value at frame [i] of [size] of the Fourier series with the coefficients from 1 on *)
Fixpoint partials (reals imags : list R) (x : R) (j : nat) : R :=
  match reals, imags with
  | a :: reals', b :: imags' => a * cos (INR j * x) + b * sin (INR j * x) + partials reals' imags' x (S j)
  | _, _ => 0
  end.
Definition series (reals imags : list R) (x : R) : R := partials (tl reals) (tl imags) x 1.
(** the largest absolute value is 1 *)
Definition peak_one (l : list R) : Prop := (exists x, In x l /\ Rabs x = 1) /\ forall x, In x l -> Rabs x <= 1.
Definition all_zero (l : list R) : Prop := forall x, In x l -> x = 0.
(** the same shape *)
Definition scaled (c : R) (l l' : list R) : Prop := l' = map (fun x => c * x) l.

(** when the documentation says that the options are rejected, given the lengths of the two arrays *)
Definition rejected_lengths (real imag : option nat) : Prop :=
  (exists n, real = Some n /\ (n < 2)%nat) \/ (exists n, imag = Some n /\ (n < 2)%nat) \/ (exists n m, real = Some n /\ imag = Some m /\ n <> m).
Definition too_many (limit : nat) (real imag : option nat) : Prop := exists n, (real = Some n \/ imag = Some n) /\ (limit < n)%nat.
