(** Model of the PeriodicWave.

    Source: /repo/src/periodic_wave.rs 9-34, 76, 104-209. *)
From Coq Require Import List Arith Bool ZArith.
From Verif Require Export Common_Model.
From Verif Require Import Arith_Model.
Import ListNotations.

Section Wave.
Context {T V : Type}.
Variable A : arith T V.

(** 9-34 *)
Record wave_options := mk_options { w_real : option (list V); w_imag : option (list V); w_disable : bool }.
(** 76 *)
Definition TABLE_LENGTH : nat := Z.to_nat 8192.

(** 191-209 *)
Definition peak_of (l : list V) : V := fold_left (fun m x => if v_lt A m (v_abs A x) then v_abs A x else m) l (v_zero A).
Definition normalize (l : list V) : list V :=
  let m := peak_of l in
  if v_lt A (v_zero A) m then map (fun x => v_mul A x (v_div A (v_one A) m)) l else l.

(** 168-182: one sample *)
Definition phase (size i : nat) : V := v_div A (v_mul A (v_mul A (v_of_Z A 2) (v_PI A)) (v_of_Z A (Z.of_nat i))) (v_of_Z A (Z.of_nat size)).
Definition wave_sample (reals imags : list V) (size i : nat) : res V :=
  fold_res (fun sample j =>
    do real <- index reals j;
    do imag <- index imags j;
    let rad := v_mul A (phase size i) (v_of_Z A (Z.of_nat j)) in
    Ok (v_add A sample (v_add A (v_mul A real (v_cos A rad)) (v_mul A imag (v_sin A rad))))) (v_zero A) (seq 1 (length reals - 1)).
(** 164-189 *)
Definition generate_wavetable (reals imags : list V) (norm : bool) (size : nat) : res (list V) :=
  do table <- map_res (wave_sample reals imags size) (seq 0 size);
  Ok (if norm then normalize table else table).
(** 111-147 *)
Definition coefficients (o : wave_options) : res (list V * list V) :=
  match w_real o, w_imag o with
  | Some r, Some i => do _ <- check (length r =? length i); do _ <- check (2 <=? length r); Ok (r, i)
  | Some r, None => do _ <- check (2 <=? length r); Ok (r, repeat (v_zero A) (length r))
  | None, Some i => do _ <- check (2 <=? length i); Ok (repeat (v_zero A) (length i), i)
  | None, None => Ok ([v_zero A; v_zero A], [v_zero A; v_one A])
  end.
(** 104-157; [size] is [TABLE_LENGTH] *)
Definition wave_new (size : nat) (o : wave_options) : res (list V) :=
  do c <- coefficients o;
  generate_wavetable (fst c) (snd c) (negb (w_disable o)) size.
End Wave.
Arguments mk_options {V}. Arguments w_real {V}. Arguments w_imag {V}. Arguments w_disable {V}. Arguments wave_options : clear implicits.
