(** Signals of quanta. *)
From Coq Require Import List Arith Bool ZArith.
From Verif Require Import Arith_Model Quantum_Model.
Import ListNotations.

(** sample [t] of channel [c]; zero if there is no such channel *)
Definition sample {V} (zero : V) (q : list (chan V)) (c t : nat) : V := nth t (c_val (nth c q (mk_chan 0 []))) zero.
(** the buffer of silence holds silence (C10, C11) *)
Definition silent_zero {V} (O : sops V) (size : nat) (q : list (chan V)) : Prop := Forall (fun c => c_name c = 0 -> c_val c = repeat (s_zero O) size) q.
(** the operations of quantum.rs in an arithmetic *)
Definition sops_of {T V} (A : arith T V) : sops V := mk_sops V (v_zero A) (v_add A) (v_mul A) (v_fma A) (v_frac A 1 2) (v_frac A 1 4) (v_sqrt A (v_frac A 1 2)).
