(** Model of the DynamicsCompressorNode.

    Source: /repo/src/node/dynamics_compressor.rs 14-27, 253-254, 309-478. *)
From Coq Require Import List Arith Bool ZArith.
From Verif Require Export Common_Model Quantum_Model.
From Verif Require Import Arith_Model Route_Spec.
Import ListNotations.

Section Comp.
Context {T V : Type}.
Variable A : arith T V.
Variable size : nat.
Notation quantum := (list (chan V)).
Notation "x +! y" := (v_add A x y) (at level 50, left associativity).
Notation "x -! y" := (v_sub A x y) (at level 50, left associativity).
Notation "x *! y" := (v_mul A x y) (at level 40, left associativity).
Notation "x /! y" := (v_div A x y) (at level 40, left associativity).
Notation "# n" := (v_of_Z A n) (at level 5).

(** 14-16 *)
Definition db_to_lin (v : V) : V := v_pow A #10 (v /! #20).
(** 21-27 *)
Definition lin_to_db (v : V) : V := if v_eq A v #0 then #(-1000) else #20 *! v_log10 A v.

(** 253-254: the capacity of the ring buffer (Vec::with_capacity allocates this size exactly; simplification) *)
Definition comp_capacity (sample_rate : V) : nat :=
  Z.to_nat (v_to_Z A (v_ceil A (sample_rate *! v_frac A 6 1000 /! #(Z.of_nat size)))) + 1.

(** the values of the params, all of them k-rate *)
Record comp_params := mk_comp_params { m_threshold : V; m_knee : V; m_ratio : V; m_attack : V; m_release : V }.
(** 353-389: the constants of a quantum *)
Record curve := mk_curve { u_threshold : V; u_half_knee : V; u_ratio : V; u_knee_partial : V; u_attack_tau : V; u_release_tau : V; u_makeup : V }.
Definition comp_curve (sample_rate : V) (p : comp_params) : curve :=
  let knee := m_knee p in
  let threshold := if v_lt A #0 knee then m_threshold p +! knee /! #2 else m_threshold p in
  let ratio := m_ratio p in
  let tau x := v_exp A (#(-1) /! (x *! sample_rate)) in
  let full_range_gain := threshold +! v_neg A threshold /! ratio in
  let full_range_makeup := #1 /! db_to_lin full_range_gain in
  mk_curve threshold (knee /! #2) ratio ((#1 /! ratio -! #1) /! (#2 *! knee)) (tau (m_attack p)) (tau (m_release p)) (lin_to_db (v_pow A full_range_makeup (v_frac A 6 10))).
(** 417-423 *)
Definition attenuated (u : curve) (x : V) : V :=
  if v_le A x (u_threshold u -! u_half_knee u) then x
  else if v_le A x (u_threshold u +! u_half_knee u) then let d := x -! u_threshold u +! u_half_knee u in x +! (d *! d) *! u_knee_partial u
  else u_threshold u +! (x -! u_threshold u) /! u_ratio u.
(** 411, 425-437 *)
Definition detect (u : curve) (prev level : V) : V :=
  let x := lin_to_db level in
  let a := x -! attenuated u x in
  if v_lt A prev a then u_attack_tau u *! prev +! (#1 -! u_attack_tau u) *! a
  else u_release_tau u *! prev +! (#1 -! u_release_tau u) *! a.
(** 400-407: the level of frame [i] *)
Fixpoint level_of (channels : quantum) (i : nat) (max : V) : res V :=
  match channels with
  | [] => Ok max
  | c :: channels' => do x <- index (c_val c) i; let s := v_abs A x in level_of channels' i (if v_lt A max s then s else max)
  end.
(** 391-446: from frame [i] on: the detector's value, the gains and the last gain in dB *)
Fixpoint comp_frames (u : curve) (input : quantum) (n i : nat) (prev reduction : V) : res (V * list V * V) :=
  match n with
  | 0 => Ok (prev, [], reduction)
  | S n' =>
      do level <- level_of input i (v_neg A (v_MAX A));
      let det := detect u prev level in
      let reduction := v_neg A det +! u_makeup u in
      do (prev', gains, r) <- comp_frames u input n' (S i) det reduction;
      Ok (prev', db_to_lin reduction :: gains, r)
  end.

(** 309-319 *)
Record comp := mk_comp { p_ring : list quantum; p_index : nat; p_prev : V }.
Definition comp_new : comp := mk_comp [] 0 #0.
(** 470-475: the samples times the gains; new buffers, named from [s] on *)
Fixpoint apply_gains (gains : list V) (s : nat) (q : quantum) : quantum :=
  match q with
  | [] => []
  | c :: q' => mk_chan s (map (fun p => fst p *! snd p) (combine (c_val c) gains)) :: apply_gains gains (S s) q'
  end.
(** 338-477: the result is the state, the output, whether there is more to come, and the reduction *)
Definition comp_quantum (capacity : nat) (sample_rate : V) (p : comp_params) (st : comp) (s : nat) (input : quantum) : res (comp * quantum * bool * V) :=
  do silence <- from_option (make_silent (sops_of A) size input);
  let ring := if length (p_ring st) <? capacity then p_ring st ++ repeat silence (capacity - length (p_ring st)) else p_ring st in
  do (prev, gains, reduction) <- comp_frames (comp_curve sample_rate p) input size 0 (p_prev st) #0;
  do ring <- store ring (p_index st) input;
  do _ <- check (0 <? capacity);
  let read := (p_index st + 1) mod capacity in
  do delayed <- index ring read;
  if is_silent delayed then
    do o <- from_option (make_silent (sops_of A) size delayed);
    Ok (mk_comp ring read prev, o, false, reduction)
  else Ok (mk_comp ring read prev, apply_gains gains s delayed, true, reduction).

(** calls of [process], one after the other: params, a name for new buffers, the input *)
Fixpoint comp_run (capacity : nat) (sample_rate : V) (st : comp) (ls : list (comp_params * nat * quantum)) : res (comp * list (quantum * bool * V)) :=
  match ls with
  | [] => Ok (st, [])
  | (p, s, input) :: ls' =>
      do (st', o, more, reduction) <- comp_quantum capacity sample_rate p st s input;
      do (st'', os) <- comp_run capacity sample_rate st' ls';
      Ok (st'', (o, more, reduction) :: os)
  end.
End Comp.
Arguments mk_comp_params {V}. Arguments m_threshold {V}. Arguments m_knee {V}. Arguments m_ratio {V}. Arguments m_attack {V}. Arguments m_release {V}.
Arguments mk_curve {V}. Arguments u_threshold {V}. Arguments u_half_knee {V}. Arguments u_ratio {V}. Arguments u_knee_partial {V}. Arguments u_attack_tau {V}. Arguments u_release_tau {V}. Arguments u_makeup {V}.
Arguments mk_comp {V}. Arguments p_ring {V}. Arguments p_index {V}. Arguments p_prev {V}.
