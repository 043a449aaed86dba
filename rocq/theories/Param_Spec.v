(** Specification vocabulary for AudioParam. *)
From Coq Require Import List Arith Bool Sorted.
From Verif Require Import Param_Model.
Import ListNotations.

Section ParamSpec.
Context {T V : Type}.
Variable P : @param_ops T V.
Notation event := (@event T V).
Notation param := (@param T V).
Notation pop := (@pop T V).

(** ** Assumptions on the numbers *)

(** the comparisons order the times that satisfy [ok] (for f64: all but NaN) *)
Record time_order (ok : T -> Prop) : Prop := {
  to_total : forall x y, ok x -> ok y -> t_le P x y = true \/ t_le P y x = true;
  to_trans : forall x y z, ok x -> ok y -> ok z -> t_le P x y = true -> t_le P y z = true -> t_le P x z = true;
  to_lt : forall x y, ok x -> ok y -> t_lt P x y = negb (t_le P y x);
  to_finite : forall x, t_finite P x = true -> ok x;
  to_zero : t_finite P (t_zero P) = true;
  to_add : forall x y, t_finite P x = true -> t_finite P y = true -> t_lt P (t_zero P) y = true -> ok (t_add P x y)
}.

(** ** The timeline *)
Definition in_order (e1 e2 : event) : Prop := t_le P (ev_time e1) (ev_time e2) = true.
Definition time_sorted (l : list event) : Prop := StronglySorted in_order l.

(** [e] is put behind the events that are not later, and before the later ones *)
Definition placed (e : event) (old new : list event) : Prop :=
  exists l1 l2, old = l1 ++ l2 /\ new = l1 ++ e :: l2 /\
    Forall (fun x => t_le P (ev_time x) (ev_time e) = true) l1 /\
    Forall (fun x => t_lt P (ev_time e) (ev_time x) = true) l2.

(** What is left of a timeline: a suffix, possibly headed by a set-value event that stands for
    the event it replaces *)
Inductive consumed : list event -> list event -> Prop :=
| C_same : forall l, consumed l l
| C_drop : forall e l l', consumed l l' -> consumed (e :: l) l'
| C_swap : forall e v t l l', consumed (simple SetValueAtTime v t :: l) l' -> consumed (e :: l) l'.

(** ** Legal use *)
Definition needs_predecessor (e : event) : bool := is_ramp (ev_type e) || etype_eqb (ev_type e) SetTarget.

(** A ramp or target is not scheduled before everything else that is pending, unless
    an event has already been processed *)
Definition has_predecessor (p : param) (e : event) : Prop :=
  needs_predecessor e = true -> p_last p = None ->
  match p_timeline p with [] => True | h :: _ => t_le P (ev_time h) (ev_time e) = true end.

(** nothing is scheduled inside a value curve *)
Definition no_overlap (p : param) (e : event) : Prop := curve_checks P p e = Ok tt.

(** cancelAndHold calls come in the order of their times *)
Definition holds_in_order (p : param) (t : T) : Prop :=
  Forall (fun e => forall c, ev_cancel e = Some c -> t_le P c t = true) (p_timeline p).

Definition call_ok (p : param) (c : @call T V) : Prop :=
  forall e, call_event P c = Some e ->
    match ev_type e with
    | CancelScheduled => True
    | CancelAndHold => holds_in_order p (ev_time e)
    | _ => has_predecessor p e /\ no_overlap p e
    end.

(** every index a value curve computes is in range *)
Definition curve_in_range (ok : T -> Prop) : Prop :=
  forall start duration values time, t_finite P start = true -> t_finite P duration = true -> t_lt P (t_zero P) duration = true ->
    2 <= length values -> ok time -> exists v, value_curve_sample P start duration values time = Ok v.

(** the frames of a quantum: the end of the quantum is [count] frames after its start *)
Definition block_ok (ok : T -> Prop) (time dt : T) (count : nat) : Prop :=
  let next := t_fma P dt (t_of_nat P count) time in
  ok time /\ t_finite P next = true /\
  (forall a, end_index P (mk_block time dt count a next) next = count) /\
  (forall a t, ok t -> t_le P next t = true -> end_index P (mk_block time dt count a next) t = count) /\
  (forall k n, k < count -> ok (Nat.iter n (fun t => t_add P t dt) (t_fma P (t_of_nat P k) dt time))).

Definition op_ok (ok : T -> Prop) (RQ : nat) (p : param) (o : pop) : Prop :=
  match o with
  | Schedule c => call_ok p c
  | Rate _ => True
  | Quantum time dt input _ => block_ok ok time dt RQ /\ length input = RQ
  end.

(** every operation of a history is legal in the state it is applied to *)
Fixpoint legal (ok : T -> Prop) (RQ : nat) (p : param) (os : list pop) : Prop :=
  match os with
  | [] => True
  | o :: os' => op_ok ok RQ p o /\ match pstep P RQ p o with Ok (p', _) => legal ok RQ p' os' | _ => True end
  end.

(** ** Values *)
Record value_order : Prop := {
  vo_max : forall x lo, v_nan P x = false -> v_nan P lo = false ->
    v_nan P (v_max P x lo) = false /\ v_lt P (v_max P x lo) lo = false;
  vo_min : forall x hi, v_nan P x = false -> v_nan P hi = false ->
    v_nan P (v_min P x hi) = false /\ v_lt P hi (v_min P x hi) = false;
  vo_keep : forall x lo hi, v_nan P x = false -> v_nan P lo = false -> v_nan P hi = false ->
    v_lt P x lo = false -> v_lt P hi lo = false -> v_lt P (v_min P x hi) lo = false;
  vo_nan : forall x, v_finite P x = true -> v_nan P x = false
}.

Definition in_range (p : param) (v : V) : Prop := v_nan P v = false /\ v_lt P v (p_min p) = false /\ v_lt P (p_max p) v = false.
(** what [audio_param_pair] asserts (param.rs 1616-1626) *)
Definition descriptor_ok (p : param) : Prop :=
  v_finite P (p_default p) = true /\ v_finite P (p_min p) = true /\ v_finite P (p_max p) = true /\
  v_lt P (p_default p) (p_min p) = false /\ v_lt P (p_max p) (p_default p) = false /\
  v_lt P (p_max p) (p_min p) = false /\ (forall x, v_clamp P x (p_min p) (p_max p) <> None).
End ParamSpec.
