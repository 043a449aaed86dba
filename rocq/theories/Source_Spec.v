(** What a constant source is to output. *)
From Coq Require Import List Arith Bool ZArith Reals.
From Verif Require Import Source_Model.
Import ListNotations.

(** the value of the parameter at sample [i] of a quantum *)
Definition value_at {V} (zero : V) (offset : list V) (i : nat) : V :=
  match offset with [v] => v | _ => nth i offset zero end.

Section Expected.
Context {T V : Type}.
(** [audible start stop n]: is frame number [n] of the context between start and stop *)
Variable audible : option T -> option T -> Z -> bool.
Variable zero : V.

(** The quanta a source outputs: [start] and [stop] are the times of the latest calls, [frame] is the
    number of frames before the quantum. *)
Fixpoint expected (start stop : option T) (frame : Z) (l : list (@cs_action T V)) : list (list V) :=
  match l with
  | [] => []
  | Start v :: l' => expected (Some v) stop frame l'
  | Stop v :: l' => expected start (Some v) frame l'
  | Quantum offset :: l' =>
      map (fun i => if audible start stop (frame + Z.of_nat i) then value_at zero offset i else zero) (seq 0 128)
      :: expected start stop (frame + 128) l'
  end.
End Expected.

Local Open Scope R_scope.
(** frame [n] at sample rate [sr] has time [n/sr]; a source sounds from start to stop, the latter excluded *)
Definition in_time (sr : R) (start stop : option R) (n : Z) : bool :=
  match start with
  | None => false
  | Some s => if Rle_dec s (IZR n / sr) then match stop with None => true | Some e => if Rlt_dec (IZR n / sr) e then true else false end else false
  end.

(** parameters have 1 or 128 values per quantum *)
Definition values_ok {V} (offset : list V) : Prop := length offset = 1%nat \/ length offset = 128%nat.
Definition action_ok {T V} (ok : T -> Prop) (a : @cs_action T V) : Prop :=
  match a with Start v => ok v | Stop v => ok v | Quantum offset => values_ok offset end.
Definition quanta {T V} (l : list (@cs_action T V)) : nat := length (filter (fun a => match a with Quantum _ => true | _ => false end) l).
