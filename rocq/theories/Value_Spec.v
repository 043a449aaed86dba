(** What a control thread reads from an AudioParam. *)
From Coq Require Import List Arith Bool.
From Verif Require Import Param_Model Value_Model.
Import ListNotations.

Section Spec.
Context {T V : Type}.

(** The automation rate: that of the last accepted call; a constrained parameter keeps its rate *)
Fixpoint rate_after (fixed cur : bool) (l : list (action T V)) : bool :=
  match l with
  | [] => cur
  | Set_rate a :: l' => rate_after fixed (if fixed then cur else a) l'
  | _ :: l' => rate_after fixed cur l'
  end.

(** A single control thread that assigns finite values, [value = x] again and again; no quantum is rendered between an assignment and the
    arrival of its message.  [n] messages are on their way. *)
Fixpoint orderly (finite : V -> bool) (RQ n : nat) (l : list (action T V)) : Prop :=
  match l with
  | [] => True
  | Assign v :: Post (C_set_value w) :: l' => v = w /\ finite v = true /\ orderly finite RQ (S n) l'
  | Read_value :: l' => orderly finite RQ n l'
  | Receive :: l' => orderly finite RQ (n - 1) l'
  | Play _ _ input _ :: l' => n = 0 /\ length input = RQ /\ orderly finite RQ 0 l'
  | _ => False
  end.
(** the last assigned value, limited to the range of the parameter *)
Fixpoint last_assigned (limited : V -> V) (cur : V) (l : list (action T V)) : list V :=
  match l with
  | [] => []
  | Assign v :: l' => last_assigned limited (limited v) l'
  | Read_value :: l' => cur :: last_assigned limited cur l'
  | _ :: l' => last_assigned limited cur l'
  end.
(** the values read in a history *)
Definition values_read (l : list (seen V)) : list V := flat_map (fun s => match s with Value v => [v] | _ => [] end) l.
End Spec.
