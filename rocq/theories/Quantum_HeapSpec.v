(** What a user of channel buffers expects: each channel is a private array.

    Besides its samples, a channel carries the name of the value it holds:
    copying a channel copies the name, writing gives a new name, and silence
    has the name 0.  Names only serve to say which channels are recognised as
    equal without looking at the samples. *)
From Coq Require Import List Arith.
From Verif Require Import Quantum_HeapModel.
Import ListNotations.

Section Spec.
Context {V : Type} (zero : V) (size : nat).

(** [None] is a channel whose life has ended *)
Record vals := mk_vals { v_next : nat; v_chan : list (option (nat * list V)) }.

Definition vals_init : vals := mk_vals 1 [].

Definition vget (s : vals) (i : nat) : option (nat * list V) :=
  match nth_error (v_chan s) i with Some (Some c) => Some c | _ => None end.

Definition silent_value : nat * list V := (0, repeat zero size).

(** every operation changes only the channel it names *)
Definition vstep (s : vals) (o : hop V) : option vals :=
  match o with
  | HSilence => Some (mk_vals (v_next s) (v_chan s ++ [Some silent_value]))
  | HClone i => match vget s i with
                | Some c => Some (mk_vals (v_next s) (v_chan s ++ [Some c]))
                | None => None end
  | HWrite i f => match vget s i with
                  | Some (_, v) => Some (mk_vals (S (v_next s)) (set_nth i (Some (v_next s, f v)) (v_chan s)))
                  | None => None end
  | HAssign i j => match vget s i, vget s j with
                   | Some _, Some c => Some (mk_vals (v_next s) (set_nth i (Some c) (v_chan s)))
                   | _, _ => None end
  | HAssignSilence i => match vget s i with
                        | Some _ => Some (mk_vals (v_next s) (set_nth i (Some silent_value) (v_chan s)))
                        | None => None end
  | HDrop i => match vget s i with
               | Some _ => Some (mk_vals (v_next s) (set_nth i None (v_chan s)))
               | None => None end
  end.

Fixpoint vrun (s : vals) (os : list (hop V)) : option vals :=
  match os with
  | [] => Some s
  | o :: os' => match vstep s o with Some s' => vrun s' os' | None => None end
  end.

End Spec.
