(** Rust results and slices, shared by the models. *)
From Coq Require Import List Arith Bool.
Import ListNotations.

(** [Panic] = the thread panics, [Stuck] = the fuel of a loop is used up *)
Inductive res (A : Type) := Ok (a : A) | Panic | Stuck.
Arguments Ok {A} a. Arguments Panic {A}. Arguments Stuck {A}.
Definition bind {A B} (r : res A) (f : A -> res B) : res B :=
  match r with Ok a => f a | Panic => Panic | Stuck => Stuck end.
Notation "'do' x <- r ; e" := (bind r (fun x => e)) (at level 200, x pattern, r at level 100, e at level 200).
Definition from_option {A} (o : option A) : res A := match o with Some a => Ok a | None => Panic end.
(** [assert!(b)] *)
Definition check (b : bool) : res unit := if b then Ok tt else Panic.

Section Slices.
Context {A : Type}.
(** [l[i]] *)
Definition index (l : list A) (i : nat) : res A := from_option (nth_error l i).
(** [l] with element [i] replaced *)
Fixpoint update (i : nat) (f : A -> A) (l : list A) : list A :=
  match l, i with
  | [], _ => []
  | x :: l', 0 => f x :: l'
  | x :: l', S i' => x :: update i' f l'
  end.
(** [l[i] = x] *)
Definition store (l : list A) (i : nat) (x : A) : res (list A) := if i <? length l then Ok (update i (fun _ => x) l) else Panic.
(** [&l[a..b]] *)
Definition slice (l : list A) (a b : nat) : res (list A) :=
  if (a <=? b) && (b <=? length l) then Ok (firstn (b - a) (skipn a l)) else Panic.
(** [l[a..b].copy_from_slice(src)] *)
Definition copy_to_slice (l : list A) (a b : nat) (src : list A) : res (list A) :=
  if (a <=? b) && (b <=? length l) && (length src =? b - a) then Ok (firstn a l ++ src ++ skipn b l) else Panic.
(** [Vec::split_off] *)
Definition split_at (l : list A) (i : nat) : res (list A * list A) :=
  if i <=? length l then Ok (firstn i l, skipn i l) else Panic.
End Slices.

(** [iter().map(f).collect()], where [f] may panic *)
Fixpoint map_res {A B} (f : A -> res B) (l : list A) : res (list B) :=
  match l with
  | [] => Ok []
  | x :: l' => do y <- f x; do ys <- map_res f l'; Ok (y :: ys)
  end.
Fixpoint fold_res {A B} (f : A -> B -> res A) (a : A) (l : list B) : res A :=
  match l with
  | [] => Ok a
  | x :: l' => do a' <- f a x; fold_res f a' l'
  end.
