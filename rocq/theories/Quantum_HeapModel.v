(** Model of the reference-counted sample buffers of the render thread.

    Source: /repo/src/render/quantum.rs 1-160.

    A buffer is a location in a heap.  Channels ([AudioRenderQuantumChannel])
    are handles that refer to a location.  The reference count of a location
    is the number of handles that refer to it, plus the number of times it
    occurs in the pool, plus one for the [zeroes] field of the allocator.

    Simplification: a buffer whose count drops to zero is not returned to the
    system allocator; its location is simply never used again.  The operations
    on handles that do not exist give [None]; safe Rust has no such programs. *)
From Coq Require Import List Arith Bool.
Import ListNotations.

Section Heap.
Context {V : Type} (zero : V) (size : nat).

(** quantum.rs 15-19 [AllocInner]; location 0 is [zeroes].  [h_pool] is a stack
    whose top is the head of the list. *)
Record heap := mk_heap {
  h_data : list (list V);
  h_pool : list nat;
  h_handles : list (option nat)
}.

Definition zeroes : nat := 0.

(** quantum.rs 22-35 [with_capacity] *)
Definition with_capacity (n : nat) : heap :=
  mk_heap (repeat (repeat zero size) (S n)) (rev (seq 1 n)) [].

Definition count_nat (l : nat) (ls : list nat) : nat := count_occ Nat.eq_dec ls l.

Definition count_handles (l : nat) (hs : list (option nat)) : nat :=
  length (filter (fun o => match o with Some k => Nat.eqb k l | None => false end) hs).

(** [Rc::strong_count] of a location *)
Definition strong_count (h : heap) (l : nat) : nat :=
  count_handles l (h_handles h) + count_nat l (h_pool h) + (if Nat.eqb l zeroes then 1 else 0).

Definition contents (h : heap) (l : nat) : list V := nth l (h_data h) [].

Fixpoint set_nth {A} (n : nat) (x : A) (l : list A) : list A :=
  match l, n with
  | [], _ => []
  | _ :: l', 0 => x :: l'
  | y :: l', S n' => y :: set_nth n' x l'
  end.

Definition set_contents (h : heap) (l : nat) (v : list V) : heap :=
  mk_heap (set_nth l v (h_data h)) (h_pool h) (h_handles h).

Definition set_handle (h : heap) (i : nat) (o : option nat) : heap :=
  mk_heap (h_data h) (h_pool h) (set_nth i o (h_handles h)).

Definition new_handle (h : heap) (l : nat) : heap :=
  mk_heap (h_data h) (h_pool h) (h_handles h ++ [Some l]).

(** a new location with the given contents *)
Definition fresh (h : heap) (v : list V) : nat * heap :=
  (length (h_data h), mk_heap (h_data h ++ [v]) (h_pool h) (h_handles h)).

(** quantum.rs 59-67 [AllocInner::allocate] *)
Definition allocate (h : heap) : nat * heap :=
  match h_pool h with
  | l :: p => (l, mk_heap (h_data h) p (h_handles h))
  | [] => fresh h (repeat zero size)
  end.

(** quantum.rs 69-73 [AllocInner::push] *)
Definition push (h : heap) (l : nat) : heap :=
  mk_heap (h_data h) (l :: h_pool h) (h_handles h).

(** [Rc::make_mut] on a local variable: the variable itself is not a handle, so
    the count is one more than [strong_count] *)
Definition rc_make_mut_local (h : heap) (l : nat) : nat * heap :=
  if Nat.eqb (S (strong_count h l)) 1 then (l, h) else fresh h (contents h l).

(** [Rc::make_mut] on the buffer of handle [i], which refers to [l] *)
Definition rc_make_mut (h : heap) (i l : nat) : nat * heap :=
  if Nat.eqb (strong_count h l) 1 then (l, h)
  else let '(l', h') := fresh h (contents h l) in (l', set_handle h' i (Some l')).

(** quantum.rs 96-104 [make_mut]: the location that may be written, and the new heap *)
Definition make_mut (h : heap) (i l : nat) : nat * heap :=
  if negb (Nat.eqb (strong_count h l) 1) then
    let '(n, h1) := allocate h in
    let '(n', h2) := rc_make_mut_local h1 n in
    let h3 := set_contents h2 n' (contents h2 l) in
    let h4 := set_handle h3 i (Some n') in
    rc_make_mut h4 i n'
  else rc_make_mut h i l.

(** quantum.rs 152-160 [Drop] *)
Definition drop (h : heap) (i l : nat) : heap :=
  if Nat.eqb (strong_count h l) 1
  then push (set_handle h i None) l
  else set_handle h i None.

Definition handle (h : heap) (i : nat) : option nat :=
  match nth_error (h_handles h) i with Some (Some l) => Some l | _ => None end.

(** The operations that safe code can perform on channels. *)
Inductive hop :=
| HSilence                              (** quantum.rs 45-50, 122-127 *)
| HClone (i : nat)                      (** derived [Clone], line 89 *)
| HWrite (i : nat) (f : list V -> list V) (** any use of [DerefMut], lines 140-144 *)
| HAssign (i j : nat)                   (** [*self = other.clone()], e.g. line 116 *)
| HAssignSilence (i : nat)              (** [channels[0] = silence], lines 512-514 *)
| HDrop (i : nat).                      (** end of the life of a channel *)

Definition hstep (h : heap) (o : hop) : option heap :=
  match o with
  | HSilence => Some (new_handle h zeroes)
  | HClone i => match handle h i with Some l => Some (new_handle h l) | None => None end
  | HWrite i f =>
      match handle h i with
      | Some l => let '(l', h') := make_mut h i l in Some (set_contents h' l' (f (contents h' l')))
      | None => None
      end
  | HAssign i j =>
      match handle h i, handle h j with
      | Some li, Some lj =>
          (* the clone is a temporary handle, moved into place after the drop *)
          let k := length (h_handles h) in
          let h1 := new_handle h lj in
          let h2 := drop h1 i li in
          Some (mk_heap (h_data h2) (h_pool h2) (set_nth i (Some lj) (removelast (h_handles h2))))
      | _, _ => None
      end
  | HAssignSilence i =>
      match handle h i with
      | Some li =>
          let h1 := new_handle h zeroes in
          let h2 := drop h1 i li in
          Some (mk_heap (h_data h2) (h_pool h2) (set_nth i (Some zeroes) (removelast (h_handles h2))))
      | None => None
      end
  | HDrop i => match handle h i with Some l => Some (drop h i l) | None => None end
  end.

Fixpoint hrun (h : heap) (os : list hop) : option heap :=
  match os with
  | [] => Some h
  | o :: os' => match hstep h o with Some h' => hrun h' os' | None => None end
  end.

(** Reading a channel, quantum.rs 132-138 and 147-150 *)
Definition hread (h : heap) (i : nat) : option (list V) :=
  match handle h i with Some l => nth_error (h_data h) l | None => None end.

(** quantum.rs 109-111 [is_silent] *)
Definition his_silent (h : heap) (i : nat) : option bool :=
  match handle h i with Some l => Some (Nat.eqb l zeroes) | None => None end.

(** [Rc::ptr_eq] of two channels, quantum.rs 579 *)
Definition hptr_eq (h : heap) (i j : nat) : option bool :=
  match handle h i, handle h j with Some a, Some b => Some (Nat.eqb a b) | _, _ => None end.

End Heap.

Arguments hop : clear implicits.
