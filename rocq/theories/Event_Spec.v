(** The event loop: specification. *)
From Coq Require Import List Arith Bool.
From Verif Require Import Event_Model.
Import ListNotations.

(** [a] is [b] with some elements left out *)
Inductive subsequence {X} : list X -> list X -> Prop :=
  | sub_nil : forall b, subsequence [] b
  | sub_keep : forall x a b, subsequence a b -> subsequence (x :: a) (x :: b)
  | sub_skip : forall x a b, subsequence a b -> subsequence a (x :: b).

(** the events that were emitted, in order *)
Definition emitted (ls : list label) : list event := flat_map (fun l => match l with Send e | Try_send e => [e] | _ => [] end) ls.
(** how often a handler was installed *)
Definition same_handler (h g : handler) : bool := match h, g with Once a, Once b | Multiple a, Multiple b => a =? b | _, _ => false end.
Definition installations (h : handler) (ls : list label) : nat :=
  length (filter (fun l => match l with Set_handler _ g => same_handler h g | _ => false end) ls).
Definition calls_of (h : handler) (cs : list (handler * event)) : nat := length (filter (fun c => same_handler h (fst c)) cs).

(** The handler in place: what was installed last, unless cleared since, or one-shot and called since. *)
Definition registry := key -> option handler.
Definition put (r : registry) (k : key) (v : option handler) : registry := fun j => if j =? k then v else r j.
(** Delivery as one expects it: events are taken from the queue one after the other, and each goes to the handler
    in place for its type. *)
Record ideal := mk_ideal { i_registry : registry; i_queue : list event; i_calls : list (handler * event) }.
Definition ideal_new : ideal := mk_ideal (fun _ => None) [] [].
Definition ideal_step (i : ideal) (l : label) : ideal :=
  match l with
  | Set_handler k h => mk_ideal (put (i_registry i) k (Some h)) (i_queue i) (i_calls i)
  | Clear_handler k => mk_ideal (put (i_registry i) k None) (i_queue i) (i_calls i)
  | Send e | Try_send e => mk_ideal (i_registry i) (i_queue i ++ [e]) (i_calls i)
  | Take =>
      match i_queue i with
      | [] => i
      | e :: q =>
          match i_registry i (e_key e) with
          | None => mk_ideal (i_registry i) q (i_calls i)
          | Some (Once h) => mk_ideal (put (i_registry i) (e_key e) None) q (i_calls i ++ [(Once h, e)])
          | Some (Multiple h) => mk_ideal (i_registry i) q (i_calls i ++ [(Multiple h, e)])
          end
      end
  | Return | Unwind => i
  end.
Definition ideal_run (ls : list label) : ideal := fold_left ideal_step ls ideal_new.

(** No handler is installed or cleared for a type while a (repeating) callback for that type is running, no event is
    dropped and no callback panics. *)
Definition busy (s : loop) (k : key) : bool := match running s with Some (e, Multiple _) => e_key e =? k | _ => false end.
Fixpoint calm (capacity : nat) (thread : bool) (s : loop) (ls : list label) : bool :=
  match ls with
  | [] => true
  | l :: ls' =>
      match l with
      | Set_handler k _ | Clear_handler k => negb (busy s k)
      | Try_send _ => length (queue s) <? capacity
      | Unwind => false
      | _ => true
      end && match step capacity thread s l with Some s' => calm capacity thread s' ls' | None => true end
  end.
