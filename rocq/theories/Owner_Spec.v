(** The thread that owns a stream: specification. *)
From Coq Require Import List Arith Bool.
From Verif Require Import Owner_Model.
Import ListNotations.

Section Owner.
Context {D L R E : Type}.
Variable d_start : D -> D * option E.
Variable d_stop : D -> D * option E.
Variable d_latency : D -> R -> L + E.

(** the commands, in the order in which they were made *)
Definition commands (ls : list (@label R)) : list (@command R) := flat_map (fun l => match l with Call c => [c] | _ => [] end) ls.

(** A stream used by one caller, one command after the other: the answers, and what happens to the stream *)
Definition answer_of (e : option E) : @answer L E := match e with None => Done | Some e => Failed e end.
Fixpoint answers (d : D) (cs : list (@command R)) : list (@answer L E) :=
  match cs with
  | [] => []
  | Resume :: cs' => answer_of (snd (d_start d)) :: answers (fst (d_start d)) cs'
  | Suspend :: cs' => answer_of (snd (d_stop d)) :: answers (fst (d_stop d)) cs'
  | Latency r :: cs' => match d_latency d r with inl l => Seconds l | inr e => Failed e end :: answers d cs'
  | Close :: cs' => Done :: map (fun _ => Stopped) cs'
  end.
Fixpoint acts (cs : list (@command R)) : list act :=
  match cs with
  | [] => []
  | Resume :: cs' => Started :: acts cs'
  | Suspend :: cs' => Halted :: acts cs'
  | Latency _ :: cs' => Asked :: acts cs'
  | Close :: _ => [Halted; Dropped]
  end.

(** labels of the owner thread *)
Definition of_owner (l : @label R) : Prop := l = Serve \/ l = End \/ l = Hang_up.
End Owner.
