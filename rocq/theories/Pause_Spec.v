(** What a listener hears of a context that is suspended and resumed. *)
From Coq Require Import List Arith Bool.
From Verif Require Import Thread_Model.
Import ListNotations.

(** [suspend()] and [resume()], and nothing else *)
Definition pause_or_resume {G M} (m : @cmsg G M) : Prop := match m with SuspendMsg _ | ResumeMsg _ => True | _ => False end.
Definition resumes {G M} (m : @cmsg G M) : Prop := match m with ResumeMsg _ => True | _ => False end.

(** [out] is the sound [s] with silence [z] put in between: nothing of [s] is lost, repeated or reordered *)
Inductive interrupted {T} (z : T) : list T -> list T -> Prop :=
| I_end : interrupted z [] []
| I_sound x s out : interrupted z s out -> interrupted z (x :: s) (x :: out)
| I_silence s out : interrupted z s out -> interrupted z s (z :: out).

(** how many of [pause] samples are still sound, if [played] samples were delivered in blocks rendered [block] at a time *)
Definition still_heard (block played pause : nat) : nat := Nat.min pause ((block - played mod block) mod block).
