(** Answers of audio-processing callbacks: specification. *)
From Coq Require Import List Arith Bool.
From Verif Require Import Answer_Model.
Import ListNotations.

(** every answer that reached a node reached the one that had asked, and the render thread lives *)
Definition answers_right (s : state) : Prop := panicked s = false /\ forall n r, In (n, r) (delivered s) -> n = asked_by r.
(** the client keeps its script processors: what it drops are other nodes *)
Definition keeps_scripts (l : list action) (s : state) : Prop := forall n, In (Release n) l -> nth_error (kinds s) n <> Some Script.
