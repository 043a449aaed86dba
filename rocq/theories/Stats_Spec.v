(** Playback statistics and render capacity: specification. *)
From Coq Require Import List ZArith Bool.
From Verif Require Import Stats_Model.
Import ListNotations.
Local Open Scope Z_scope.

(** The latencies that count: those recorded since the last reset, and the last one before it. *)
Fixpoint latencies (ops : list op) (latest : Z) (seen : list Z) : list Z :=
  match ops with
  | [] => seen
  | Latency n :: ops' => latencies ops' n (seen ++ [n])
  | Reset :: ops' => latencies ops' latest [latest]
  | Callback _ _ :: ops' => latencies ops' latest seen
  end.
Definition total (l : list Z) : Z := fold_right Z.add 0 l.
Definition is_minimum (m : Z) (l : list Z) : Prop := In m l /\ forall x, In x l -> m <= x.
Definition is_maximum (m : Z) (l : list Z) : Prop := In m l /\ forall x, In x l -> x <= m.

(** Callbacks, those that took longer than their budget, the runs of such callbacks, and the time lost. *)
Definition callbacks_of (ops : list op) : list (Z * Z) := flat_map (fun o => match o with Callback r b => [(r, b)] | _ => [] end) ops.
Definition late (c : Z * Z) : bool := snd c <? fst c.
Definition late_count (l : list (Z * Z)) : Z := Z.of_nat (length (filter late l)).
Fixpoint late_runs (before : bool) (l : list (Z * Z)) : Z :=
  match l with
  | [] => 0
  | c :: l' => (if late c && negb before then 1 else 0) + late_runs (late c) l'
  end.
Definition time_lost (l : list (Z * Z)) : Z := total (map (fun c => Z.max 0 (fst c - snd c)) l).
Definition legal (o : op) : Prop :=
  match o with Callback r b => 0 <= r < 2 ^ 64 /\ 0 <= b < 2 ^ 64 | Latency n => 0 <= n < 2 ^ 64 | Reset => True end.

(** [c] interleaves [a] and [b] *)
Inductive interleaving {X} : list X -> list X -> list X -> Prop :=
  | inter_nil : interleaving [] [] []
  | inter_left : forall x a b c, interleaving a b c -> interleaving (x :: a) b (x :: c)
  | inter_right : forall x a b c, interleaving a b c -> interleaving a (x :: b) (x :: c).
(** what the recording thread does, and what the other thread may do *)
Definition recording (o : op) : bool := match o with Reset => false | _ => true end.
Inductive request := Do_reset | Do_snapshot | Do_peak.
Definition request_program (r : request) : list micro := match r with Do_reset => reset_program | Do_snapshot => snapshot_program | Do_peak => [Swap_peak] end.
