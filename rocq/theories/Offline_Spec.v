(** The life of an OfflineAudioContext: specification. *)
From Coq Require Import List Arith Bool Sorting.Sorted.
From Verif Require Import Thread_Model Offline_Model.
Import ListNotations.

(** ** What a listener sees *)

(** the state changes; the rendering is declared complete; quantum [k] is rendered; the handler for changes of state, or for the end, is called *)
Inductive mark := Changes (s : cstate) | Completes | Renders (k : nat) | Hears (s : cstate) | Hears_end.
Definition mark_of {V} (e : @entry V) : list mark :=
  match e with
  | Emit (Changed s) => [Changes s]
  | Emit (Complete _) => [Completes]
  | Heard (Changed s) => [Hears s]
  | Heard (Complete _) => [Hears_end]
  | Rendered k => [Renders k]
  | _ => []
  end.
Definition marks {V} (l : list (@entry V)) : list mark := flat_map mark_of l.

(** Quantum [k] of a rendering that is suspended before the quanta [susp]: the context is suspended and resumed if it must be, the
    quantum is rendered, then the handlers are called *)
Definition quantum_life (susp : list nat) (k : nat) : list mark :=
  let s := if existsb (Nat.eqb k) susp then [Suspended; Running] else [] in
  map Changes s ++ [Renders k] ++ map Hears ((if Nat.eqb k 0 then [Running; Running] else []) ++ s).
(** the whole life, for [n] quanta *)
Definition life (n : nat) (susp : list nat) : list mark :=
  [Changes Running; Changes Running] ++ flat_map (quantum_life susp) (seq 0 n) ++ [Changes Closed; Completes; Hears Closed; Hears_end].

(** the quanta the program has asked to suspend at, before it started the rendering *)
Fixpoint scheduled {M} (ls : list (@label M)) : list nat :=
  match ls with
  | [] | Start :: _ => []
  | Suspend q :: ls' => q :: scheduled ls'
  | _ :: ls' => scheduled ls'
  end.

(** ** Programs that wait for the suspensions *)

(** The program changes the graph (outside of event handlers) only while the state of the context reads "suspended"; it resumes only when
    rendering has started and the state reads "suspended"; it starts once and drops no future. *)
Definition polite {G M V} (GO : @graph_ops G M V) zero RQ channels len g (ls : list label) : Prop :=
  forall before l after w, ls = before ++ l :: after -> run GO zero RQ len (new_context channels g) before = Some w ->
  match l with
  | Send _ => w_state w = Suspended
  | Resume => w_state w = Suspended /\ In Start before
  | Start => ~ In Start before
  | Drop _ => False
  | _ => True
  end.

(** the changes of the graph, split at the start and at every resumption *)
Fixpoint segments {M} (ls : list (@label M)) : list (list M) :=
  match ls with
  | [] => [[]]
  | Send ms :: ls' => match segments ls' with s :: rest => (ms ++ s) :: rest | [] => [ms] end
  | Start :: ls' | Resume :: ls' => [] :: segments ls'
  | _ :: ls' => segments ls'
  end.
(** the changes made by the event handlers after each quantum *)
Fixpoint handled {M} (ls : list (@label M)) : list (list M) :=
  match ls with
  | [] => []
  | Events ms :: ls' => ms :: handled ls'
  | _ :: ls' => handled ls'
  end.

(** the changes of state, in order *)
Definition changes {V} (l : list (@entry V)) : list cstate := flat_map (fun e => match e with Emit (Changed s) => [s] | _ => [] end) l.
(** the quanta rendered, in order *)
Definition rendered {V} (l : list (@entry V)) : list nat := flat_map (fun e => match e with Rendered k => [k] | _ => [] end) l.
(** the buffers given to the handler of the end of the rendering, or emitted for it *)
Definition completions {V} (l : list (@entry V)) : list (list (list V)) := flat_map (fun e => match e with Emit (Complete b) => [b] | _ => [] end) l.
Definition endings {V} (l : list (@entry V)) : list (list (list V)) := flat_map (fun e => match e with Heard (Complete b) => [b] | _ => [] end) l.

(** a graph that never panics *)
Definition never_panics {G M V} (GO : @graph_ops G M V) : Prop :=
  (forall g f, g_render GO g f <> None) /\ (forall g m, g_apply GO g m <> None).
