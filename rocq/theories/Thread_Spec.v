(** The continuous stream of frames a render thread is expected to produce. *)
From Coq Require Import List Arith Bool Sorted ZArith QArith.
From Verif Require Import Thread_Model.
Import ListNotations.
Local Open Scope nat_scope.

Section ThreadSpec.
Context {G M V T : Type}.
Variable GO : @graph_ops G M V.
Variable zero : V.
Variable conv : V -> T.
Variable RQ : nat.
Notation thread := (@thread G V).
Notation cmsg := (@cmsg G M).

(** ** Frames *)

(** frame [k] of a quantum, on [n] output channels; missing channels are silent *)
Definition frame (n : nat) (q : list (list V)) (k : nat) : list T :=
  map (fun i => conv (nth k (nth i q []) zero)) (seq 0 n).

(** frames [from], [from + 1], ..., [RQ - 1] of a quantum, one after the other *)
Definition frames_from (n : nat) (q : list (list V)) (from : nat) : list T :=
  concat (map (frame n q) (seq from (RQ - from))).

(** a rendered quantum: at least one channel, all of length [RQ] *)
Definition well_formed (q : list (list V)) : Prop := q <> [] /\ Forall (fun ch => length ch = RQ) q.
Definition graph_ok : Prop := forall g f g' q, g_render GO g f = Some (g', q) -> well_formed q.

(** ** What a render thread does, regardless of callback sizes *)
Inductive event :=
| Receive (q : list cmsg)            (* handle these messages *)
| Quantum (q : list (list V))        (* render one quantum *)
| Silence (samples : nat).           (* nothing to render *)

Definition inactive (t : thread) : Prop :=
  t_suspended t = true \/ match t_graph t with Some g => g_active GO g = false | None => True end.

Inductive happens : thread -> event -> thread -> Prop :=
| H_receive t q t' : t_listening t = true \/ q = [] -> handle_all GO t q = Some (t', []) -> happens t (Receive q) t'
| H_quantum t q t' : render_quantum GO RQ t = Some (t', q) -> happens t (Quantum q) t'
| H_silence t k : inactive t -> happens t (Silence k) t.

Inductive history : thread -> list event -> thread -> Prop :=
| H_nil t : history t [] t
| H_cons t e t1 es t2 : happens t e t1 -> history t1 es t2 -> history t (e :: es) t2.

(** the messages handled *)
Definition handled (es : list event) : list cmsg :=
  flat_map (fun e => match e with Receive q => q | _ => [] end) es.

Definition quanta_of (es : list event) : list (list (list V)) :=
  flat_map (fun e => match e with Quantum q => [q] | _ => [] end) es.

(** the samples an event contributes to the stream *)
Definition sound (n : nat) (e : event) : list T :=
  match e with
  | Receive _ => []
  | Quantum q => frames_from n q 0
  | Silence k => repeat (conv zero) k
  end.

(** the thread without the frames it still has to deliver *)
Definition core (t : thread) : thread := set_offset t None.

(** the frames rendered and not yet delivered *)
Definition undelivered (n : nat) (t : thread) : list T :=
  match t_offset t with None => [] | Some (o, q) => frames_from n q o end.

Definition offset_ok (n : nat) (t : thread) : Prop :=
  match t_offset t with None => True | Some (o, q) => 0 < o <= RQ /\ n <= length q /\ Forall (fun ch => length ch = RQ) q end.

(** the first [k] quanta of a thread that is left alone *)
Fixpoint quanta (k : nat) (t : thread) : option (list (list (list V))) :=
  match k with
  | O => Some []
  | S k' => match render_quantum GO RQ t with
            | None => None
            | Some (t', q) => option_map (cons q) (quanta k' t')
            end
  end.

(** a thread that is rendering *)
Definition live (t : thread) : Prop := t_suspended t = false /\ exists g, t_graph t = Some g /\ g_active GO g = true.
Definition stays_active : Prop :=
  forall g f g' q, g_active GO g = true -> g_render GO g f = Some (g', q) -> g_active GO g' = true.
(** the graph does not panic *)
Definition graph_total : Prop := (forall g f, g_render GO g f <> None) /\ (forall g m, g_apply GO g m <> None).

(** ** Offline rendering *)

(** channel [i] of a sequence of quanta; a channel that a quantum lacks is silent *)
Definition channel (i : nat) (qs : list (list (list V))) : list V :=
  concat (map (fun q => match nth_error q i with Some ch => ch | None => repeat zero RQ end) qs).

(** the messages of the suspension at quantum [j] *)
Definition messages_at (susp : list (nat * list cmsg)) (j : nat) : list cmsg :=
  match find (fun s => Nat.eqb (fst s) j) susp with Some s => snd s | None => [] end.

(** Quantum [j] is preceded by the suspension scheduled there, and followed by
    the messages of the event handlers *)
Definition offline_schedule (susp : list (nat * list cmsg)) (evs : list (list cmsg)) (qs : list (list (list V))) : list event :=
  flat_map (fun jq => [Receive (messages_at susp (fst jq)); Quantum (snd jq); Receive (nth (fst jq) evs [])])
           (combine (seq 0 (length qs)) qs).

End ThreadSpec.

(** no message makes the thread stop listening *)
Definition no_recycle {G M} (q : list (@cmsg G M)) : Prop := Forall (fun m => m <> RecycleMsg) q.

(** scheduled suspensions: strictly increasing quanta *)
Definition ordered {A} (l : list (nat * A)) : Prop := StronglySorted lt (map fst l).

(** the time of the boundary before quantum [q] *)
Definition boundary_time (RQ : nat) (sample_rate : Q) (q : nat) : Q := (inject_Z (Z.of_nat (q * RQ)) / sample_rate)%Q.

(** ** Reports *)
(** the state of the context after a message, if the message changes it: this is reported to the control thread *)
Definition changes {G M} (m : @cmsg G M) : list cstate :=
  match m with GraphMsg _ => [] | SuspendMsg _ | RecycleMsg => [Suspended] | ResumeMsg _ | StartupMsg _ => [Running] | CloseMsg _ => [Closed] end.
(** who waits for the message *)
Definition asks {G M} (m : @cmsg G M) : list nat := match m with SuspendMsg n | ResumeMsg n | CloseMsg n => [n] | _ => [] end.
(** is the thread paused after the messages *)
Definition pauses {G M} (ms : list (@cmsg G M)) (s : bool) : bool := fold_left (fun s m => match m with SuspendMsg _ | CloseMsg _ => true | ResumeMsg _ => false | _ => s end) ms s.
