(** The online context: specification. *)
From Coq Require Import List Arith Bool.
From Verif Require Import Context_Model.
Import ListNotations.

Section Spec.
Context {M : Type}.

(** the state a call asks for, once it has decided that there is something to do *)
Definition requested (p : pc M) : option cstate :=
  match p with
  | SuspWait _ => Some Suspended
  | ResWait _ => Some Running
  | CloseWait _ | CloseManual _ => Some Closed
  | _ => None
  end.

(** no graph is on its way to a render thread: the context has started, and so has the stream of the last sink change *)
Definition settled (w : world M) : Prop := forall g, ~ In (Startup g) (w_chan w).

(** The schedules for which the properties are proved. All calls are the synchronous ones, from any number of threads
    and interleaved in any way, on a settled context; graph messages are sent at any time.

    With [sinks] the sink may be changed, but not of a suspended context, no message is waiting when the call
    empties the channel, and no callback has more than one quantum. *)
Definition allowed (sinks : bool) (w : world M) (l : label M) : Prop :=
  match l with
  | LCall _ (OSuspend sync) | LCall _ (OResume sync) | LCall _ (OClose sync) => sync = true /\ settled w
  | LCall _ OSink => sinks = true /\ settled w /\ w_state w <> Suspended
  | LCall _ (OSend _) => True
  | LStep t => match w_pcs w t with
               | SinkDrain _ _ => w_chan w = []
               | _ => True
               end
  | LStart _ k => sinks = true -> k <= 1
  | LRender _ | LRequest _ => True
  end.

Variable active : list M -> bool.
Variable RQ : nat.
Inductive reaches (sinks : bool) (w : world M) : world M -> Prop :=
| reaches_refl : reaches sinks w w
| reaches_step w1 l w2 : reaches sinks w w1 -> allowed sinks w1 l -> step active RQ w1 l = Some w2 -> reaches sinks w w2.

(** a step of thread [t] or of the streams *)
Definition helps (t : nat) (l : label M) : Prop := match l with LStep u => u = t | LCall _ _ => False | _ => True end.

Inductive helped (sinks : bool) (t : nat) (w : world M) : world M -> Prop :=
| helped_refl : helped sinks t w w
| helped_step w1 l w2 : helped sinks t w w1 -> helps t l -> allowed sinks w1 l -> step active RQ w1 l = Some w2 -> helped sinks t w w2.

(** the graph of the current render thread *)
Definition graph_of (w : world M) : option (list M) :=
  match nth_error (w_streams w) (current w) with Some s => s_graph s | None => None end.
Definition prefix_of (l l' : list M) : Prop := exists k, l' = l ++ k.
End Spec.
