(** The clock of a context: the frames played so far, advanced by the render thread and read by any thread.

    Source: /repo/src/context/concrete_base.rs 408-418 (current_time), /repo/src/render/thread.rs 354-368, 484-500 (the time of a
    quantum), 396-410, /repo/src/context/online.rs 375-440 (the stream, and with it the rate of the render thread, changes), offline.rs 93-119.

    The counter is one atomic number.  The render thread adds to it with Relaxed ordering; other threads may see an old value of it,
    but a thread never sees an older value than it has seen before (coherence).  Simplifications: the counter does not wrap
    around; of two render threads at a change of device the old one has ended (Sink_Model.v). *)
From Coq Require Import List ZArith Bool.
From Verif Require Import Float_Model.
Import ListNotations.
Open Scope Z_scope.

(** [frames as f64 / sample_rate as f64] *)
Definition time (sr : f32) (frames : Z) : f64 := f64_div (f64_of_Z frames) (f64_of_f32 sr).
(** what a thread read: which thread, how many quanta the counter it saw contains, how many quanta were completely rendered at that
    moment, and the time it got *)
Record reading := mk_reading { who : nat; known : nat; complete : nat; shown : f64 }.
(** [rate]: of the context; [thread_rate]: of the render thread; [quanta]: counted so far; [busy]: the last of them is being rendered;
    [stamps]: the times processors were given as current_time, one for each quantum; [readings]: of current_time(), in order *)
Record clock := mk_clock { rate : f32; thread_rate : f32; quanta : nat; busy : bool; stamps : list f64; readings : list reading }.
(** a new context: the render thread has the rate of the context *)
Definition start (sr : f32) : clock := mk_clock sr sr 0 false [] [].
(** the quanta a thread knows of *)
Definition seen (i : nat) (l : list reading) : nat := fold_left (fun m r => if Nat.eqb (who r) i then known r else m) l 0%nat.
(** the quanta completely rendered *)
Definition rendered (s : clock) : nat := if busy s then quanta s - 1 else quanta s.
Inductive action :=
  | Begin                    (* thread.rs 356-368, 489-501: the counter advances, processors get the time before that *)
  | End                      (* thread.rs 369-395, 502-527: the quantum has been rendered *)
  | Read (i k : nat)         (* concrete_base.rs 416-418: thread [i] reads the clock and sees the counter after [k] quanta *)
  | New_stream (sr : f32).   (* online.rs 420-428: a new render thread, with the counter of the old one *)
(** [None]: the step cannot be made in this state *)
Definition act (s : clock) (a : action) : option clock :=
  match a with
  | Begin =>
      if busy s then None
      else Some (mk_clock (rate s) (thread_rate s) (quanta s + 1) true (stamps s ++ [time (thread_rate s) (Z.of_nat (quanta s) * 128)]) (readings s))
  | End => if busy s then Some (mk_clock (rate s) (thread_rate s) (quanta s) false (stamps s) (readings s)) else None
  | Read i k =>
      if (Nat.leb (seen i (readings s)) k && Nat.leb k (quanta s))%bool
      then Some (mk_clock (rate s) (thread_rate s) (quanta s) (busy s) (stamps s)
             (readings s ++ [mk_reading i k (rendered s) (time (rate s) (Z.of_nat k * 128))]))
      else None
  | New_stream sr => if busy s then None else Some (mk_clock (rate s) sr (quanta s) false (stamps s) (readings s))
  end.
Fixpoint acts (s : clock) (l : list action) : option clock :=
  match l with [] => Some s | a :: l' => match act s a with Some s' => acts s' l' | None => None end end.
