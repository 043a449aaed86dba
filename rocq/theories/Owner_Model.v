(** Model of the thread that owns the stream of the cubeb backend, and of the calls that talk to it.

    Source: /repo/src/io/cubeb.rs 45-179 (commands, [CubebOwner::run], [CubebThreadHandle]), 300-313, 551-580 (the calls of the backend).

    The stream itself is abstract: its state, and what [start], [stop] and [latency] do to it.  Threads: the owner, and any number of callers that share the
    handle and its clones; a run is a list of [label]s, one for each step of one of them.
    crossbeam-channel: [send] on an unbounded channel fails exactly when the receiver is dropped; dropping the receiver drops the messages in the channel;
    [recv] fails exactly when the channel is empty and all senders are dropped; a response channel has one sender, in the command.
    Not modelled: how the stream is built (282-290, 300-430), operations of the stream that do not return. *)
From Coq Require Import List Arith Bool.
Import ListNotations.

Section Owner.
(** the stream, the answers to [latency] divided by a sample rate, the sample rates, the errors *)
Context {D L R E : Type}.
Variable d_start : D -> D * option E.
Variable d_stop : D -> D * option E.
Variable d_latency : D -> R -> L + E.

(** cubeb.rs 56-64, 160-177 *)
Inductive command := Resume | Suspend | Close | Latency (rate : R).
(** what a call returns *)
Inductive answer := Done | Seconds (l : L) | Failed (e : E) | Stopped.
(** what happens to the stream *)
Inductive act := Started | Halted | Asked | Dropped.

(** the owner: in the loop, with its stream; after the loop but with the channel still open; ended *)
Inductive owner := Open (d : D) | Closing | Gone.
(** a call: it waits for the response, or has returned *)
Inductive call := Waiting | Returned (a : answer).

(** [w_queue]: commands in the channel with the number of the call; [w_handles]: senders of commands; [w_acts]: record *)
Record world := mk_world {
  w_owner : owner;
  w_queue : list (nat * command);
  w_calls : list call;
  w_handles : nat;
  w_acts : list act
}.

(** cubeb.rs 182-205: the owner has been spawned and is ready *)
Definition spawned (d : D) : world := mk_world (Open d) [] [] 1 [].

Fixpoint set_call (i : nat) (c : call) (l : list call) : list call :=
  match l, i with
  | [], _ => []
  | _ :: l', O => c :: l'
  | y :: l', S i' => y :: set_call i' c l'
  end.

(** cubeb.rs 81-134: one command; [None] for the stream = [self] is consumed *)
Definition execute (d : D) (c : command) : option D * answer * list act :=
  match c with
  | Resume => let (d', e) := d_start d in (Some d', match e with None => Done | Some e => Failed e end, [Started])
  | Suspend => let (d', e) := d_stop d in (Some d', match e with None => Done | Some e => Failed e end, [Halted])
  | Close => (None, Done, [Halted; Dropped])
  | Latency r => (Some d, match d_latency d r with inl l => Seconds l | inr e => Failed e end, [Asked])
  end.

(** - [Call c]: a caller makes a command, up to waiting for the response (146-158);
    - [Clone], [Drop]: a handle is cloned or dropped;
    - [Serve]: the owner takes a command (82-101);  [End]: the owner leaves [run], the receiver is dropped;
    - [Hang_up]: [recv] fails (82). *)
Inductive label := Call (c : command) | Clone | Drop | Serve | End | Hang_up.

Definition waiting (c : call) : bool := match c with Waiting => true | _ => false end.

(** [None] = this step is not possible now *)
Definition step (w : world) (l : label) : option world :=
  match l with
  | Call c =>
      match w_handles w with
      | O => None
      | _ => match w_owner w with
             | Gone => Some (mk_world Gone (w_queue w) (w_calls w ++ [Returned Stopped]) (w_handles w) (w_acts w))
             | o => Some (mk_world o (w_queue w ++ [(length (w_calls w), c)]) (w_calls w ++ [Waiting]) (w_handles w) (w_acts w))
             end
      end
  | Clone => match w_handles w with
             | O => None
             | S k => Some (mk_world (w_owner w) (w_queue w) (w_calls w) (S (S k)) (w_acts w))
             end
  | Drop =>                                      (* a caller that waits borrows its handle *)
      match w_handles w with
      | O => None
      | S k => if Nat.eqb k 0 && existsb waiting (w_calls w) then None
               else Some (mk_world (w_owner w) (w_queue w) (w_calls w) k (w_acts w))
      end
  | Serve =>
      match w_owner w, w_queue w with
      | Open d, (i, c) :: queue' =>
          let '(d', a, acts) := execute d c in
          Some (mk_world (match d' with Some d' => Open d' | None => Closing end) queue' (set_call i (Returned a) (w_calls w)) (w_handles w) (w_acts w ++ acts))
      | _, _ => None
      end
  | End =>
      match w_owner w with
      | Closing => Some (mk_world Gone [] (fold_left (fun cs m => set_call (fst m) (Returned Stopped) cs) (w_queue w) (w_calls w)) (w_handles w) (w_acts w))
      | _ => None
      end
  | Hang_up =>
      match w_owner w, w_queue w, w_handles w with
      | Open _, [], O => Some (mk_world Closing [] (w_calls w) O (w_acts w ++ [Dropped]))
      | _, _, _ => None
      end
  end.

Fixpoint run (w : world) (ls : list label) : option world :=
  match ls with
  | [] => Some w
  | l :: ls' => match step w l with None => None | Some w' => run w' ls' end
  end.

End Owner.
