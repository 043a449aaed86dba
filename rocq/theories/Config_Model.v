(** Model of the channel attributes of an AudioNode: channelCount,
    channelCountMode and channelInterpretation, kept on the control side behind
    a mutex and copied to the render thread by messages
    (src/node/audio_node.rs 90-218, 400-440, and the setters that nodes with
    constraints override).

    Several threads may hold references to the same node (all setters take
    [&self], and `context.destination()` hands out any number of handles that
    share one configuration), so a setter call is a sequence of steps: checks,
    lock, store, send, unlock.  The queue stands for the control channel
    together with the buffer of a suspended offline context
    (context/concrete_base.rs 276-290), restricted to the messages about this
    node; messages of a closed context are not modelled. *)
From Coq Require Import List Arith Lia Bool.
From Verif Require Import Quantum_Model.
Import ListNotations.

(** The nodes of the library by their constraints.
    [AtMostTwo]: ConvolverNode, DynamicsCompressorNode, PannerNode,
    StereoPannerNode.  [Fixed]: AudioParam and AudioListener.
    [Plain]: every node that does not override the setters. *)
Inductive kind :=
| Plain
| AtMostTwo
| Merger (inputs : nat)
| Splitter (outputs : nat)
| Script (inputs outputs : nat)
| Destination (offline : bool) (max : nat)
| Fixed.

(** The three setters with their argument; the same values are the payload of
    the messages SetChannelCount, SetChannelCountMode, SetChannelInterpretation
    (message.rs 74-86) *)
Inductive call := SetCount (v : nat) | SetMode (m : count_mode) | SetInterp (i : interpretation).

(** audio_node.rs 138, 161, 183 on the control side; render/graph.rs 306-321
    on the render side *)
Definition assign (c : call) (g : channel_config) : channel_config :=
  match c with
  | SetCount v => mk_config v (cc_mode g) (cc_interp g)
  | SetMode m => mk_config (cc_count g) m (cc_interp g)
  | SetInterp i => mk_config (cc_count g) (cc_mode g) i
  end.

(** lib.rs 185-192, channel_splitter.rs 23-30, channel_merger.rs 21-28 *)
Definition valid_number (n : nat) : bool := Nat.ltb 0 n && Nat.leb n max_channels.

Definition mode_eqb (a b : count_mode) : bool :=
  match a, b with Max, Max | ClampedMax, ClampedMax | Explicit, Explicit => true | _, _ => false end.
Definition interp_eqb (a b : interpretation) : bool :=
  match a, b with Speakers, Speakers | Discrete, Discrete => true | _, _ => false end.

(** channel_splitter.rs 16: the default number of outputs *)
Definition default_outputs := 6.

(** [From<AudioNodeOptions> for ChannelConfig], audio_node.rs 204-218 *)
Definition from_options (o : channel_config) : option channel_config :=
  if valid_number (cc_count o) then Some o else None.

(** The configuration a constructor builds from the options [o], or [None] when
    it panics.
    AtMostTwo: convolver.rs 219-220, dynamics_compressor.rs 184-185, panner.rs
    427-428, stereo_panner.rs 172-173.  Merger: channel_merger.rs 124-131.
    Splitter: channel_splitter.rs 148-165.  Script: script_processor.rs 91-123
    (the buffer size check is in Script_Model.v).  Destination: destination.rs
    101-110 and context/concrete_base.rs 163-173 (no options).  Fixed: param.rs
    305-315, spatial.rs 93-103 (no options). *)
Definition construct (k : kind) (o : channel_config) : option channel_config :=
  match k with
  | Plain => from_options o
  | AtMostTwo =>
      if Nat.leb (cc_count o) 2 && negb (mode_eqb (cc_mode o) Max) then from_options o else None
  | Merger inputs =>
      if valid_number inputs && Nat.eqb (cc_count o) 1 && mode_eqb (cc_mode o) Explicit
      then from_options o else None
  | Splitter outputs =>
      if valid_number outputs &&
         (if negb (Nat.eqb (cc_count o) default_outputs) then Nat.eqb (cc_count o) outputs else true) &&
         mode_eqb (cc_mode o) Explicit && interp_eqb (cc_interp o) Discrete
      then from_options (mk_config outputs (cc_mode o) (cc_interp o)) else None
  | Script inputs outputs =>
      if (match inputs, outputs with
          | 0, 0 => false
          | 0, c | c, 0 => valid_number c
          | c, d => valid_number c && valid_number d
          end)
      then from_options (mk_config (if Nat.eqb inputs 0 then 1 else inputs) Explicit Speakers) else None
  | Destination offline max =>
      from_options (mk_config (if offline then max else Nat.min 2 max) Explicit Speakers)
  | Fixed => from_options (mk_config 1 Explicit Discrete)
  end.

(** What the checks before the lock say: the call panics, returns without doing
    anything, or goes on to [ChannelConfig::set_…]. *)
Inductive verdict := Rejected | NoEffect | Proceed.

(** [set_channel_count] of the node (the default is audio_node.rs 437-439)
    followed by the range check at the start of [ChannelConfig::set_count]
    (audio_node.rs 181); [current] is the count read under the lock by the
    ScriptProcessorNode.
    convolver.rs 187-190, dynamics_compressor.rs 168-171, panner.rs 363-366,
    stereo_panner.rs 149-152, channel_merger.rs 102-104, channel_splitter.rs
    120-122, script_processor.rs 54-61, destination.rs 55-81, param.rs 325-327,
    spatial.rs 113-115 *)
Definition check_count (k : kind) (current v : nat) : verdict :=
  let set := if valid_number v then Proceed else Rejected in
  match k with
  | Plain => set
  | AtMostTwo => if Nat.leb v 2 then set else Rejected
  | Merger _ => if Nat.eqb v 1 then NoEffect else Rejected
  | Splitter outputs => if Nat.eqb v outputs then NoEffect else Rejected
  | Script _ _ => if Nat.eqb v current then set else Rejected
  | Destination offline max =>
      if negb offline || Nat.eqb v max then (if Nat.leb v max then set else Rejected) else Rejected
  | Fixed => Rejected
  end.

(** [set_channel_count_mode]: audio_node.rs 411-413, convolver.rs 193-197,
    dynamics_compressor.rs 174-178, panner.rs 368-372, stereo_panner.rs
    143-147, channel_merger.rs 106-110, channel_splitter.rs 124-128,
    script_processor.rs 44-52, destination.rs 83-97, param.rs 328-330,
    spatial.rs 116-118 *)
Definition check_mode (k : kind) (m : count_mode) : verdict :=
  match k with
  | Plain => Proceed
  | AtMostTwo => if mode_eqb m Max then Rejected else Proceed
  | Merger _ | Splitter _ | Script _ _ => if mode_eqb m Explicit then Proceed else Rejected
  | Destination offline _ => if negb offline || mode_eqb m Explicit then Proceed else Rejected
  | Fixed => Rejected
  end.

(** [set_channel_interpretation]: audio_node.rs 422-425, channel_splitter.rs
    130-134, param.rs 331-333, spatial.rs 119-121 *)
Definition check_interp (k : kind) (i : interpretation) : verdict :=
  match k with
  | Splitter _ => if interp_eqb i Discrete then Proceed else Rejected
  | Fixed => Rejected
  | _ => Proceed
  end.

Definition check (k : kind) (current : nat) (c : call) : verdict :=
  match c with
  | SetCount v => check_count k current v
  | SetMode m => check_mode k m
  | SetInterp i => check_interp k i
  end.

(** does the check take the lock for a moment (script_processor.rs 57)? *)
Definition reads_config (k : kind) (c : call) : bool :=
  match k, c with Script _ _, SetCount _ => true | _, _ => false end.

(** Where a thread is in [ChannelConfig::set_…], audio_node.rs 137-148, 160-171,
    183-194: about to lock; lock taken; value stored; message sent, about to
    drop the guard. *)
Inductive pc := Idle | Ready (c : call) | Locked (c : call) | Stored (c : call) | Sent (c : call).

(** A thread with the calls it has still to make and the outcome of those that
    returned ([true]) or panicked ([false]).  A panic happens before the lock is
    taken and does not poison it; the thread goes on with its next call, as a
    program that catches the panic does. *)
Record thread := mk_thread { t_todo : list call; t_pc : pc; t_log : list (call * bool) }.

Record state := mk_state {
  s_cfg : channel_config;        (** behind the mutex *)
  s_lock : option nat;           (** the thread that holds the guard *)
  s_queue : list call;           (** messages on their way *)
  s_render : channel_config;     (** the render thread's copy, graph.rs 55 *)
  s_threads : list thread;
}.

Fixpoint put {A} (l : list A) (i : nat) (x : A) : list A :=
  match l, i with
  | [], _ => []
  | _ :: l', 0 => x :: l'
  | y :: l', S i' => y :: put l' i' x
  end.

(** One step of thread [i]; [None] when it has nothing to do or must wait for
    the lock. *)
Definition thread_step (k : kind) (s : state) (i : nat) : option state :=
  match nth_error (s_threads s) i with
  | None => None
  | Some t =>
    let go t' := put (s_threads s) i t' in
    match t_pc t with
    | Idle =>
        match t_todo t with
        | [] => None
        | c :: todo =>
            if reads_config k c && match s_lock s with Some _ => true | None => false end then None
            else
            Some (match check k (cc_count (s_cfg s)) c with
            | Rejected => mk_state (s_cfg s) (s_lock s) (s_queue s) (s_render s)
                            (go (mk_thread todo Idle (t_log t ++ [(c, false)])))
            | NoEffect => mk_state (s_cfg s) (s_lock s) (s_queue s) (s_render s)
                            (go (mk_thread todo Idle (t_log t ++ [(c, true)])))
            | Proceed => mk_state (s_cfg s) (s_lock s) (s_queue s) (s_render s)
                            (go (mk_thread todo (Ready c) (t_log t)))
            end)
        end
    | Ready c =>
        match s_lock s with
        | Some _ => None
        | None => Some (mk_state (s_cfg s) (Some i) (s_queue s) (s_render s)
                          (go (mk_thread (t_todo t) (Locked c) (t_log t))))
        end
    | Locked c => Some (mk_state (assign c (s_cfg s)) (s_lock s) (s_queue s) (s_render s)
                          (go (mk_thread (t_todo t) (Stored c) (t_log t))))
    | Stored c => Some (mk_state (s_cfg s) (s_lock s) (s_queue s ++ [c]) (s_render s)
                          (go (mk_thread (t_todo t) (Sent c) (t_log t))))
    | Sent c => Some (mk_state (s_cfg s) None (s_queue s) (s_render s)
                          (go (mk_thread (t_todo t) Idle (t_log t ++ [(c, true)]))))
    end
  end.

(** The render thread handles the next message: render/thread.rs 232-243 *)
Definition render_step (s : state) : option state :=
  match s_queue s with
  | [] => None
  | c :: q => Some (mk_state (s_cfg s) (s_lock s) q (assign c (s_render s)) (s_threads s))
  end.

Inductive actor := Thread (i : nat) | Renderer.

Definition step (k : kind) (s : state) (a : actor) : option state :=
  match a with Thread i => thread_step k s i | Renderer => render_step s end.

(** A schedule; an actor that cannot move is passed over *)
Fixpoint run (k : kind) (s : state) (l : list actor) : state :=
  match l with
  | [] => s
  | a :: l' => run k (match step k s a with Some s' => s' | None => s end) l'
  end.

(** After the constructor: the render thread's copy comes with the RegisterNode
    message (context/concrete_base.rs 249-257), sent before the node is handed
    to the program. *)
Definition start (g : channel_config) (programs : list (list call)) : state :=
  mk_state g None [] g (map (fun p => mk_thread p Idle []) programs).
