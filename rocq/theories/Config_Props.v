(** C64: the channel attributes of a node *)
From Coq Require Import List Arith Lia Bool.
From Verif Require Import Quantum_Model Config_Model Config_Spec Config_Proofs.
Import ListNotations.

(** For every node, every options its constructor accepts, every number of
    threads calling the setters with any arguments, and every schedule: the
    attributes the program reads and those the render thread uses obey the
    constraints of the node, at every moment. *)
Theorem C64_always_allowed : forall k o g0 progs acts, construct k o = Some g0 ->
  let s := run k (start g0 progs) acts in allowed k (s_cfg s) /\ allowed k (s_render s).
Proof. exact always_allowed. Qed.
Print Assumptions C64_always_allowed.

(** A call returns normally exactly when the value it sets is allowed for the
    node (setters of an AudioParam and of the AudioListener always panic). *)
Theorem C64_rejects_exactly_the_forbidden : forall k o g0 progs acts i t c b, construct k o = Some g0 ->
  nth_error (s_threads (run k (start g0 progs) acts)) i = Some t ->
  In (c, b) (t_log t) -> (b = true <-> k <> Fixed /\ allowed k (assign c g0)).
Proof. exact verdicts. Qed.
Print Assumptions C64_rejects_exactly_the_forbidden.

(** The calls take effect one at a time: when all threads have finished, the
    attributes are those after the accepted calls, each carried out once, in
    one order that keeps the order of every thread; the rejected calls had no
    effect. *)
Theorem C64_one_order : forall k o g0 progs acts, construct k o = Some g0 ->
  let s := run k (start g0 progs) acts in finished s ->
  exists l, s_cfg s = carried_out (map snd l) g0 /\
    (forall i c, In (i, c) l -> i < length progs) /\
    forall i p, nth_error progs i = Some p -> exists t, nth_error (s_threads s) i = Some t /\
      map fst (t_log t) = p /\ part i l = accepted (t_log t).
Proof. exact one_order. Qed.
Print Assumptions C64_one_order.

(** Once the render thread has handled the messages sent so far, and no setter
    holds the lock, it uses exactly the attributes the program sees; in
    particular when all threads have finished. *)
Theorem C64_render_thread_agrees : forall k o g0 progs acts, construct k o = Some g0 ->
  let s := run k (start g0 progs) acts in s_queue s = [] -> (s_lock s = None \/ finished s) -> s_render s = s_cfg s.
Proof.
  intros k o g0 progs acts C s Q [L|F].
  - exact (in_step k o g0 progs acts C Q L).
  - exact (in_step k o g0 progs acts C Q (finished_free k o g0 progs acts C F)).
Qed.
Print Assumptions C64_render_thread_agrees.

(** No schedule leads to a deadlock: unless all threads have finished, one of
    them can go on. *)
Theorem C64_no_deadlock : forall k o g0 progs acts, construct k o = Some g0 ->
  let s := run k (start g0 progs) acts in
  finished s \/ exists i s', step k s (Thread i) = Some s'.
Proof. exact not_stuck. Qed.
Print Assumptions C64_no_deadlock.

(** What the processors rely on: whatever is connected to an input and whatever
    the program did to the attributes, mixing never fails, and the processors of
    ConvolverNode, DynamicsCompressorNode, PannerNode and StereoPannerNode never
    see more than two channels, a ChannelMergerNode sees mono inputs, a
    ChannelSplitterNode as many channels as it has outputs, and a
    ScriptProcessorNode and the destination of an offline context the number
    they were created with. *)
Theorem C64_inputs_of_processors :
  forall V (O : sops V) size k o g0 progs acts s0 qs, construct k o = Some g0 ->
  Forall (fun q : list (chan V) => 1 <= length q <= 32) qs ->
  exists s' q, add_all O size s0 [silence_chan O size] qs (s_render (run k (start g0 progs) acts)) = Some (s', q) /\
    1 <= length q <= 32 /\
    (qs <> [] -> match k with
     | AtMostTwo => length q <= 2
     | Merger _ | Fixed => length q = 1
     | Splitter outputs => length q = outputs
     | Script inputs _ => length q = Nat.max 1 inputs
     | Destination true max => length q = max
     | Plain | Destination false _ => True
     end) /\
    (qs = [] -> length q = 1).
Proof.
  intros V O size k o g0 progs acts s0 qs C F. apply inputs_ok; [|exact F]. exact (proj2 (always_allowed k o g0 progs acts C)).
Qed.
Print Assumptions C64_inputs_of_processors.

(** Two threads use a PannerNode: three calls are refused, the others race; the
    message of the second thread is sent while the first waits for the lock. *)
Definition pan0 := mk_config 2 ClampedMax Speakers.
Definition race : list (list call) :=
  [[SetCount 1; SetCount 3; SetMode Explicit]; [SetMode Max; SetInterp Discrete; SetCount 2; SetCount 0]].
Definition race_schedule : list actor :=
  map Thread [0; 1; 1; 1; 0; 1; 1; 0; 1; 0; 1; 0] ++ [Renderer] ++
  map Thread [0; 0; 1; 0; 0; 1; 1; 1; 1; 1; 0; 0; 0; 0; 0; 0; 0] ++ repeat Renderer 5.
Example C64_example :
  construct AtMostTwo pan0 = Some pan0 /\
  let s := run AtMostTwo (start pan0 race) race_schedule in
  finished s /\ s_queue s = [] /\ s_cfg s = mk_config 2 Explicit Discrete /\
  s_render s = mk_config 2 Explicit Discrete /\
  map (fun t => map snd (t_log t)) (s_threads s) = [[true; false; true]; [false; true; true; false]] /\
  s_render (run AtMostTwo (start pan0 race) (firstn 16 race_schedule)) <> s_cfg (run AtMostTwo (start pan0 race) (firstn 16 race_schedule)).
Proof.
  vm_compute. repeat split; try reflexivity; try discriminate.
  all: intros; repeat match goal with H : _ \/ _ |- _ => destruct H as [<-|H] | H : False |- _ => destruct H end; reflexivity.
Qed.

(** options that the constructors refuse *)
Example C64_refused_options :
  construct AtMostTwo (mk_config 3 Explicit Speakers) = None /\ construct AtMostTwo (mk_config 2 Max Speakers) = None /\
  construct (Merger 6) (mk_config 2 Explicit Speakers) = None /\ construct (Splitter 4) (mk_config 3 Explicit Discrete) = None /\
  construct (Splitter 4) (mk_config 6 Explicit Discrete) = Some (mk_config 4 Explicit Discrete) /\
  construct (Script 0 0) pan0 = None /\ construct (Script 0 2) pan0 = Some (mk_config 1 Explicit Speakers) /\
  construct Plain (mk_config 33 Max Speakers) = None.
Proof. repeat split. Qed.
