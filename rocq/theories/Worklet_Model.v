(** Model of the AudioWorkletNode.

    Source: /repo/src/worklet.rs 206-243 (options), 301-321 (construction of the processor), 341-459 (rendering and messages), without
    the feature spec-compliant-worklet-inputs. *)
From Coq Require Import List Arith Bool.
From Verif Require Export Common_Model Quantum_Model.
Import ListNotations.

Section Worklet.
Context {V U O : Type}.   (* samples, the user's processor and its options *)
Notation quantum := (list (chan V)).
(** the samples of a list of inputs or outputs: port, channel, frame *)
Notation ports := (list (list (list V))).

(** The user's code; [None] is a panic. It gets the contents of the output buffers and leaves new contents. *)
Record program := mk_program {
  p_constructor : O -> option U;
  p_process : U -> ports -> ports -> option (U * ports * bool);
  p_onmessage : U -> nat -> option U
}.
Variable P : program.

(** worklet.rs 215-237: the stored channel counts of the outputs *)
Definition worklet_counts (inputs outputs : nat) (counts : list nat) : res (list nat) :=
  do _ <- check (negb (inputs =? 0) || negb (outputs =? 0));
  match counts with
  | [] => Ok (if (inputs =? 1) && (outputs =? 1) then [] else repeat 1 outputs)
  | _ =>
      do _ <- check (forallb (fun c => (0 <? c) && (c <=? max_channels)) counts);
      do _ <- check (length counts =? outputs);
      Ok counts
  end.

(** worklet.rs 301-304 *)
Inductive processor := Uninit (o : O) | Init (u : U).
(** worklet.rs 311-320 *)
Definition load (p : processor) : res U :=
  match p with
  | Uninit o => from_option (p_constructor P o)
  | Init u => Ok u
  end.

(** [split_at] *)
Definition split_at {X} (l : list X) (n : nat) : res (list X * list X) := if n <=? length l then Ok (firstn n l, skipn n l) else Panic.
(** worklet.rs 363-389 and 425-435: [flat] is chopped up into groups of the given lengths *)
Fixpoint chop {X} (flat : list X) (counts : list nat) : res (list (list X)) :=
  match counts with
  | [] => Ok []
  | c :: counts' => do r <- split_at flat c; do g <- chop (snd r) counts'; Ok (fst r :: g)
  end.

(** worklet.rs 391-400: the numbers of channels of the outputs are set *)
Fixpoint set_counts (outputs : list quantum) (counts : list nat) : res (list quantum) :=
  match outputs, counts with
  | o :: outputs', c :: counts' =>
      do o' <- from_option (set_number_of_channels o c); do r <- set_counts outputs' counts'; Ok (o' :: r)
  | _, _ => Ok outputs
  end.
Definition prepare (counts : list nat) (inputs outputs : list quantum) : res (list quantum) :=
  match outputs, counts with
  | o :: outputs', [] =>
      do i <- index inputs 0;
      do o' <- from_option (set_number_of_channels o (length i)); Ok (o' :: outputs')
  | _, _ => set_counts outputs counts
  end.
(** worklet.rs 404-412 *)
Definition effective_counts (counts : list nat) (inputs : list quantum) : list nat :=
  match counts with
  | [] => [match inputs with i :: _ => length i | [] => 0 end]
  | _ => counts
  end.

(** the written samples are in the output buffers, which are named from [s] on (worklet.rs 414-423, alloc.rs deref_mut: every buffer has been made
    the only one of its name) *)
Fixpoint write_channels (s : nat) (q : quantum) (flat : list (list V)) : nat * quantum * list (list V) :=
  match q, flat with
  | _ :: q', v :: flat' => let '(s', r, rest) := write_channels (S s) q' flat' in (s', mk_chan s v :: r, rest)
  | _, _ => (s, q, flat)
  end.
Fixpoint write_outputs (s : nat) (outputs : list quantum) (flat : list (list V)) : list quantum :=
  match outputs with
  | [] => []
  | o :: outputs' => let '(s', o', rest) := write_channels s o flat in o' :: write_outputs s' outputs' rest
  end.

(** worklet.rs 341-455 with the containers empty at the start (they are cleared at 449-452); the result: the processor, the outputs, the tail time *)
Definition worklet_process (counts : list nat) (p : processor) (s : nat) (inputs outputs : list quantum) : res (processor * list quantum * bool) :=
  do u <- load p;
  let inputs_flat := concat (map (map c_val) inputs) in
  do inputs_grouped <- chop inputs_flat (map (@length _) inputs);
  do outputs <- prepare counts inputs outputs;
  let outputs_flat := concat (map (map c_val) outputs) in
  do outputs_grouped <- (match outputs with [] => Ok [] | _ => chop outputs_flat (effective_counts counts inputs) end);
  do r <- from_option (p_process P u inputs_grouped outputs_grouped);
  let '(u', written, tail) := r in
  Ok (Init u', write_outputs s outputs (concat written), tail).

(** worklet.rs 457-459 *)
Definition worklet_message (p : processor) (m : nat) : res processor :=
  do u <- load p; do u' <- from_option (p_onmessage P u m); Ok (Init u').

Inductive event := Quantum (s : nat) (inputs : list quantum) | Message (m : nat).
(** render/graph.rs 479-560: a node keeps its outputs; the outputs of one quantum are the buffers of the next *)
Fixpoint worklet_run (counts : list nat) (p : processor) (outputs : list quantum) (es : list event) : res (processor * list (list quantum)) :=
  match es with
  | [] => Ok (p, [])
  | Quantum s inputs :: es' =>
      do r <- worklet_process counts p s inputs outputs;
      do r' <- worklet_run counts (fst (fst r)) (snd (fst r)) es';
      Ok (fst r', snd (fst r) :: snd r')
  | Message m :: es' => do p' <- worklet_message p m; worklet_run counts p' outputs es'
  end.
End Worklet.
Arguments program : clear implicits. Arguments event : clear implicits. Arguments processor : clear implicits.
