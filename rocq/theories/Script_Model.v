(** Model of the ScriptProcessorNode.

    Source: /repo/src/node/script_processor.rs 78-131, 177-275.

    A quantum is a list of channels, and a channel a list of samples (the names of the buffers, Quantum_Model.v,
    are left out).  The capacity of the vector of inputs is taken to be what was asked for (Vec::with_capacity). *)
From Coq Require Import List Arith Bool ZArith.
From Verif Require Export Common_Model.
From Verif Require Import Arith_Model Analyser_Model.
Import ListNotations.

(** lib.rs 185-192 *)
Definition valid_channels (n : nat) : bool := (0 <? n) && (n <=? 32).

Section Script.
Context {T V : Type}.
Variable A : arith T V.
Variable size : nat.     (* RENDER_QUANTUM_SIZE *)
Definition block : Type := list (list V).

(** 84-103: the size of the buffer and the number of output channels *)
Record script_config := mk_script_config { k_buffer_size : nat; k_quanta : nat; k_outputs : nat }.
Definition script_create (buffer_size inputs outputs : nat) : res script_config :=
  let buffer_size := if buffer_size =? 0 then 256 else buffer_size in
  do _ <- check (is_power_of_two (buffer_size / 256) && (buffer_size <=? Z.to_nat 16384));
  do _ <- match inputs, outputs with
          | 0, 0 => Panic
          | 0, c | c, 0 => check (valid_channels c)
          | c, d => do _ <- check (valid_channels c); check (valid_channels d)
          end;
  Ok (mk_script_config buffer_size (buffer_size / size) outputs).

(** 177-183 *)
Record script := mk_script { x_input : list block; x_output : list block; x_next : list block }.
Definition script_new : script := mk_script [] [] [].
Definition silent_channel : list V := repeat (v_zero A) size.

(** 223-228: one quantum is copied to its place in the samples *)
Fixpoint copy_channels (offset : nat) (b : block) (samples : list (list V)) : res (list (list V)) :=
  match b, samples with
  | c :: b', o :: samples' =>
      do o' <- copy_to_slice o offset (offset + size) c;
      do r <- copy_channels offset b' samples'; Ok (o' :: r)
  | _, _ => Ok samples
  end.
(** 221-229; [i] is the number of the quantum *)
Fixpoint fill_samples (i : nat) (bs : list block) (samples : list (list V)) : res (list (list V)) :=
  match bs with
  | [] => Ok samples
  | b :: bs' => do samples <- copy_channels (size * i) b samples; fill_samples (S i) bs' samples
  end.
(** the event of lines 236-239: the input and the time *)
Definition script_event : Type := list (list V) * T.
(** buffer.rs 107-120: AudioBuffer::from, with a valid sample rate *)
Definition buffer_from (samples : list (list V)) : res (list (list V)) :=
  do _ <- check (valid_channels (length samples));
  do _ <- check (forallb (fun c => length c =? length (hd [] samples)) samples);
  Ok samples.
(** 192-255 *)
Definition script_quantum (k : script_config) (now rate : T) (x : script) (input : block) : res (script * block * option script_event) :=
  let silence : block := [silent_channel] in
  let '(output, rest) := match x_output x with [] => (silence, []) | q :: l => (q, l) end in
  let inputs := x_input x ++ [input] in
  if length inputs =? k_quanta k then
    let channels := fold_right max 0 (map (@length (list V)) inputs) in
    do samples <- fill_samples 0 inputs (repeat (repeat (v_zero A) (k_buffer_size k)) channels);
    do input_buffer <- buffer_from samples;
    do _ <- buffer_from (repeat (repeat (v_zero A) (k_buffer_size k)) (k_outputs k));
    let playback_time := t_add A now (t_div A (t_of_Z A (Z.of_nat (k_buffer_size k))) rate) in
    do _ <- check (valid_channels (k_outputs k));
    Ok (mk_script [] (x_next x) (repeat (repeat silent_channel (k_outputs k)) (k_quanta k)), output, Some (input_buffer, playback_time))
  else Ok (mk_script inputs rest (x_next x), output, None).

(** 260-263: chunks of channel [c] are copied to channel [i] of the quanta *)
Fixpoint write_next (i : nat) (c : list V) (next : list block) : res (list block) :=
  match next, c with
  | o :: next', _ :: _ =>
      do ch <- index o i;
      do ch <- copy_to_slice ch 0 (length ch) (firstn size c);
      do o <- store o i ch;
      do r <- write_next i (skipn size c) next'; Ok (o :: r)
  | _, _ => Ok next
  end.
(** 257-265: an answer arrives *)
Fixpoint write_channels (i : nat) (cs : list (list V)) (next : list block) : res (list block) :=
  match cs with
  | [] => Ok next
  | c :: cs' => do next <- write_next i c next; write_channels (S i) cs' next
  end.
Definition script_message (x : script) (buffer : list (list V)) : res script :=
  do next <- write_channels 0 buffer (x_next x);
  Ok (mk_script (x_input x) (x_output x) next).

(** one quantum after the other: the answers that arrive before it, the time, the input *)
Fixpoint script_run (k : script_config) (rate : T) (x : script) (calls : list (list (list (list V)) * T * block)) : res (script * list (block * option script_event)) :=
  match calls with
  | [] => Ok (x, [])
  | (answers, now, input) :: calls' =>
      do x <- fold_res script_message x answers;
      do (x, o, e) <- script_quantum k now rate x input;
      do (x, os) <- script_run k rate x calls';
      Ok (x, (o, e) :: os)
  end.
End Script.
Arguments mk_script {V}. Arguments x_input {V}. Arguments x_output {V}. Arguments x_next {V}.
