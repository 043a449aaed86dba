(** An echo: a source, a DelayNode with its output fed back into it through a GainNode, and the destination.

    The render graph of Graph_Model.v with the delay of Delay_Model.v.  The two halves of a DelayNode share memory (an
    Rc<RefCell<..>> of the ring buffer and two Cells); here the graph decides which half runs first.

    Source: /repo/src/node/delay.rs 284-368, 425-486, 503-678, /repo/src/node/gain.rs 143-199, /repo/src/node/destination.rs
    143-162, /repo/src/context/concrete_base.rs 232-270.

    Simplifications: all signals are mono; the values of the two AudioParams are constant and given to the processors directly,
    so that there are no nodes for AudioParams; the source is any processor with a fixed output. *)
From Coq Require Import List Arith Bool ZArith.
From Verif Require Import Common_Model Arith_Model Source_Model Delay_Model Graph_Model Graph_TraceModel.
Import ListNotations.

Section Echo.
Context {T V : Type}.
Variable A : arith T V.
Variable sr : V.                                            (* sample rate of the context *)
Variable remix : nat -> list (list V) -> list (list V).

(** What a node leaves at its output: the quantum, and, for the halves of a delay, the shared memory as they left it, with
    the number of accesses so far (delay.rs 302-317; the model's way to share memory between two nodes). *)
Record wire := mk_wire { w_samples : list V; w_shared : option (nat * @delay V) }.
Definition quiet : list V := repeat (v_zero A) RQ.

Inductive eproc :=
| E_destination
| E_source (todo : list (list V))                           (* the quanta to come; then silence *)
| E_gain (gain : V)
| E_writer (reader : nat) (capacity : nat)                  (* the other half, the size of the ring *)
| E_reader (writer : nat) (capacity : nat) (delay : V).     (* the other half, the size of the ring, the delay time *)

(** The shared memory as the last half left it *)
Definition newest (capacity : nat) (mine : wire) (other : option (list wire)) : nat * @delay V :=
  match w_shared mine, (match other with Some (w :: _) => w_shared w | _ => None end) with
  | Some x, Some y => if fst y <? fst x then x else y
  | Some x, None => x
  | None, Some y => y
  | None, None => (0, delay_new capacity)
  end.

(** gain.rs 143-199 for a constant gain.  A silent input gives a silent output, as the multiplication does. *)
Definition gain_samples (g : V) (l : list V) : list V :=
  if v_le A (v_abs A g) (v_frac A 1 1000000) then quiet
  else if v_le A (v_abs A (v_sub A (v_one A) g)) (v_frac A 1 1000000) then l
  else map (fun x => v_mul A x g) l.

(** The return value of [process] is the tail time.  inputs[0] and outputs[0] panic if there are none. *)
Definition echo_process (p : eproc) (ins outs : list wire) (view : nat -> option (list wire)) (frame : nat) : option (eproc * list wire * bool) :=
  match p, ins, outs with
  | E_destination, i :: _, _ :: outs' => Some (p, i :: outs', true)
  | E_source todo, _, _ :: outs' => Some (E_source (tl todo), mk_wire (hd quiet todo) None :: outs', true)
  | E_gain g, i :: _, _ :: outs' => Some (p, mk_wire (gain_samples g (w_samples i)) None :: outs', false)
  | E_writer r cap, i :: _, o :: outs' =>                     (* delay.rs 425-461 *)
      let '(n, d) := newest cap o (view r) in
      match writer A remix d [w_samples i] (Z.of_nat frame) with
      | Ok d' => Some (p, mk_wire quiet (Some (S n, d')) :: outs', false)
      | _ => None
      end
  | E_reader w cap time, _, o :: outs' =>                     (* delay.rs 503-678 *)
      let '(n, d) := newest cap o (view w) in
      match reader A sr d [time] (Z.of_nat frame) with
      | Ok (d', (b, alive)) => Some (p, mk_wire (hd quiet b) (Some (S n, d')) :: outs', alive)
      | _ => None
      end
  | _, _, _ => None
  end.

(** quantum.rs 532-569 for mono quanta; graph.rs 153-160 *)
Definition wire_add (a b : wire) (_ : unit) : wire := mk_wire (map (fun p => v_add A (fst p) (snd p)) (combine (w_samples a) (w_samples b))) None.
Definition echo_env : env eproc wire unit :=
  mk_env _ _ _ (mk_wire quiet None) wire_add echo_process
    (fun p => match p with E_destination | E_writer _ _ | E_reader _ _ _ => true | _ => false end).

(** quantum.rs 494-498: the samples; a channel has the type [f32; 128] *)
Definition wire_channels (q : wire) : list (list V) := [firstn RQ (w_samples q ++ repeat (v_zero A) (RQ - length (w_samples q)))].

(** What the control side sends when a program creates a source (node 1), a DelayNode (2: writer, 3: reader, delay.rs 319-365)
    and a GainNode (4), connects the source to the destination (0) and to the delay, the delay to the gain, the gain back to
    the delay, and the delay to the destination. *)
Definition echo_program (source : list (list V)) (capacity : nat) (time gain : V) : list (gop eproc unit) :=
  [OpAdd 0 E_destination 1 1 tt; OpAdd 1 (E_source source) 0 1 tt;
   OpAdd 3 (E_reader 2 capacity time) 1 1 tt; OpAdd 2 (E_writer 3 capacity) 1 1 tt; OpBreaker 2; OpConnect 2 0 3 (Some 0);
   OpAdd 4 (E_gain gain) 1 1 tt;
   OpConnect 1 0 0 (Some 0); OpConnect 1 0 2 (Some 0); OpConnect 3 0 4 (Some 0); OpConnect 4 0 2 (Some 0); OpConnect 3 0 0 (Some 0)].
End Echo.
