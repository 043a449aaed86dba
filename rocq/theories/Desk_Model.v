(** A render graph with real processors: ConstantSourceNodes, GainNodes, their AudioParams and the destination.

    Here the environment [env] of Graph_Model.v is instantiated with the node models of Source_Model.v, Route_Model.v and
    Param_Model.v and with the quanta of Quantum_Model.v, and the messages are those that the control side sends when a program
    creates and connects such nodes.

    Source: /repo/src/node/destination.rs 143-162, constant_source.rs 140-279, gain.rs 95-199, /repo/src/param.rs 660-795,
    1603-1654, /repo/src/render/processor.rs 187-229, /repo/src/context/concrete_base.rs 232-300, 426-475,
    /repo/src/node/scheduled_source.rs. *)
From Coq Require Import List Arith Bool ZArith.
From Verif Require Import Common_Model Arith_Model Quantum_Model Route_Model Route_Spec Source_Model Graph_Model Graph_TraceModel.
From Verif Require Param_Model.
Import ListNotations.

(** quantum.rs 178-184: the channels, and the flag single_valued (used by AudioParams only) *)
Record signal (V : Type) := mk_signal { q_chans : list (chan V); q_single : bool }.
Arguments mk_signal {V}. Arguments q_chans {V}. Arguments q_single {V}.

Section Desk.
Context {T V : Type}.
Variable A : arith T V.
Variable PO : @Param_Model.param_ops T V.    (* the operations of the AudioParam model on the same numbers *)
Variable sr : V.                            (* sample rate of the context *)
Notation O := (sops_of A).
Notation param := (@Param_Model.param T V).

(** ** Quanta *)

(** Names of buffers matter within a quantum only (and 0 is silence): buffers that are written get a name that does
    not occur in the quantum. *)
Definition max_name (q : list (chan V)) : nat := fold_right Nat.max 0 (map c_name q).
(** The buffers of a second quantum get other names than those of the first, but for silence.  Simplification: a buffer that both
    quanta share counts as two.  This has no effect on the values here, because all quanta have one channel until they reach the
    destination, which adds them in the same channels. *)
Definition apart (k : nat) (q : list (chan V)) : list (chan V) :=
  map (fun c => if Nat.eqb (c_name c) 0 then c else mk_chan (k + c_name c) (c_val c)) q.

(** graph.rs 153-160, quantum.rs 187-195 *)
Definition silent_signal : signal V := mk_signal [silence_chan O RQ] false.
(** quantum.rs 532-569.  A quantum without channels, which does not exist, stands for a panic. *)
Definition signal_add (a b : signal V) (cfg : channel_config) : signal V :=
  let k := max_name (q_chans a) in
  let b' := apart k (q_chans b) in
  match add O RQ (S (k + max_name b')) (q_chans a) b' cfg with
  | Some (_, c) => mk_signal c (q_single a)
  | None => mk_signal [] (q_single a)
  end.

(** quantum.rs 494-498: the samples; a channel has the type [f32; 128].  A quantum without channels, which does not exist, counts
    as silence. *)
Definition samples (q : signal V) : list (list V) :=
  match q_chans q with
  | [] => [repeat (v_zero A) RQ]
  | cs => map (fun c => firstn RQ (c_val c ++ repeat (v_zero A) (RQ - length (c_val c)))) cs
  end.

(** ** Processors *)
Inductive proc :=
| P_destination
| P_constant (s : @csource T) (offset : nat)    (* state, identifier of the AudioParam *)
| P_gain (gain : nat)
| P_param (p : param).

(** processor.rs 187-229 and graph.rs 75-78: the values of an AudioParam; [None]: no such node, or it has no buffer *)
Definition param_values (view : nat -> option (list (signal V))) (id : nat) : option (list V) :=
  match view id with
  | Some (q :: _) => match q_chans q with
                     | c :: _ => Some (if q_single q then firstn 1 (c_val c) else c_val c)
                     | [] => None
                     end
  | _ => None
  end.

(** constant_source.rs 190-270; line 219 (force_mono) and line 222 *)
Definition run_constant (s : @csource T) (frame : nat) (output : signal V) (offset : option (list V)) : option (@csource T * signal V * bool) :=
  if t_le A (next_block_time A sr (Z.of_nat frame)) (cs_start s) then
    let '(s', o) := cs_process A sr s (Z.of_nat frame) [] in
    match make_silent O RQ (q_chans output) with
    | Some c => Some (s', mk_signal c (q_single output), o_tail o)
    | None => None
    end
  else
    match force_mono (q_chans output), offset with
    | _ :: _, Some values =>
        let '(s', o) := cs_process A sr s (Z.of_nat frame) values in
        Some (s', mk_signal [mk_chan 1 (o_output o)] (q_single output), o_tail o)
    | _, _ => None
    end.

(** gain.rs 143-199; a silent input is not multiplied and the parameter not read.  The output is a clone of the input (with
    its flag) unless it is made silent. *)
Definition run_gain (input output : signal V) (gain : option (list V)) : option (signal V) :=
  if is_silent (q_chans input) then option_map (fun c => mk_signal c (q_single output)) (make_silent O RQ (q_chans output))
  else
    match gain with
    | None => None
    | Some values =>
        match gain_quantum A O RQ 1 (q_chans input) (q_chans output) values with
        | Ok c => Some (mk_signal c (match values with
                                     | [g] => if v_le A (v_abs A g) (v_frac A 1 1000000) then q_single output else q_single input
                                     | _ => q_single input
                                     end))
        | _ => None
        end
    end.

(** param.rs 746-795: a single value is written into the first sample of the old output, other values into a clone of the input *)
Definition param_output (output : signal V) (values : list V) : option (signal V) :=
  match values with
  | [v] => match q_chans output with
           | c :: cs => Some (mk_signal (mk_chan (S (max_name (q_chans output))) (v :: tl (c_val c)) :: cs) true)
           | [] => None
           end
  | _ => Some (mk_signal [mk_chan 1 values] false)
  end.
(** param.rs 666-685 *)
Definition run_param (p : param) (frame : nat) (input output : signal V) : option (param * signal V) :=
  match q_chans input with
  | [] => None
  | c :: _ =>
      match Param_Model.process PO RQ p (block_time A sr (Z.of_nat frame)) (dt A sr) (c_val c) (is_silent (q_chans input)) with
      | Ok (p', values) => option_map (fun q => (p', q)) (param_output output values)
      | _ => None
      end
  end.

(** The return value is the tail time.  inputs[0] and outputs[0] panic if there are none. *)
Definition desk_process (p : proc) (ins outs : list (signal V)) (view : nat -> option (list (signal V))) (frame : nat)
  : option (proc * list (signal V) * bool) :=
  match p, ins, outs with
  | P_destination, i :: _, _ :: outs' => Some (p, i :: outs', true)                        (* destination.rs 143-158 *)
  | P_constant s id, _, o :: outs' =>
      option_map (fun r => (P_constant (fst (fst r)) id, snd (fst r) :: outs', snd r)) (run_constant s frame o (param_values view id))
  | P_gain id, i :: _, o :: outs' => option_map (fun q => (p, q :: outs', false)) (run_gain i o (param_values view id))
  | P_param s, i :: _, o :: outs' => option_map (fun r => (P_param (fst r), snd r :: outs', true)) (run_param s frame i o)
  | _, _, _ => None
  end.

(** destination.rs 160-162 *)
Definition desk_env : env proc (signal V) channel_config :=
  mk_env _ _ _ silent_signal signal_add desk_process (fun p => match p with P_destination => true | _ => false end).

(** ** Messages to processors *)

(** constant_source.rs 272-279 *)
Definition on_start (when : T) (p : proc) : option proc :=
  match p with P_constant s id => Some (P_constant (mk_csource when (cs_stop s) (cs_ended s)) id) | _ => Some p end.
Definition on_stop (when : T) (p : proc) : option proc :=
  match p with P_constant s id => Some (P_constant (mk_csource (cs_start s) when (cs_ended s)) id) | _ => Some p end.
(** param.rs 687-714; handling an event may panic *)
Definition on_event (e : @Param_Model.event T V) (p : proc) : option proc :=
  match p with
  | P_param q => match Param_Model.handle_incoming_event PO q e with Ok q' => Some (P_param q') | _ => None end
  | _ => Some p
  end.

(** ** A program *)

(** param.rs 256-276: the input of an AudioParam *)
Definition param_config : channel_config := mk_config 1 Explicit Discrete.
(** audio_node.rs, AudioNodeOptions::default *)
Definition node_config : channel_config := mk_config 2 Max Speakers.
(** destination.rs 101-112 *)
Definition destination_config (n : nat) : channel_config := mk_config n Explicit Speakers.

(** A source with its own volume: the options of the nodes (offset and gain), automation calls for both, and when it starts
    and stops.  [f32::MIN] and [f32::MAX] are the range of both parameters (constant_source.rs 146-152, gain.rs 103-109). *)
Record voice := mk_voice {
  v_offset : V;
  v_offset_calls : list (@Param_Model.call T V);
  v_gain : V;
  v_gain_calls : list (@Param_Model.call T V);
  v_start : T;
  v_stop : option T
}.
Definition fresh_param : param := Param_Model.new_param true (v_one A) (v_neg A (v_MAX A)) (v_MAX A).

(** param.rs 395-640: a call that panics in the caller sends nothing *)
Definition automation (id : nat) (calls : list (@Param_Model.call T V)) : list (gop proc channel_config) :=
  flat_map (fun c => match Param_Model.call_event PO c with Some e => [OpMessage id (on_event e)] | None => [] end) calls.

(** The identifiers 1 to 10 belong to the AudioListener (context/mod.rs), whose nodes are left out.  A node gets its identifier before its
    AudioParams (concrete_base.rs 239-246), but the AudioParams are registered first; the connection of an
    AudioParam waits until the node is registered (concrete_base.rs 266, 461-470).  The value of the options is set before
    the node is registered (constant_source.rs 154, gain.rs 112). *)
Definition source_id (i : nat) : nat := 11 + 4 * i.
Definition offset_id (i : nat) : nat := 12 + 4 * i.
Definition gain_id (i : nat) : nat := 13 + 4 * i.
Definition level_id (i : nat) : nat := 14 + 4 * i.

Definition voice_messages (i : nat) (v : voice) : list (gop proc channel_config) :=
  [OpAdd (offset_id i) (P_param fresh_param) 1 1 param_config]
  ++ automation (offset_id i) [Param_Model.C_set_value (v_offset v)] ++
  [OpAdd (source_id i) (P_constant (cs_new A) (offset_id i)) 0 1 node_config;
   OpConnect (offset_id i) 0 (source_id i) None;
   OpAdd (level_id i) (P_param fresh_param) 1 1 param_config]
  ++ automation (level_id i) [Param_Model.C_set_value (v_gain v)] ++
  [OpAdd (gain_id i) (P_gain (level_id i)) 1 1 node_config;
   OpConnect (level_id i) 0 (gain_id i) None;
   OpConnect (source_id i) 0 (gain_id i) (Some 0);
   OpConnect (gain_id i) 0 0 (Some 0)]
  ++ automation (offset_id i) (v_offset_calls v) ++ automation (level_id i) (v_gain_calls v)
  ++ OpMessage (source_id i) (on_start (v_start v))
  :: match v_stop v with Some t => [OpMessage (source_id i) (on_stop t)] | None => [] end.

Fixpoint voices_messages (i : nat) (l : list voice) : list (gop proc channel_config) :=
  match l with
  | [] => []
  | v :: l' => voice_messages i v ++ voices_messages (S i) l'
  end.

(** concrete_base.rs 158-170: the destination is registered first *)
Definition desk (n : nat) (l : list voice) : list (gop proc channel_config) :=
  OpAdd 0 P_destination 1 1 (destination_config n) :: voices_messages 0 l.
End Desk.
Arguments proc : clear implicits.
Arguments voice : clear implicits.
