(** Modulation: the output of a node connected to an AudioParam.

    A tremolo: a source played through a gain ([voice] of Desk_Model.v), with a second source that goes through its own gain (the
    depth) into the AudioParam of the first gain.

    Source: /repo/src/node/audio_node.rs 225-270 (connect: an AudioParam is an AudioNode with one input), /repo/src/param.rs 200-256,
    666-795; the processors and messages of Desk_Model.v. *)
From Coq Require Import List Arith Bool ZArith.
From Verif Require Import Common_Model Arith_Model Quantum_Model Route_Model Source_Model Graph_Model Graph_TraceModel Desk_Model.
From Verif Require Param_Model.
Import ListNotations.

Section Mod.
Context {T V : Type}.
Variable A : arith T V.
Variable PO : @Param_Model.param_ops T V.

(** As [voice_messages] for the second voice, but its gain is connected to the gain parameter of the first one *)
Definition modulator_messages (v : voice T V) : list (gop (proc T V) channel_config) :=
  [OpAdd (offset_id 1) (P_param (fresh_param A)) 1 1 param_config]
  ++ automation PO (offset_id 1) [Param_Model.C_set_value (v_offset v)] ++
  [OpAdd (source_id 1) (P_constant (cs_new A) (offset_id 1)) 0 1 node_config;
   OpConnect (offset_id 1) 0 (source_id 1) None;
   OpAdd (level_id 1) (P_param (fresh_param A)) 1 1 param_config]
  ++ automation PO (level_id 1) [Param_Model.C_set_value (v_gain v)] ++
  [OpAdd (gain_id 1) (P_gain (level_id 1)) 1 1 node_config;
   OpConnect (level_id 1) 0 (gain_id 1) None;
   OpConnect (source_id 1) 0 (gain_id 1) (Some 0);
   OpConnect (gain_id 1) 0 (level_id 0) (Some 0)]
  ++ automation PO (offset_id 1) (v_offset_calls v) ++ automation PO (level_id 1) (v_gain_calls v)
  ++ OpMessage (source_id 1) (on_start (v_start v))
  :: match v_stop v with Some t => [OpMessage (source_id 1) (on_stop t)] | None => [] end.

Definition tremolo (n : nat) (carrier modulator : voice T V) : list (gop (proc T V) channel_config) :=
  desk A PO n [carrier] ++ modulator_messages modulator.
End Mod.
