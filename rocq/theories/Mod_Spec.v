(** What a tremolo plays. *)
From Coq Require Import List ZArith Reals.
From Verif Require Import Arith_Model Arith_Real Param_EnvelopeSpec Desk_RealSpec.
Local Open Scope R_scope.

(** An automated parameter with the signal [m] connected to it, at frame [f]: the sum, limited to the range of the parameter *)
Definition modulated (sr x : R) (plan : list sev) (m : R) (f : Z) : R :=
  clamped (- v_MAX exact) (v_MAX exact) (curve (/ sr) 128 (Hold 0 x) plan f + m).
(** The carrier times its gain, to which the modulator, times the depth of the modulation, is added *)
Definition tremolo_at (sr : R) (carrier modulator : part) (f : Z) : R :=
  source_at sr carrier f * modulated sr (pt_gain carrier) (pt_gain_plan carrier) (source_at sr modulator f * gain_at sr modulator f) f.
