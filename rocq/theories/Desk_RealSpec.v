(** What a mixing desk plays, in real numbers, from the automation curve of the specification (Param_EnvelopeSpec.v). *)
From Coq Require Import List Arith Bool ZArith Reals.
From Verif Require Import Arith_Model Arith_Real Param_EnvelopeSpec Source_Spec Desk_Model.
Import ListNotations.
Local Open Scope R_scope.

(** A constant source with an offset, played through a gain, both automated; started at a time and maybe stopped *)
Record part := mk_part {
  pt_offset : R; pt_offset_plan : list sev;
  pt_gain : R; pt_gain_plan : list sev;
  pt_start : R; pt_stop : option R
}.
(** the calls of a program *)
Definition part_calls (p : part) : voice R R :=
  mk_voice (pt_offset p) (map call_of (pt_offset_plan p)) (pt_gain p) (map call_of (pt_gain_plan p)) (pt_start p) (pt_stop p).

Section Parts.
Variable sr : R.

(** the automation is one that the specification settles, see Param_EnvelopeSpec.v; parameters have the default value 1 *)
Definition plan_legal (x : R) (plan : list sev) : Prop := plans_ok (/ sr) 128 1 0 [] (Set_value x :: map Plan plan).
Definition part_legal (p : part) : Prop := plan_legal (pt_offset p) (pt_offset_plan p) /\ plan_legal (pt_gain p) (pt_gain_plan p).

(** an automated parameter at frame [f]; its range is that of the finite f32 *)
Definition automated (x : R) (plan : list sev) (f : Z) : R :=
  clamped (- v_MAX exact) (v_MAX exact) (curve (/ sr) 128 (Hold 0 x) plan f).
(** the source, between start and stop *)
Definition source_at (p : part) (f : Z) : R :=
  if Source_Spec.in_time sr (Some (pt_start p)) (pt_stop p) f then automated (pt_offset p) (pt_offset_plan p) f else 0.
Definition gain_at (p : part) (f : Z) : R := automated (pt_gain p) (pt_gain_plan p) f.
Definition total (l : list R) : R := fold_right Rplus 0 l.

(** the mix *)
Definition mix_at (l : list part) (f : Z) : R := total (map (fun p => source_at p f * gain_at p f) l).
End Parts.
