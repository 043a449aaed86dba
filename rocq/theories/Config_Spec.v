(** The channel constraints of the Web Audio API
    (https://webaudio.github.io/web-audio-api/#audionode-channelcount-constraints,
    #audionode-channelcountmode-constraints,
    #audionode-channelinterpretation-constraints). *)
From Coq Require Import List Arith.
From Verif Require Import Quantum_Model Config_Model.
Import ListNotations.

Definition allowed (k : kind) (g : channel_config) : Prop :=
  1 <= cc_count g <= 32 /\
  match k with
  | Plain => True
  | AtMostTwo => cc_count g <= 2 /\ cc_mode g <> Max
  | Merger _ => cc_count g = 1 /\ cc_mode g = Explicit
  | Splitter outputs => cc_count g = outputs /\ cc_mode g = Explicit /\ cc_interp g = Discrete
  | Script inputs _ => cc_count g = Nat.max 1 inputs /\ cc_mode g = Explicit
  | Destination true max => cc_count g = max /\ cc_mode g = Explicit
  | Destination false max => cc_count g <= max
  | Fixed => cc_count g = 1 /\ cc_mode g = Explicit /\ cc_interp g = Discrete
  end.

(** The calls of a log that returned normally. *)
Definition accepted (log : list (call * bool)) : list call :=
  map fst (filter snd log).

(** [l] is a list of calls labelled with the thread that made them; what thread
    [i] contributed to it *)
Definition part (i : nat) (l : list (nat * call)) : list call :=
  map snd (filter (fun x => Nat.eqb (fst x) i) l).

(** carrying out calls one after the other *)
Definition carried_out (calls : list call) (g : channel_config) : channel_config :=
  fold_left (fun g c => assign c g) calls g.

(** all threads have finished *)
Definition finished (s : state) : Prop :=
  forall t, In t (s_threads s) -> t_todo t = [] /\ t_pc t = Idle.
