(** Channel mixing according to the Web Audio specification
    (https://www.w3.org/TR/webaudio/#channel-up-mixing-and-down-mixing),
    on frames (one sample per channel) of real numbers. *)
From Coq Require Import List Arith Reals.
From Verif Require Import Quantum_Model.
Import ListNotations.

Open Scope R_scope.

(** The defined speaker layouts: mono, stereo, quad and 5.1, with channel order
    L R C LFE SL SR for 5.1.  One row of coefficients per output channel. *)
Definition speaker_matrix (n m : nat) : option (list (list R)) :=
  let s := sqrt (1/2) in
  match n, m with
  | 1%nat, 2%nat => Some [[1]; [1]]
  | 1%nat, 4%nat => Some [[1]; [1]; [0]; [0]]
  | 1%nat, 6%nat => Some [[0]; [0]; [1]; [0]; [0]; [0]]
  | 2%nat, 4%nat => Some [[1; 0]; [0; 1]; [0; 0]; [0; 0]]
  | 2%nat, 6%nat => Some [[1; 0]; [0; 1]; [0; 0]; [0; 0]; [0; 0]; [0; 0]]
  | 4%nat, 6%nat => Some [[1; 0; 0; 0]; [0; 1; 0; 0]; [0; 0; 0; 0]; [0; 0; 0; 0];
                          [0; 0; 1; 0]; [0; 0; 0; 1]]
  | 2%nat, 1%nat => Some [[1/2; 1/2]]
  | 4%nat, 1%nat => Some [[1/4; 1/4; 1/4; 1/4]]
  | 6%nat, 1%nat => Some [[s; s; 1; 0; 1/2; 1/2]]
  | 4%nat, 2%nat => Some [[1/2; 0; 1/2; 0]; [0; 1/2; 0; 1/2]]
  | 6%nat, 2%nat => Some [[1; 0; s; 0; s; 0]; [0; 1; s; 0; 0; s]]
  | 6%nat, 4%nat => Some [[1; 0; s; 0; 0; 0]; [0; 1; s; 0; 0; 0];
                          [0; 0; 0; 0; 1; 0]; [0; 0; 0; 0; 0; 1]]
  | _, _ => None
  end.

Fixpoint dot (a b : list R) : R :=
  match a, b with x :: a', y :: b' => x * y + dot a' b' | _, _ => 0 end.

(** keep, truncate or fill with zeros *)
Definition discrete_frame (m : nat) (f : list R) : list R :=
  firstn m (f ++ repeat 0 (m - length f)).

(** one frame mixed to [m] channels; layouts that the specification does not
    define are treated as discrete *)
Definition mix_frame (i : interpretation) (m : nat) (f : list R) : list R :=
  if Nat.eqb (length f) m then f else
  match i with
  | Discrete => discrete_frame m f
  | Speakers => match speaker_matrix (length f) m with
                | Some rows => map (fun row => dot row f) rows
                | None => discrete_frame m f
                end
  end.

Fixpoint sum_frames (a b : list R) : list R :=
  match a, b with x :: a', y :: b' => (x + y) :: sum_frames a' b' | _, _ => [] end.

(** sum of a list of [m]-channel frames *)
Definition total_frame (m : nat) (fs : list (list R)) : list R :=
  fold_left sum_frames fs (repeat 0 m).

(** computedNumberOfChannels for connections with the given channel counts *)
Definition computed_channels (cfg : channel_config) (counts : list nat) : nat :=
  let most := fold_right Nat.max 1%nat counts in
  match cc_mode cfg with
  | Max => most
  | ClampedMax => Nat.min most (cc_count cfg)
  | Explicit => cc_count cfg
  end.

(** real-valued samples *)
Definition Rsops : sops R :=
  mk_sops R 0 Rplus Rmult (fun a b c => a * b + c) (1/2) (1/4) (sqrt (1/2)).

(** frame [t] of a quantum *)
Definition frame (q : list (chan R)) (t : nat) : list R :=
  map (fun c => nth t (c_val c) 0) q.

(** A quantum as the render thread can hold it: 1 to 32 channels of [size]
    samples; channels with the same name hold the same samples and the name 0
    is silence ([val] gives the samples of each name; see C10, C11); the names
    are older than [s]. *)
Definition good_quantum (size s : nat) (val : nat -> list R) (q : list (chan R)) : Prop :=
  (1 <= length q <= 32)%nat /\ val 0%nat = repeat 0 size /\ (0 < s)%nat /\
  forall c, In c q -> c_val c = val (c_name c) /\ length (c_val c) = size /\ (c_name c < s)%nat.

(** All channels of the quantum refer to the same buffer. *)
Definition shared (q : list (chan R)) : Prop :=
  forall c d, In c q -> In d q -> c_name c = c_name d.

(** A quantum of identical channels that a single channel can stand for when
    converting to [n] channels: mono; stereo, towards mono, stereo or quad; or
    silence. *)
Definition mono_like (n : nat) (q : list (chan R)) : Prop :=
  length q = 1%nat \/ (length q = 2%nat /\ (n = 1%nat \/ n = 2%nat \/ n = 4%nat)) \/
  (forall c, In c q -> c_name c = 0%nat).

(** Inputs for which connecting one signal after the other gives the sum of the
    individually mixed signals: discrete channels; or at most stereo signals
    when nothing bounds the number of channels; or a mono or stereo node. *)
Definition simple_inputs (cfg : channel_config) (qs : list (list (chan R))) : Prop :=
  cc_interp cfg = Discrete \/
  match cc_mode cfg with
  | Max => forall q, In q qs -> (length q <= 2)%nat
  | _ => (cc_count cfg <= 2)%nat /\
         forall q, In q qs -> (length q <= 2)%nat \/ ~ shared q
  end.
