(** What is claimed about audio devices, without the code's loops. *)
From Coq Require Import List Arith Bool ZArith String Reals.
From Flocq Require BinarySingleNaN Core.Raux.
From Verif Require Import Common_Model Float_Model Buffer_Model Device_Model.
Import ListNotations.
Open Scope Z_scope.

(** ** Devices and their ids *)
(** what an id is made from: kind, name and number of channels *)
Definition model := (kind * string * Z)%type.
Definition model_of (k : kind) (d : device) : option model :=
  match default_of k d, d_name d with Some c, Some name => Some (k, name, f_channels c) | _, _ => None end.
(** the devices that can be used at all: those that have a default configuration *)
Definition usable (k : kind) (ds : list device) : list (kind * device) :=
  map (pair k) (filter (fun d => match default_of k d with Some _ => true | None => false end) ds).
Definition devices (h : host) : list (kind * device) :=
  usable AudioInput (match h_in h with Some ds => ds | None => [] end)
  ++ usable AudioOutput (match h_out h with Some ds => ds | None => [] end).
Definition model_eqb (a b : model) : bool :=
  let '(k, n, c) := a in let '(k', n', c') := b in kind_eqb k k' && String.eqb n n' && (c =? c').
(** how many of the devices are of the model [w] *)
Definition count (w : model) (l : list (kind * device)) : nat :=
  List.length (filter (fun kd => match model_of (fst kd) (snd kd) with Some w' => model_eqb w w' | None => false end) l).
(** No two ids that can come up are the same by accident: different models or
    different numbers give different hashes. *)
Definition tells_apart (hash : kind -> string -> Z -> Z -> Z) (h : host) : Prop :=
  forall k d k' d' w w' i i',
    In (k, d) (devices h) -> In (k', d') (devices h) -> model_of k d = Some w -> model_of k' d' = Some w' ->
    0 <= i <= 255 -> 0 <= i' <= 255 ->
    hash (fst (fst w)) (snd (fst w)) (snd w) i = hash (fst (fst w')) (snd (fst w')) (snd w') i' -> w = w' /\ i = i'.
(** no more than 256 devices of the same kind, name and number of channels *)
Definition few_twins (h : host) : Prop := forall w, (count w (devices h) <= 256)%nat.

(** ** Streams *)
(** The render thread works with the rate and the number of channels the backend
    reports, and so does the stream it fills. *)
Definition fits (b : backend) : Prop :=
  b_renderer b = (b_rate b, b_channels b) /\
  match b_stream b with
  | Some (_, s) => s_channels s = b_channels b /\ f32_of_Z (s_rate s) = b_rate b
  | None => b_sink b = S_none
  end.
(** the stream was opened as asked for, or else this was refused and it has the defaults of the device *)
Definition as_asked (o : options) (d : device) (s : stream) : Prop :=
  exists c rate size, d_out d = Some c /\
    match o_rate o with Some r => rate = Core.Raux.Ztrunc (BinarySingleNaN.B2R r) | None => rate = f_rate c end /\
    clamped_size (o_latency o) rate (f_sizes c) = Ok size /\
    let asked := mk_stream (Z.min (f_channels c) 32) rate (Some size) in
    (s = asked \/ d_accepts d asked = false /\ s = mk_stream (Z.min (f_channels c) 32) (f_rate c) None) /\ d_accepts d s = true.

(** the same for a microphone, with the number of channels asked for if there is one *)
Definition heard_as_asked (o : options) (channels : option Z) (d : device) (s : stream) : Prop :=
  exists c rate size, d_in d = Some c /\
    match o_rate o with Some r => rate = Core.Raux.Ztrunc (BinarySingleNaN.B2R r) | None => rate = f_rate c end /\
    clamped_size (o_latency o) rate (f_sizes c) = Ok size /\
    let asked := mk_stream (match channels with Some n => n | None => f_channels c end) rate (Some size) in
    (s = asked \/ d_accepts d asked = false /\ s = mk_stream (f_channels c) (f_rate c) None) /\ d_accepts d s = true.

(** ** Hosts that cause no trouble *)
(** a device whose driver answers, and which takes every buffer size at this rate *)
Definition works (rate : Z) (d : device) : Prop :=
  d_name d <> None /\ d_plays d = true /\
  exists c, d_out d = Some c /\ match f_sizes c with Some (lo, hi) => lo <= hi | None => True end /\
    forall size, d_accepts d (mk_stream (Z.min (f_channels c) 32) rate (Some size)) = true.
Definition well_behaved (hash : kind -> string -> Z -> Z -> Z) (rate : Z) (h : host) : Prop :=
  tells_apart hash h /\ (exists l, try_enumerate hash h = Ok (inr l)) /\
  (exists d, h_default_out h = Some d /\ works rate d) /\
  (forall d, In (AudioOutput, d) (devices h) -> works rate d).
(** a rate that is a whole number of the range allowed *)
Definition whole (r : f32) (n : Z) : Prop := BinarySingleNaN.is_finite r = true /\ BinarySingleNaN.B2R r = IZR n /\ 3000 <= n <= 768000.
