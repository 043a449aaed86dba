(** Ids of devices in the cubeb backend: specification. *)
From Coq Require Import List ZArith Bool String.
From Verif Require Import Common_Model Device_Model Cubeb_Model.
Import ListNotations.
Open Scope Z_scope.

(** all devices, those for input first *)
Definition cubeb_devices (h : cubeb) : list (kind * cubeb_device) :=
  map (pair AudioInput) (match c_in h with Some ds => ds | None => [] end) ++ map (pair AudioOutput) (match c_out h with Some ds => ds | None => [] end).
(** every device says what it is called and how many channels it has, and these are not too many *)
Definition all_described (h : cubeb) : Prop :=
  c_in h <> None /\ c_out h <> None /\ forall k d, In (k, d) (cubeb_devices h) -> c_name d <> None /\ 0 <= c_channels d <= 65535.
(** the hash of an input is never that of an output *)
Definition kinds_apart (hash : kind -> string -> Z -> Z -> Z) : Prop :=
  forall n c i n' c' i', hash AudioInput n c i <> hash AudioOutput n' c' i'.
(** the hashes of the 256 indices differ *)
Definition indices_apart (hash : kind -> string -> Z -> Z -> Z) : Prop :=
  forall k n c i i', 0 <= i <= 255 -> 0 <= i' <= 255 -> hash k n c i = hash k n c i' -> i = i'.
(** no more than 256 devices of a kind *)
Definition few_devices (h : cubeb) : Prop :=
  (forall ds, c_in h = Some ds -> (List.length ds <= 256)%nat) /\ (forall ds, c_out h = Some ds -> (List.length ds <= 256)%nat).
