(** Ids of devices in the cubeb backend.

    Source: src/io/cubeb.rs 229-249 (look-up of an id), 371-380 and 489-498 (its use), 582-645 (the list of devices), 655-701 (the id of a device),
    src/media_devices/mod.rs 36-71.

    The devices that cubeb lists are given, those for input and those for output; the list may change from call to call, so
    it is an argument.  As in Device_Model.v, an id is what the hash function gives for kind, name, number of channels and
    index (the host is always "cubeb"), and the search for an unused index is [unused]. *)
From Coq Require Import List ZArith Bool String.
From Verif Require Import Common_Model Device_Model.
Import ListNotations.
Open Scope Z_scope.

(** cubeb::DeviceInfo: devid, friendly_name, max_channels (u32), group_id *)
Record cubeb_device := mk_cubeb { c_devid : nat; c_name : option string; c_channels : Z; c_group : option string }.
(** what Context::init and Context::enumerate_devices give; none: an error *)
Record cubeb := mk_cubeb_host { c_in : option (list cubeb_device); c_out : option (list cubeb_device) }.
(** media_devices/mod.rs 83-89 *)
Record entry := mk_entry { e_id : Z; e_group : option string; e_kind : kind; e_label : string }.
Inductive cubeb_error := Not_listed | No_name | Too_many_channels.

Section Ids.
Variable hash : kind -> string -> Z -> Z -> Z.

(** cubeb.rs 655-674 and 611-618: the name and the number of channels as u16 *)
Definition described (d : cubeb_device) : cubeb_error + (string * Z) :=
  match c_name d with
  | None => inl No_name
  | Some name => if (0 <=? c_channels d) && (c_channels d <=? 65535) then inr (name, c_channels d) else inl Too_many_channels
  end.
(** cubeb.rs 599-645: [taken] are the ids of the entries before *)
Fixpoint list_loop (k : kind) (ds : list cubeb_device) (taken : list Z) : res (cubeb_error + list entry) :=
  match ds with
  | [] => Ok (inr [])
  | d :: ds' =>
      match described d with
      | inl e => Ok (inl e)
      | inr (name, channels) =>
          do id <- unused 256 (hash k name channels) 0 taken;
          do r <- list_loop k ds' (id :: taken);
          Ok (match r with inl e => inl e | inr es => inr (mk_entry id (c_group d) k name :: es) end)
      end
  end.
Definition list_kind (k : kind) (l : option (list cubeb_device)) : res (cubeb_error + list entry) :=
  match l with None => Ok (inl Not_listed) | Some ds => list_loop k ds [] end.
(** cubeb.rs 582-596 *)
Definition list_devices (h : cubeb) : res (cubeb_error + list entry) :=
  do a <- list_kind AudioInput (c_in h);
  match a with
  | inl e => Ok (inl e)
  | inr es => do b <- list_kind AudioOutput (c_out h); Ok (match b with inl e => inl e | inr fs => inr (es ++ fs) end)
  end.
(** media_devices/mod.rs 27-32: an error gives an empty list *)
Definition listed_devices (h : cubeb) : res (list entry) :=
  do r <- list_devices h; Ok (match r with inl _ => [] | inr es => es end).

(** cubeb.rs 239-248 *)
Fixpoint find_loop (k : kind) (ds : list cubeb_device) (id : Z) (seen : list Z) : res (cubeb_error + option nat) :=
  match ds with
  | [] => Ok (inr None)
  | d :: ds' =>
      match described d with
      | inl e => Ok (inl e)
      | inr (name, channels) =>
          do this <- unused 256 (hash k name channels) 0 seen;
          if this =? id then Ok (inr (Some (c_devid d))) else find_loop k ds' id (this :: seen)
      end
  end.
(** cubeb.rs 229-249 *)
Definition find_device (h : cubeb) (k : kind) (id : Z) : res (cubeb_error + option nat) :=
  match (match k with AudioInput => c_in h | AudioOutput => c_out h | VideoInput => Some [] end) with
  | None => Ok (inl Not_listed)
  | Some ds => find_loop k ds id []
  end.
(** cubeb.rs 371-380, 489-498: the device that is opened; none stands for the default device, also for the id *)
Definition opened (h : cubeb) (k : kind) (id : option Z) : res (cubeb_error + option nat) :=
  match id with None => Ok (inr None) | Some i => find_device h k i end.
End Ids.
