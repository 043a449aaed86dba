(** What audio buffers are to do: each buffer is a value of its own. *)
From Coq Require Import List Arith Bool ZArith.
From Verif Require Import Float_Model Buffer_Model.
Import ListNotations.

(** [source] written over [data] from position [offset] on; what does not fit is ignored *)
Definition overwritten (data source : list f32) (offset : nat) : list f32 :=
  map (fun j => if (offset <=? j) && (j <? offset + length source) then nth (j - offset) source f32_zero else nth j data f32_zero)
      (seq 0 (length data)).
(** [destination] after reading [data] from position [offset] on; what is not there leaves
    [destination] unchanged *)
Definition read_into (destination data : list f32) (offset : nat) : list f32 :=
  map (fun j => if offset + j <? length data then nth (offset + j) data f32_zero else nth j destination f32_zero)
      (seq 0 (length destination)).

(** the buffers of a program, as values *)
Definition values : Type := list (option content).
Definition value (vs : values) (i : nat) : option content := match nth_error vs i with Some (Some c) => Some c | _ => None end.
Definition replace {A} (i : nat) (x : A) (l : list A) : list A := firstn i l ++ x :: skipn (S i) l.
Definition with_channel (c : content) (k : nat) (data : list f32) : content := mk_content (replace k data (c_channels c)) (c_rate c).

(** One operation on values.  [None] = the call panics: a dropped buffer, a channel number that
    is too large, unsupported settings, channels of different lengths or numbers. *)
Definition vstep (vs : values) (o : bop) : option (values * list f32) :=
  match o with
  | B_new channels len sr =>
      if is_valid_sample_rate sr && (0 <? len) && (0 <? channels) && (channels <=? 32)
      then Some (vs ++ [Some (mk_content (repeat (repeat f32_zero len) channels) sr)], []) else None
  | B_from samples sr =>
      if is_valid_sample_rate sr && (0 <? length samples) && (length samples <=? 32) && forallb (fun c => length c =? length (hd [] samples)) samples
      then Some (vs ++ [Some (mk_content samples sr)], []) else None
  | B_clone i => match value vs i with Some c => Some (vs ++ [Some c], []) | None => None end
  | B_drop i => match value vs i with Some _ => Some (replace i None vs, []) | None => None end
  | B_copy_from i destination channel offset =>
      match value vs i with
      | Some c => match nth_error (c_channels c) channel with Some data => Some (vs, read_into destination data offset) | None => None end
      | None => None
      end
  | B_copy_to i source channel offset =>
      match value vs i with
      | Some c => match nth_error (c_channels c) channel with
                  | Some data => Some (replace i (Some (with_channel c channel (overwritten data source offset))) vs, [])
                  | None => None
                  end
      | None => None
      end
  | B_get i channel =>
      match value vs i with
      | Some c => match nth_error (c_channels c) channel with Some data => Some (vs, data) | None => None end
      | None => None
      end
  | B_set i channel new =>
      match value vs i with
      | Some c => match nth_error (c_channels c) channel with
                  | Some data => if length new =? length data then Some (replace i (Some (with_channel c channel new)) vs, []) else None
                  | None => None
                  end
      | None => None
      end
  | B_extend i j =>
      match value vs i, value vs j with
      | Some c, Some d =>
          if negb (i =? j) && f32_eq (c_rate c) (c_rate d) && (length (c_channels c) =? length (c_channels d))
          then Some (replace i (Some (mk_content (map (fun p => fst p ++ snd p) (combine (c_channels c) (c_channels d))) (c_rate c))) vs, [])
          else None
      | _, _ => None
      end
  | B_split_off i k =>
      match value vs i with
      | Some c =>
          if k <=? c_length c
          then Some (replace i (Some (mk_content (map (firstn k) (c_channels c)) (c_rate c))) vs ++
                     [Some (mk_content (map (skipn k) (c_channels c)) (c_rate c))], [])
          else None
      | None => None
      end
  | B_resample i sr =>
      match value vs i with
      | Some c => match resample c sr with Ok c' => Some (replace i (Some c') vs, []) | _ => None end
      | None => None
      end
  end.
Fixpoint vrun (vs : values) (os : list bop) : option (values * list (list f32)) :=
  match os with
  | [] => Some (vs, [])
  | o :: os' =>
      match vstep vs o with
      | Some (vs1, out) => match vrun vs1 os' with Some (vs2, outs) => Some (vs2, out :: outs) | None => None end
      | None => None
      end
  end.

(** a program without buffers *)
Definition no_buffers : world := mk_world [] [].
(** the contents of the buffers of a program *)
Definition all_contents (w : world) : values := map (option_map (contents w)) (handles w).

(** ** Re-chunking *)

(** channel [k] of a buffer *)
Definition channel (k : nat) (c : content) : list f32 := nth k (c_channels c) [].
(** a stream without errors, with the same number of channels throughout *)
Definition source_ok (channels : nat) (l : list content) : Prop :=
  Forall (fun c => length (c_channels c) = channels /\ Forall (fun d => length d = c_length c) (c_channels c)) l.
