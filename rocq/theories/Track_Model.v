(** Model of the media stream track and of the media stream destination node.

    Source: /repo/src/media_streams/mod.rs 43-124, /repo/src/node/media_stream_destination.rs 83-158. *)
From Coq Require Import List Arith Bool.
From Verif Require Export Common_Model.
Import ListNotations.

(** ** MediaStreamTrack *)
Section Track.
Context {X : Type}.   (* the buffers (or errors) of the provider *)

(** Where a call of next() is (media_streams/mod.rs 95-123); [l_pos] is the position of the iterator (90) *)
Inductive place := Idle | Checked | Pull (p : nat) | Pulled (p : nat) | Ready (p : nat).
Record listener := mk_listener { l_pos : nat; l_at : place }.
(** mod.rs 43-48 *)
Record track := mk_track {
  t_provider : list X;
  t_data : option X;       (* [None]: the initial buffer (56), which is never handed out *)
  t_position : nat;
  t_ended : bool;
  t_listeners : list listener
}.
Inductive action := Step (i : nat) | Close | NewIter.

Definition put (L : list listener) (i : nat) (l : listener) : list listener := firstn i L ++ l :: skipn (S i) L.
Definition at_place (s : track) (i : nat) (l : listener) : track :=
  mk_track (t_provider s) (t_data s) (t_position s) (t_ended s) (put (t_listeners s) i l).

(** One step of a call of next() of listener [i]; the second component is what the call returns, if it returns.
    The lock of the provider is held from 102 to 111, so pulling and storing a buffer is one step. *)
Definition listen (s : track) (i : nat) : option (track * list (nat * option X)) :=
  match nth_error (t_listeners s) i with
  | None => None
  | Some l =>
      let go p := at_place s i (mk_listener (l_pos l) p) in
      match l_at l with
      | Idle => if t_ended s then Some (s, [(i, None)]) else Some (go Checked, [])              (* 96-98 *)
      | Checked => if t_position s =? l_pos l then Some (go (Pull (t_position s)), []) else Some (go (Ready (t_position s)), [])   (* 100-101 *)
      | Pull p =>
          match t_provider s with
          | x :: rest =>                                                                         (* 103-105 *)
              Some (mk_track rest (Some x) (t_position s) (t_ended s) (t_listeners (go (Pulled p))), [])
          | [] =>                                                                                (* 106-109 *)
              Some (mk_track [] (t_data s) (t_position s) true (t_listeners (go Idle)), [(i, None)])
          end
      | Pulled p => Some (mk_track (t_provider s) (t_data s) (S (t_position s)) (t_ended s) (t_listeners (go (Ready (S p)))), [])   (* 112-113 *)
      | Ready p =>                                                                               (* 116-120 *)
          match t_data s with
          | Some x => Some (at_place s i (mk_listener p Idle), [(i, Some x)])
          | None => None    (* shown not to happen *)
          end
      end
  end.

(** [Close] is 82-86 (one step: the lock), [NewIter] is 74-80 *)
Definition act (s : track) (a : action) : option (track * list (nat * option X)) :=
  match a with
  | Step i => listen s i
  | Close => Some (mk_track [] (t_data s) (t_position s) (t_ended s) (t_listeners s), [])
  | NewIter => Some (mk_track (t_provider s) (t_data s) (t_position s) (t_ended s) (t_listeners s ++ [mk_listener 0 Idle]), [])
  end.
Fixpoint acts (s : track) (l : list action) : option (track * list (nat * option X)) :=
  match l with
  | [] => Some (s, [])
  | a :: l' =>
      match act s a with
      | Some (s', o) => match acts s' l' with Some (s'', o') => Some (s'', o ++ o') | None => None end
      | None => None
      end
  end.

(** mod.rs 51-65 *)
Definition new_track (items : list X) : track := mk_track items None 0 false [].
End Track.
Arguments track : clear implicits.

(** ** MediaStreamAudioDestinationNode *)
Section Destination.
Context {X : Type}.   (* the buffers of the quanta *)

(** The channel has room for one buffer (media_stream_destination.rs 86). [d_emptied]: the renderer is between 134 and 139,
    [d_gone]: the renderer is gone, and with it the last sender. [d_got]: the results of the consumer's calls ([None]: an error). *)
Record dest := mk_dest { d_queue : option X; d_emptied : option X; d_gone : bool; d_got : list (option X); d_dropped : list X }.
Inductive dest_action := Try (x : X) | Send | Free | Recv.
(** 128-139 as two steps, the end of the renderer, and 150-155; [None]: the step is not possible now (a thread waits).
    The receiver the renderer keeps (117) goes with it. *)
Definition dest_step (s : dest) (a : dest_action) : option dest :=
  match a with
  | Try x =>
      match d_gone s, d_emptied s with
      | false, None => Some (mk_dest None (Some x) false (d_got s) (match d_queue s with Some y => d_dropped s ++ [y] | None => d_dropped s end))
      | _, _ => None
      end
  | Send =>
      match d_emptied s, d_queue s with
      | Some x, None => Some (mk_dest (Some x) None (d_gone s) (d_got s) (d_dropped s))
      | _, _ => None
      end
  | Free => match d_emptied s with None => Some (mk_dest (d_queue s) None true (d_got s) (d_dropped s)) | Some _ => None end
  | Recv =>
      match d_queue s with
      | Some y => Some (mk_dest None (d_emptied s) (d_gone s) (d_got s ++ [Some y]) (d_dropped s))
      | None => if d_gone s then Some (mk_dest None (d_emptied s) true (d_got s ++ [None]) (d_dropped s)) else None
      end
  end.
Fixpoint dest_steps (s : dest) (l : list dest_action) : option dest :=
  match l with [] => Some s | a :: l' => match dest_step s a with Some s' => dest_steps s' l' | None => None end end.
Definition dest0 : dest := mk_dest None None false [] [].
End Destination.
Arguments dest : clear implicits. Arguments dest_action : clear implicits.
