(** The locks of a media recorder: specification. *)
From Coq Require Import List.
From Verif Require Import RecLock_Model.
Import ListNotations.

(** all calls have returned *)
Definition all_returned (s : list thread) : Prop := forall t, In t s -> snd t = [].
(** no call can go on *)
Definition stuck (s : list thread) : Prop := forall i, step s i = None.
(** where a call is made: outside of callbacks, or in the callback for errors, data, stop *)
Inductive place := Outside | In_error | In_data | In_stop.
(** Careful programs: in the callback for data the program may set the callback for stop, in that for errors it may do everything
    but set the callback for errors, in that for stop it leaves the recorder alone (apart from [start], which takes no lock). *)
Fixpoint careful (w : place) (o : operation) : Prop :=
  match o with
  | Set_callback k => match w with Outside => True | In_error => k <> On_error | In_data => k = On_stop | In_stop => False end
  | Write => w = Outside \/ w = In_error
  | Flush calls => (w = Outside \/ w = In_error) /\ fold_right (fun c P => careful In_data c /\ P) True calls
  | Tell_stop calls => (w = Outside \/ w = In_error) /\ fold_right (fun c P => careful In_stop c /\ P) True calls
  | Tell_error calls => w = Outside /\ fold_right (fun c P => careful In_error c /\ P) True calls
  end.
