(** Specification of the AudioWorkletNode. *)
From Coq Require Import List Arith Bool.
From Verif Require Import Worklet_Model.
Import ListNotations.

Section Spec.
Context {V U O : Type}.
Notation quantum := (list (chan V)).
Notation ports := (list (list (list V))).

(** the samples of a list of quanta *)
Definition samples (qs : list quantum) : ports := map (map c_val) qs.
Definition shape {X} (l : list (list (list X))) : list (list nat) := map (map (@length X)) l.
(** rust slices keep their lengths *)
Definition keeps_shape (P : program V U O) : Prop := forall u i o u' o' b, p_process P u i o = Some (u', o', b) -> shape o' = shape o.

(** [number] ports with 1 to 32 channels *)
Definition ports_ok (number : nat) (qs : list quantum) : Prop := length qs = number /\ Forall (fun q => 0 < length q <= max_channels) qs.

(** the channel counts the outputs must have *)
Definition wanted (inputs outputs : nat) (counts : list nat) (q : list quantum) : list nat :=
  match counts with
  | [] => if (inputs =? 1) && (outputs =? 1) then map (@length _) q else repeat 1 outputs
  | _ => counts
  end.

(** the user's code by itself: what it does with the sequence of inputs and messages, given the buffers *)
Variable P : program V U O.
Fixpoint ideal (inputs outputs : nat) (counts : list nat) (u : U) (fill : list nat -> list ports -> ports) (before : list ports) (es : list (event V)) : option (U * list ports) :=
  match es with
  | [] => Some (u, [])
  | Quantum s q :: es' =>
      match p_process P u (samples q) (fill (wanted inputs outputs counts q) before) with
      | Some (u', o, _) => match ideal inputs outputs counts u' fill (o :: before) es' with Some (u'', os) => Some (u'', o :: os) | None => None end
      | None => None
      end
  | Message m :: es' => match p_onmessage P u m with Some u' => ideal inputs outputs counts u' fill before es' | None => None end
  end.
(** the buffers are zero *)
Definition zero_fill (zero : V) (size : nat) (w : list nat) (before : list ports) : ports := map (fun c => repeat (repeat zero size) c) w.
(** the buffers are those of the quantum before: channels are dropped, or copies of the first one are added *)
Definition resized (c : nat) (o : list (list V)) : list (list V) := match o with x :: _ => firstn c (o ++ repeat x (c - length o)) | [] => [] end.
Fixpoint resize (w : list nat) (o : ports) : ports := match w, o with c :: w', x :: o' => resized c x :: resize w' o' | _, _ => [] end.
Definition old_fill (first : ports) (w : list nat) (before : list ports) : ports := resize w (match before with o :: _ => o | [] => first end).
End Spec.
