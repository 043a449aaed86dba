(** What decodeAudioData is supposed to deliver. *)
From Coq Require Import List Arith Bool ZArith.
From Verif Require Import Float_Model Buffer_Model Buffer_Spec Decode_Model.
Import ListNotations.

(** the packets of a track up to the end of the file or the first broken place, which counts as a fatal packet *)
Fixpoint readable (track : nat) (l : list fetched) : list decoded :=
  match l with
  | Packet t d :: l' => if t =? track then d :: readable track l' else readable track l'
  | Broken :: _ => [Fatal]
  | _ => []
  end.
(** the samples in them *)
Definition pieces (ds : list decoded) : list (Z * list (list f32)) :=
  flat_map (fun d => match d with Samples r c => [(r, c)] | _ => [] end) ds.
(** a piece: some channels of the same length *)
Definition whole (p : Z * list (list f32)) : Prop :=
  snd p <> [] /\ Forall (fun d => length d = length (hd [] (snd p))) (snd p).
Definition frames (p : Z * list (list f32)) : nat := length (hd [] (snd p)).
Fixpoint total (ps : list (Z * list (list f32))) : nat := match ps with [] => 0 | p :: ps' => frames p + total ps' end.
(** a piece of [ch] channels at the rate [r] *)
Definition agrees (r : Z) (ch : nat) (p : Z * list (list f32)) : Prop := fst p = r /\ length (snd p) = ch /\ whole p.
(** all pieces one after the other *)
Definition joined (ch : nat) (ps : list (Z * list (list f32))) : list (list f32) :=
  map (fun k => concat (map (fun p => nth k (snd p) []) ps)) (seq 0 ch).
(** rates that binary32 represents exactly *)
Definition plain_rate (p : Z * list (list f32)) : Prop := (0 < fst p <= 2 ^ 24)%Z.
