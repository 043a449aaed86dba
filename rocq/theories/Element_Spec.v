(** What a media element is supposed to play. *)
From Coq Require Import List Arith Bool ZArith.
From Verif Require Import Float_Model Quantum_Model Buffer_Model Buffer_Spec Element_Model.
Import ListNotations.

(** ** Settings *)

(** looping, paused, playback rate *)
Record setting := mk_setting { v_loop : bool; v_paused : bool; v_rate : f64 }.
Definition settings_of (e : element) : setting := mk_setting (e_loop e) (e_paused e) (e_rate e).

(** what a command does to them *)
Definition obey (s : setting) (a : action) : setting :=
  match a with
  | Seek _ => s
  | SetLoop b => mk_setting b (v_paused s) (v_rate s)
  | Play => mk_setting (v_loop s) false (v_rate s)
  | Pause => mk_setting (v_loop s) true (v_rate s)
  | SetPlaybackRate r => mk_setting (v_loop s) (v_paused s) r
  end.

(** One command is taken per call of the stream.  The settings each call works
    with, when [q] is waiting and [arrivals] come in before the calls ... *)
Fixpoint timeline (s : setting) (q : list action) (arrivals : list (list action)) : list setting :=
  match arrivals with
  | [] => []
  | b :: arrivals' =>
      match q ++ b with
      | [] => s :: timeline s [] arrivals'
      | a :: q' => obey s a :: timeline (obey s a) q' arrivals'
      end
  end.
(** ... and the commands that still wait at the end. *)
Fixpoint backlog (q : list action) (arrivals : list (list action)) : list action :=
  match arrivals with [] => q | b :: arrivals' => backlog (tl (q ++ b)) arrivals' end.

(** ** Frames *)

(** a file with [ch] channels of [n] frames *)
Definition file_ok (ch n : nat) (f : file) : Prop :=
  1 <= ch <= 32 /\ 0 < n /\ length (f_channels f) = ch /\ Forall (fun d => length d = n) (f_channels f) /\
  is_valid_sample_rate (f_rate32 f) = true.

(** frames asked for per call at a playback rate, and the label of the buffers *)
Definition per_call (r : f64) : Z := f64_to_usize (f64_mul (f64_of_Z 128) (f64_abs r)).
Definition label (f : file) (r : f64) : f32 := f32_mul (f_rate32 f) (f32_of_f64 (f64_abs r)).
(** playback rates the element can deal with *)
Definition rate_good (f : file) (r : f64) : Prop :=
  (1 <= per_call r)%Z /\ is_valid_sample_rate (label f r) = true.

(** commands allowed in the theorems below: no seeks, no change of looping *)
Definition steady (f : file) (a : action) : Prop :=
  match a with Play | Pause => True | SetPlaybackRate r => rate_good f r | Seek _ | SetLoop _ => False end.

(** [n] frames of the endlessly repeated file, from frame [p] on *)
Definition tape (d : list f32) (p n : nat) : list f32 :=
  map (fun j => nth ((p + j) mod length d) d f32_zero) (seq 0 n).

Definition silence (ch : nat) (f : file) : content := mk_content (repeat (repeat f32_zero 128) ch) (f_rate32 f).

(** Looping: what the calls deliver from frame [p] of the tape on.  A paused call
    delivers 128 frames of silence and stays where it is; the others go on
    where the previous one stopped, with as many frames as the rate asks for,
    or as many as are left of the current repetition of the file. *)
Fixpoint delivered (ch len : nat) (f : file) (p : nat) (ss : list setting) (items : list item) : Prop :=
  match ss, items with
  | [], [] => True
  | s :: ss', it :: items' =>
      if v_paused s then it = Data (silence ch f) /\ delivered ch len f p ss' items'
      else exists n, Z.of_nat n = Z.min (per_call (v_rate s)) (Z.of_nat (len - p mod len)) /\
        it = Data (mk_content (map (fun d => tape d p n) (f_channels f)) (label f (v_rate s))) /\
        delivered ch len f (p + n) ss' items'
  | _, _ => False
  end.

(** Not looping: the same up to the end of the file, errors after it. *)
Fixpoint delivered_once (ch len : nat) (f : file) (p : nat) (ss : list setting) (items : list item) : Prop :=
  match ss, items with
  | [], [] => True
  | s :: ss', it :: items' =>
      if v_paused s then it = Data (silence ch f) /\ delivered_once ch len f p ss' items'
      else if len <=? p then it = Fails /\ delivered_once ch len f p ss' items'
      else exists n, Z.of_nat n = Z.min (per_call (v_rate s)) (Z.of_nat (len - p)) /\
        it = Data (mk_content (map (fun d => firstn n (skipn p d)) (f_channels f)) (label f (v_rate s))) /\
        delivered_once ch len f (p + n) ss' items'
  | _, _ => False
  end.

(** channel [k] of a quantum *)
Definition out_channel (k : nat) (q : list (chan f32)) : list f32 := c_val (nth k q (mk_chan 0 [])).
(** a quantum with [ch] channels of 128 frames in arrays of their own *)
Definition separate (ch : nat) (q : list (chan f32)) : Prop :=
  length q = ch /\ Forall (fun c => length (c_val c) = 128 /\ c_name c <> 0) q /\ NoDup (map c_name q).
Definition silent_quantum : list (chan f32) := [mk_chan 0 (repeat f32_zero 128)].
