(** Model of the media recorder.

    Source: /repo/src/media_recorder/mod.rs 21-304. *)
From Coq Require Import List Arith ZArith Bool.
From Verif Require Export Track_Model.
Import ListNotations.

Section Recorder.
Context {V B E : Type}.                       (* samples, bytes, errors of the stream *)
Variable header : nat -> nat -> list B.       (* hound's header of an endless file: channels, sample rate (mod.rs 40-47) *)
Variable bytes : V -> list B.                 (* hound::Sample::write of an f32 (56) *)

(** An audio buffer; all channels have the same length (asserted by AudioBuffer::from, buffer.rs 112-114) *)
Record buffer := mk_buffer { b_rate : nat; b_chans : list (list V) }.
Definition b_length (b : buffer) : nat := match b_chans b with c :: _ => length c | [] => 0 end.
(** mod.rs 52-59, the samples in the order in which they are written; the missing case is excluded by the equal lengths *)
Definition interleave (b : buffer) : list V :=
  flat_map (fun i => flat_map (fun c => match nth_error c i with Some v => [v] | None => [] end) (b_chans b)) (seq 0 (b_length b)).
Definition encode_next (b : buffer) : list B := flat_map bytes (interleave b).
(** mod.rs 39-49 *)
Definition encode_first (b : buffer) : list B := header (length (b_chans b)) (b_rate b) ++ encode_next b.

Definition item := (buffer + E)%type.

(** Where the thread of start() is (262-296), and where a call of stop() is (298-301).
    A flush happens under the lock of the recorded data, callback included (99-122): one step. *)
Inductive pc :=
| First | Install (b : buffer) | Next | Got (x : item) | Record (b : buffer) | Flush
| ErrFlush (e : E) | ErrCall (e : E) | EndFlush | Stop1 | Stop2 | Gone
| UserFlush.
Record agent := mk_agent { a_iter : nat; a_pc : pc }.   (* [a_iter]: the thread's iterator over the track; unused for stop() *)
Inductive event := Data (d : list B) | Stopped | Failed (e : E) | Rejected.

(** mod.rs 62-69 *)
Record recorder := mk_rec {
  r_track : track item;
  r_active : bool;
  r_blob : list B;
  r_data_cb : bool; r_stop_cb : bool; r_error_cb : bool;   (* whether a callback is set *)
  r_agents : list agent
}.
Inductive raction := Run (i : nat) | Start | Stop | SetData (on : bool) | SetStop (on : bool) | SetError (on : bool).

(** A whole call of next() of iterator [i] (media_streams/mod.rs 95-123): calls are taken not to overlap, C61 says what happens otherwise *)
Fixpoint next_call (fuel : nat) (t : track item) (i : nat) : option (track item * option item) :=
  match fuel with
  | 0 => None
  | S f => match listen t i with Some (t', [(_, r)]) => Some (t', r) | Some (t', _) => next_call f t' i | None => None end
  end.

Definition set_pc (L : list agent) (i : nat) (a : agent) : list agent := firstn i L ++ a :: skipn (S i) L.

(** One step of agent [i] *)
Definition run (s : recorder) (i : nat) : option (recorder * list event) :=
  match nth_error (r_agents s) i with
  | None => None
  | Some a =>
      let at_ p := set_pc (r_agents s) i (mk_agent (a_iter a) p) in
      let go p := mk_rec (r_track s) (r_active s) (r_blob s) (r_data_cb s) (r_stop_cb s) (r_error_cb s) (at_ p) in
      let flushed p := (mk_rec (r_track s) (r_active s) [] (r_data_cb s) (r_stop_cb s) (r_error_cb s) (at_ p),
                        if r_data_cb s then [Data (r_blob s)] else []) in                                     (* 99-122 *)
      let with_track t p := mk_rec t (r_active s) (r_blob s) (r_data_cb s) (r_stop_cb s) (r_error_cb s) (at_ p) in
      match a_pc a with
      | First =>                                                                                              (* 265-272 *)
          match next_call 5 (r_track s) (a_iter a) with
          | Some (t, None) => Some (with_track t Gone, [])
          | Some (t, Some (inr e)) => Some (with_track t (ErrFlush e), [])
          | Some (t, Some (inl b)) => Some (with_track t (Install b), [])
          | None => None
          end
      | Install b => Some (mk_rec (r_track s) (r_active s) (encode_first b) (r_data_cb s) (r_stop_cb s) (r_error_cb s) (at_ Next), [])   (* 274-276 *)
      | Next =>                                                                                               (* 278 *)
          match next_call 5 (r_track s) (a_iter a) with
          | Some (t, None) => Some (with_track t EndFlush, [])
          | Some (t, Some x) => Some (with_track t (Got x), [])
          | None => None
          end
      | Got x =>                                                                                              (* 279-291 *)
          if r_active s then match x with inl b => Some (go (Record b), []) | inr e => Some (go (ErrFlush e), []) end
          else Some (go Gone, [])
      | Record b =>                                                                                           (* 72-78 *)
          let blob := r_blob s ++ encode_next b in
          Some (mk_rec (r_track s) (r_active s) blob (r_data_cb s) (r_stop_cb s) (r_error_cb s)
                  (at_ (if (128 * 1024 <? Z.of_nat (length blob))%Z then Flush else Next)), [])
      | Flush => Some (flushed Next)                                                                          (* 79 *)
      | ErrFlush e => Some (flushed (ErrCall e))                                                              (* 84 *)
      | ErrCall e => Some (mk_rec (r_track s) (r_active s) (r_blob s) (r_data_cb s) (r_stop_cb s) false (at_ Stop1), if r_error_cb s then [Failed e] else [])  (* 86-94 *)
      | EndFlush => Some (flushed Stop1)                                                                      (* 294 *)
      | UserFlush => Some (flushed Stop1)                                                                     (* 299 *)
      | Stop1 => Some (mk_rec (r_track s) false (r_blob s) (r_data_cb s) (r_stop_cb s) (r_error_cb s) (at_ Stop2), [])   (* 125 *)
      | Stop2 => Some (mk_rec (r_track s) (r_active s) (r_blob s) (r_data_cb s) false (r_error_cb s) (at_ Gone), if r_stop_cb s then [Stopped] else [])   (* 127-129 *)
      | Gone => None
      end
  end.

(** start() (252-297), stop() (298-301) and the setters of the callbacks (217-245) *)
Definition rstep (s : recorder) (a : raction) : option (recorder * list event) :=
  match a with
  | Run i => run s i
  | Start =>
      if r_active s then Some (s, [Rejected])     (* panics (253-257) *)
      else
        let t := r_track s in
        Some (mk_rec (mk_track (t_provider t) (t_data t) (t_position t) (t_ended t) (t_listeners t ++ [mk_listener 0 Idle])) true (r_blob s)
                (r_data_cb s) (r_stop_cb s) (r_error_cb s) (r_agents s ++ [mk_agent (length (t_listeners t)) First]), [])
  | Stop => Some (mk_rec (r_track s) (r_active s) (r_blob s) (r_data_cb s) (r_stop_cb s) (r_error_cb s) (r_agents s ++ [mk_agent 0 UserFlush]), [])
  | SetData b => Some (mk_rec (r_track s) (r_active s) (r_blob s) b (r_stop_cb s) (r_error_cb s) (r_agents s), [])
  | SetStop b => Some (mk_rec (r_track s) (r_active s) (r_blob s) (r_data_cb s) b (r_error_cb s) (r_agents s), [])
  | SetError b => Some (mk_rec (r_track s) (r_active s) (r_blob s) (r_data_cb s) (r_stop_cb s) b (r_agents s), [])
  end.
Fixpoint rsteps (s : recorder) (l : list raction) : option (recorder * list event) :=
  match l with
  | [] => Some (s, [])
  | a :: l' =>
      match rstep s a with
      | Some (s', o) => match rsteps s' l' with Some (s'', o') => Some (s'', o ++ o') | None => None end
      | None => None
      end
  end.

(** MediaRecorder::new (196-215) on a track with the given items *)
Definition new_recorder (items : list item) : recorder := mk_rec (new_track items) false [] false false false [].
End Recorder.
Arguments buffer : clear implicits. Arguments item : clear implicits. Arguments recorder : clear implicits. Arguments event : clear implicits.
Arguments pc : clear implicits. Arguments agent : clear implicits.
