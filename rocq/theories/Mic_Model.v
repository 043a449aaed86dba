(** Model of the microphone input.

    Source: src/io/microphone.rs 8-105, src/io/cpal.rs 458-460.

    The audio device and its thread are not modelled: [Capture] is one call of its
    callback, with the samples already converted to f32.  The operations of the
    two threads on the channel between them are atomic. *)
From Coq Require Import List Arith Bool ZArith.
From Verif Require Import Common_Model Float_Model Quantum_Model Buffer_Model Element_Model.
Import ListNotations.

(** [data.iter().skip(i).step_by(n)] *)
Fixpoint step_by {A} (n wait : nat) (l : list A) : list A :=
  match l with
  | [] => []
  | x :: l' => match wait with 0 => x :: step_by n (n - 1) l' | S w => step_by n w l' end
  end.
(** microphone.rs 85-95 *)
Definition separate_channels {A} (n : nat) (data : list A) : list (list A) := map (fun i => step_by n 0 (skipn i data)) (seq 0 n).

(** The channel between the device's thread and the stream holds three blocks
    (cpal.rs 458); [m_open]: the device's end has not been dropped. *)
Record mic := mk_mic { m_channels : nat; m_rate : f32; m_queue : list content; m_open : bool }.
Definition mic_new (channels : nat) (rate : f32) : mic := mk_mic channels rate [] true.
Definition smoothing := 3.

(** what happens: the device hands over samples, its stream is closed, the reader asks for the next buffer *)
Inductive mic_op := Capture (data : list f32) | Close | Next.
(** what can be seen: a block was queued or dropped, the reader got a buffer or the end *)
Inductive mic_event := Queued (b : content) | Dropped (b : content) | Got (b : content) | Silence (b : content) | Ended.

Definition mic_step (m : mic) (o : mic_op) : res (mic * list mic_event) :=
  match o with
  | Capture data =>                                                    (* microphone.rs 84-103 *)
      if m_open m then
        do buffer <- from_samples (separate_channels (m_channels m) data) (m_rate m);
        if length (m_queue m) <? smoothing
        then Ok (mk_mic (m_channels m) (m_rate m) (m_queue m ++ [buffer]) true, [Queued buffer])
        else Ok (m, [Dropped buffer])
      else Ok (m, [])                                                  (* no callbacks after the stream is gone *)
  | Close => Ok (mk_mic (m_channels m) (m_rate m) (m_queue m) false, [])
  | Next =>                                                            (* microphone.rs 41-66 *)
      match m_queue m with
      | b :: q => Ok (mk_mic (m_channels m) (m_rate m) q (m_open m), [Got b])
      | [] =>
          if m_open m then do s <- new_content (m_channels m) RQ (m_rate m); Ok (m, [Silence s])
          else Ok (m, [Ended])
      end
  end.
Fixpoint mic_run (m : mic) (ops : list mic_op) : res (mic * list mic_event) :=
  match ops with
  | [] => Ok (m, [])
  | o :: ops' => do r <- mic_step m o; do r' <- mic_run (fst r) ops'; Ok (fst r', snd r ++ snd r')
  end.
