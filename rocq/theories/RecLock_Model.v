(** The locks of a media recorder.

    Source: /repo/src/media_recorder/mod.rs 62-130 (MediaRecorderInner), 218-245 (the setters), 252-297 (start and the recording
    thread), 299-302 (stop).

    What is recorded is in Recorder_Model.v; here a call is the sequence of locks it takes and releases, with the calls that
    callbacks of the user make on the recorder.  The guard of [if let Some(f) = self.x.lock().unwrap()...] lives until the end
    of the body, so callbacks run with the lock held.  Whether a callback is set, whether a block is large enough for a flush
    and which branch is taken is not followed: a thread is any sequence of operations, and a callback that is not set makes
    no calls. *)
From Coq Require Import List Arith Bool.
Import ListNotations.

(** recorded_data, data_available_callback, stop_callback, error_callback *)
Inductive lock := Recorded | On_data | On_stop | On_error.
Definition lock_eqb (a b : lock) : bool :=
  match a, b with Recorded, Recorded | On_data, On_data | On_stop, On_stop | On_error, On_error => true | _, _ => false end.
Inductive instruction := Lock (k : lock) | Unlock (k : lock).

(** operations on the recorder; the lists are the operations that the callback makes *)
Inductive operation :=
  | Set_callback (k : lock)                (* 218-245: set_on..., clear_on... *)
  | Write                                  (* 73-75, 276: a block is encoded *)
  | Flush (calls : list operation)         (* 99-122 *)
  | Tell_stop (calls : list operation)     (* 124-130 *)
  | Tell_error (calls : list operation).   (* 86-94 *)
Fixpoint compile (o : operation) : list instruction :=
  match o with
  | Set_callback k => [Lock k; Unlock k]
  | Write => [Lock Recorded; Unlock Recorded]
  | Flush calls => [Lock Recorded; Lock On_data] ++ flat_map compile calls ++ [Unlock On_data; Unlock Recorded]
  | Tell_stop calls => [Lock On_stop] ++ flat_map compile calls ++ [Unlock On_stop]
  | Tell_error calls => [Lock On_error] ++ flat_map compile calls ++ [Unlock On_error]
  end.
(** 299-302: stop(), with what the callbacks do *)
Definition stop (data stopped : list operation) : list operation := [Flush data; Tell_stop stopped].
(** 83-97: handle_error *)
Definition handle_error (data error stopped : list operation) : list operation := [Flush data; Tell_error error; Tell_stop stopped].

(** a thread: the locks it holds, latest first, and what it has still to do *)
Notation thread := (list lock * list instruction)%type.
Definition holds (t : thread) (k : lock) : bool := existsb (lock_eqb k) (fst t).
Definition threads (l : list (list operation)) : list thread := map (fun os => ([], flat_map compile os)) l.
Fixpoint replace (l : list thread) (i : nat) (t : thread) : list thread :=
  match l, i with [], _ => [] | _ :: r, O => t :: r | x :: r, S j => x :: replace r j t end.
(** thread [i] takes a step; [None]: it has finished, or waits for a lock (also for one it holds itself: Mutex is not reentrant) *)
Definition step (s : list thread) (i : nat) : option (list thread) :=
  match nth_error s i with
  | Some (held, Lock k :: p) => if existsb (fun t => holds t k) s then None else Some (replace s i (k :: held, p))
  | Some (held, Unlock k :: p) => Some (replace s i (filter (fun x => negb (lock_eqb x k)) held, p))
  | _ => None
  end.
Fixpoint steps (s : list thread) (l : list nat) : option (list thread) :=
  match l with [] => Some s | i :: l' => match step s i with Some s' => steps s' l' | None => None end end.
