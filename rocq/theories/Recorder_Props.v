(** Property C63: the media recorder. *)
From Coq Require Import List Arith ZArith Bool Lia.
From Verif Require Import Recorder_Model Recorder_Spec Recorder_Proofs.
Import ListNotations.

(** A recording started once and stopped by nobody hands out, in its data events and in this order, exactly the file that holds all buffers
    before the end or the first error of the stream; then come the error event, if there was an error, and one stop event. *)
Theorem C63_whole_partial : forall (V B E : Type) (header : nat -> nat -> list B) (bytes : V -> list B) (items : list (item V E)), items <> [] ->
  exists n s ds, rsteps header bytes (new_recorder items) ([SetData true; SetStop true; SetError true; Start] ++ repeat (Run 0) n) =
      Some (s, map Data ds ++ match first_error items with Some e => [Failed e] | None => [] end ++ [Stopped]) /\
    concat ds = file header bytes (buffers items) /\ r_agents s = [mk_agent 0 Gone] /\ r_active s = false.
Proof. exact @whole_recording. Qed.
Print Assumptions C63_whole_partial.

(** For every interleaving of a recording with any number of calls of stop() and changes of the other callbacks, the data handed out so far is a beginning of that file. *)
Theorem C63_prefix_partial : forall (V B E : Type) (header : nat -> nat -> list B) (bytes : V -> list B) (items : list (item V E)) l s log,
  rsteps header bytes (new_recorder items) (SetData true :: l) = Some (s, log) -> ~ In (SetData false) l -> starts l <= 1 ->
  exists more, delivered log ++ more = file header bytes (buffers items).
Proof. exact @prefix_delivered. Qed.
Print Assumptions C63_prefix_partial.

(** A stop callback is called at most once, whatever happens. *)
Theorem C63_one_stop_event : forall (V B E : Type) (header : nat -> nat -> list B) (bytes : V -> list B) (items : list (item V E)) l s log,
  rsteps header bytes (new_recorder items) l = Some (s, log) -> stops log <= stop_callbacks l.
Proof. intros V B E header bytes items l s log H. exact (stops_bounded header bytes l (new_recorder items) s log H). Qed.
Print Assumptions C63_one_stop_event.

(** The same holds for an error callback, and there are no data events unless a data callback was set. *)
Theorem C63_callbacks_needed : forall (V B E : Type) (header : nat -> nat -> list B) (bytes : V -> list B) (items : list (item V E)) l s log,
  rsteps header bytes (new_recorder items) l = Some (s, log) ->
  failures log <= error_callbacks l /\ (~ In (SetData true) l -> no_data log).
Proof.
  intros V B E header bytes items l s log H. split; [exact (failures_bounded header bytes l (new_recorder items) s log H)|].
  intros N. exact (without_callback header bytes l (new_recorder items) s log eq_refl N H).
Qed.
Print Assumptions C63_callbacks_needed.

(** When all buffers have the number of channels written in the header, a reader finds every channel in the file. *)
Theorem C63_decode_partial : forall (V : Type) ch (bs : list (buffer V)) k c, Forall (shape ch) bs -> c < ch ->
  nth_error (flat_map interleave bs) (k * ch + c) = nth_error (channel c bs) k.
Proof. exact @decode. Qed.
Print Assumptions C63_decode_partial.

(** ** Findings *)
Definition mono (x : nat) : buffer nat := mk_buffer 1 [[x]].
Definition hd (ch rate : nat) : list nat := [900 + ch].
Definition one (x : nat) : list nat := [x].
Notation go := (rsteps hd one).
Definition its (l : list nat) : list (item nat nat) := map (fun x => inl (mono x)) l.

(** When the number of channels changes after the first buffer, the file cannot be read: here frame 2 of the first channel. *)
Theorem C63_channel_change_refuted : exists n s log (items : list (item nat nat)),
  go (new_recorder items) ([SetData true; SetStop true; SetError true; Start] ++ repeat (Run 0) n) = Some (s, log) /\ r_agents s = [mk_agent 0 Gone] /\
  delivered log = hd 1 1 ++ [1; 2; 3; 4] /\ channel 0 (buffers items) = [1; 2; 4] /\ nth_error [1; 2; 3; 4] (2 * 1 + 0) <> nth_error (channel 0 (buffers items)) 2.
Proof.
  exists 12. eexists _, _, [inl (mono 1); inl (mk_buffer 1 [[2]; [3]]); inl (mono 4)]. split; [vm_compute; reflexivity|]. repeat split. cbn. discriminate.
Qed.
Print Assumptions C63_channel_change_refuted.

(** stop() can lose a buffer that was recorded before the stop event: it is neither in a data event nor ever will be. *)
Theorem C63_stop_loses_refuted : exists l s log, go (new_recorder (its [1; 2; 3])) l = Some (s, log) /\ log = [Data (hd 1 1 ++ [1]); Stopped] /\
  r_blob s = [2] /\ Forall (fun a => a_pc a = Gone) (r_agents s).
Proof.
  exists [SetData true; SetStop true; Start; Run 0; Run 0; Run 0; Run 0; Stop; Run 1; Run 0; Run 1; Run 1; Run 0; Run 0].
  eexists _, _. split; [vm_compute; reflexivity|]. repeat split. repeat constructor.
Qed.
Print Assumptions C63_stop_loses_refuted.

(** A data event can come after the stop event. *)
Theorem C63_data_after_stop_refuted : exists l s log, go (new_recorder (its [1; 2])) l = Some (s, log) /\ log = [Data (hd 1 1 ++ [1]); Stopped; Data [2]].
Proof.
  exists [SetData true; SetStop true; Start; Run 0; Run 0; Run 0; Run 0; Stop; Run 1; Run 0; Run 1; Run 1; Run 0; Run 0].
  eexists _, _. split; [vm_compute; reflexivity|]. reflexivity.
Qed.
Print Assumptions C63_data_after_stop_refuted.

(** start() directly after stop() leaves the old thread recording beside the new one: the second recording repeats the last buffer of the first one, and holds the next one twice. *)
Theorem C63_restart_refuted : exists l s log, go (new_recorder (its [1; 2; 3])) l = Some (s, log) /\ ~ In Rejected log /\
  log = [Data (file hd one [mono 1]); Stopped; Data (file hd one [mono 1; mono 2; mono 2])].
Proof.
  exists ([SetData true; SetStop true; Start; Run 0; Run 0; Stop; Run 1; Run 1; Run 1; Start; Run 2; Run 2] ++ [Run 0; Run 0; Run 0] ++ [Run 2; Run 2; Run 2] ++ [Stop; Run 3; Run 3; Run 3]).
  eexists _, _. split; [vm_compute; reflexivity|]. split; [cbn; intuition discriminate|]. reflexivity.
Qed.
Print Assumptions C63_restart_refuted.

(** On a stream without buffers the recording ends without a stop event, and the recorder refuses to start ever after. *)
Theorem C63_empty_refuted : exists l s log, go (new_recorder (its [])) l = Some (s, log) /\ log = [Rejected] /\ r_agents s = [mk_agent 0 Gone] /\ r_stop_cb s = true.
Proof. exists [SetData true; SetStop true; Start; Run 0; Start]. eexists _, _. split; [vm_compute; reflexivity|]. repeat split. Qed.
Print Assumptions C63_empty_refuted.

Example C63_hypotheses : exists s log, go (new_recorder (its [1; 2; 3])) (SetData true :: [Start; Run 0; Run 0; Run 0; Run 0; Run 0; Stop; Run 1; Run 1; Run 0; Run 1; Run 0]) = Some (s, log) /\
  ~ In (SetData false) [Start; Run 0; Run 0; Run 0; Run 0; Run 0; Stop; Run 1; Run 1; Run 0; Run 1; Run 0] /\ delivered log = [901; 1; 2].
Proof. eexists _, _. split; [vm_compute; reflexivity|]. split; [cbn; intuition discriminate|reflexivity]. Qed.
Example C63_shapes : Forall (shape 2) [mk_buffer 1 [[1; 2]; [3; 4]]; mk_buffer 1 [[5]; [6]]] /\ flat_map interleave [mk_buffer 1 [[1; 2]; [3; 4]]; mk_buffer 1 [[5]; [6]]] = [1; 3; 2; 4; 5; 6].
Proof. split; [repeat constructor|reflexivity]. Qed.
