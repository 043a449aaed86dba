(** C97: a callback is given what it was installed for. *)
From Coq Require Import List Arith Bool.
From Verif Require Import Common_Model Notify_Model Notify_Spec Notify_Proofs.
Import ListNotations.

(** Whatever callbacks are installed, replaced and cleared, also while callbacks run, and whatever happens in the context: the calls
    of callbacks are, in order, for things that happened, each at most once; each call is of a callback that was installed for
    this kind of news of this node, and it is given exactly what happened; no callback meets an event it cannot unpack. *)
Theorem C97_told : forall l s, acts start l = Some s -> unreachable s = false /\ answers (fun f cb => In (Install f cb) l) (calls s) (happened l).
Proof. exact right_calls. Qed.
Print Assumptions C97_told.

(** nine kinds of news, with callbacks for most; a message for a node with a callback and for one without; the closed state *)
Example C97_told_case : exists s,
  acts start [Install On_state_change 1; Install (On_message 4) 2; Install (On_ended 4) 3; Emit (State_changed Running); Emit (Posted 4 10); Emit (Posted 5 11); Take; Return; Take;
    Install On_complete 4; Return; Take; Emit (Ended 4); Emit (Ended 4); Take; Return; Take; Install On_update 5; Install (On_audio_process 6) 6; Install (On_processor_error 6) 7; Install Run_diagnostics 8;
    Emit (Capacity 12); Emit (Block 6 13); Emit (Error 6 14); Emit (Report 15); Emit (Completed 16); Emit Sink_changed; Emit (State_changed Closed); Emit (Posted 4 17);
    Take; Return; Take; Return; Take; Return; Take; Return; Take; Return; Take; Take; Return] = Some s /\
  calls s = [(1, Event_state_change); (2, Message_data 10); (3, Event_ended); (5, Capacity_event 12); (6, Processing_event 13 6); (7, Error_event 14); (8, Diagnostics_report 15); (4, Completion_event 16); (1, Event_state_change)] /\
  stopped s = true /\ queue s = [(T_message 4, P_message 17)].
Proof. eexists. split; [vm_compute; reflexivity|]. repeat split. Qed.

(** The event loop ends with the closed state and with nothing else: before it, an event that waits can always be taken. *)
Theorem C97_until_closed : forall l s, acts start l = Some s -> ~ In (State_changed Closed) (happened l) -> stopped s = false /\ (running s = None -> queue s <> [] -> exists s', act s Take = Some s').
Proof. exact until_closed. Qed.
Print Assumptions C97_until_closed.
Example C97_until_closed_case : exists s, let l := [Install On_state_change 1; Emit (State_changed Running); Emit (State_changed Suspended); Take; Return] in
  acts start l = Some s /\ ~ In (State_changed Closed) (happened l) /\ running s = None /\ queue s <> [].
Proof. eexists. cbn zeta. split; [vm_compute; reflexivity|]. split; [intros [X|[X|[]]]; discriminate X|]. split; [reflexivity|discriminate]. Qed.
