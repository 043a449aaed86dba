(** Events and callbacks: specification. *)
From Coq Require Import List.
From Verif Require Import Notify_Model.
Import ListNotations.

(** the function that installs a callback for such news, and what the callback is to be given *)
Definition asks_for (e : news) : setter :=
  match e with
  | Ended n => On_ended n | Sink_changed => On_sink_change | State_changed _ => On_state_change | Capacity _ => On_update | Error n _ => On_processor_error n
  | Report _ => Run_diagnostics | Posted n _ => On_message n | Completed _ => On_complete | Block n _ => On_audio_process n
  end.
Definition told (e : news) : given :=
  match e with
  | Ended _ => Event_ended | Sink_changed => Event_sink_change | State_changed _ => Event_state_change | Capacity x => Capacity_event x | Error _ x => Error_event x
  | Report x => Diagnostics_report x | Posted _ x => Message_data x | Completed x => Completion_event x | Block n x => Processing_event x n
  end.
(** the news of a history, in order *)
Definition happened (l : list action) : list news := flat_map (fun a => match a with Emit e => [e] | _ => [] end) l.
(** [calls] are calls for some of the [news], in their order, each of a callback that was [installed] for it *)
Inductive answers (installed : setter -> nat -> Prop) : list (nat * given) -> list news -> Prop :=
  | no_more : forall es, answers installed [] es
  | skipped : forall cs e es, answers installed cs es -> answers installed cs (e :: es)
  | called : forall cb cs e es, installed (asks_for e) cb -> answers installed cs es -> answers installed ((cb, told e) :: cs) (e :: es).
