(** The equations of an audio graph: what a fixed set of connected nodes computes, quantum after quantum. *)
From Coq Require Import List Arith Bool.
From Verif Require Import Graph_Model Graph_Spec.
Import ListNotations.

Section Flow.
Context {P Q CFG : Type}.
Variable E : env P Q CFG.
Notation nodes := (nodes P Q CFG).

(** processor state and outputs of the nodes *)
Definition moment : Type := nat -> option (P * list Q).
Definition outputs_of (m : moment) (i : nat) : list Q := match m i with Some (_, o) => o | None => [] end.

(** The signals that arrive at an input: one for each connection to it, in the order [ord] of the sending nodes *)
Definition arriving (ns : nodes) (ord : list nat) (m : moment) (id port : nat) : list Q :=
  flat_map (fun a => match get ns a with Some n => signals_of (outputs_of m a) (n_edges n) id port | None => [] end) ord.

(** [state k] is the moment after [k] quanta; [frames] lists the frame counters of the quanta.  In each quantum each node's
    processor is called once, with its own state and outputs of the quantum before, and on each input the mix
    of the signals of this quantum; it can read the outputs, of this quantum, of the nodes connected to it (AudioParams). *)
Record dataflow (ns : nodes) (ord frames : list nat) (state : nat -> moment) : Prop := {
  df_order : rendering_order ns ord;
  df_all : forall i, live ns i -> In i ord;
  df_start : forall i, state 0 i = option_map (fun n => (n_proc n, n_outputs n)) (get ns i);
  df_step : forall k f i n, nth_error frames k = Some f -> get ns i = Some n ->
    exists p o p' o' others tail, state k i = Some (p, o) /\ state (S k) i = Some (p', o') /\
      process E p (map (fun port => mixed E (n_cfg n) (arriving ns ord (state (S k)) i port)) (seq 0 (length (n_inputs n)))) o others f
        = Some (p', o', tail) /\
      forall a, connected ns a i -> others a = Some (outputs_of (state (S k)) a)
}.

(** In these states, the processors read no other outputs than those of the nodes connected to them *)
Definition reads_connected (ns : nodes) (state : nat -> moment) : Prop :=
  forall k i p outs ins v v' f, state k i = Some (p, outs) -> (forall a, connected ns a i -> v a = v' a) ->
  process E p ins outs v f = process E p ins outs v' f.

Definition never_panics : Prop := forall p ins outs v f, process E p ins outs v f <> None.

(** Rendering quanta: the logs of the quanta and what the destination puts out *)
Fixpoint play (g : graph P Q CFG) (frames : list nat) : option (graph P Q CFG * list (list (step_log P Q)) * list Q) :=
  match frames with
  | [] => Some (g, [], [])
  | f :: fs => match render E f g with
               | None => None
               | Some (g1, lgs, o) => match play g1 fs with
                                      | None => None
                                      | Some (g2, ll, os) => Some (g2, lgs :: ll, o :: os)
                                      end
               end
  end.
End Flow.
