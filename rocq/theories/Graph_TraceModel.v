(** Histories of the render graph: the control messages applied between quanta
    and the rendered quanta.  Source: /repo/src/render/thread.rs 123-254 (message
    dispatch) and 413-532 (render). *)
From Coq Require Import List Arith Bool.
From Verif Require Import Graph_Model.
Import ListNotations.

Section Trace.
Context {P Q CFG : Type}.

(** thread.rs 139-243, the messages that act on the graph.  Closing, recycling and
    startup move the graph as a whole and are modelled in the context model. *)
Inductive gop :=
| OpAdd (id : nat) (p : P) (ins outs : nat) (cfg : CFG)      (* RegisterNode *)
| OpConnect (src out dst : nat) (port : option nat)           (* ConnectNode *)
| OpDisconnect (src out dst : nat) (port : option nat)        (* DisconnectNode *)
| OpDrop (id : nat)                                           (* ControlHandleDropped *)
| OpBreaker (id : nat)                                        (* MarkCycleBreaker *)
| OpCfg (id : nat) (f : CFG -> CFG)                           (* SetChannelCount/Mode/Interpretation *)
| OpMessage (id : nat) (onmsg : P -> option P)                (* NodeMessage *)
| OpRender (frame : nat).                                     (* graph.render *)

(** one step; [None] = the render thread panics *)
Definition gstep (E : env P Q CFG) (op : gop) (g : graph P Q CFG)
  : option (graph P Q CFG * list (list (step_log P Q))) :=
  let quiet_step r := option_map (fun g' => (g', [])) r in
  match op with
  | OpAdd id p ins outs cfg => Some (add_node E g id p ins outs cfg, [])
  | OpConnect src out dst port => quiet_step (add_edge g src out dst port)
  | OpDisconnect src out dst port => quiet_step (remove_edge g src out dst port)
  | OpDrop id => quiet_step (mark_dropped g id)
  | OpBreaker id => quiet_step (mark_breaker g id)
  | OpCfg id f => quiet_step (set_cfg g id f)
  | OpMessage id m => quiet_step (route_message g id m)
  | OpRender frame => match render E frame g with
                      | Some (g', lgs, _) => Some (g', [lgs])
                      | None => None
                      end
  end.

(** the whole history; the second component lists the logs of the quanta *)
Fixpoint grun (E : env P Q CFG) (ops : list gop) (g : graph P Q CFG)
  : option (graph P Q CFG * list (list (step_log P Q))) :=
  match ops with
  | [] => Some (g, [])
  | op :: ops' =>
      match gstep E op g with
      | None => None
      | Some (g1, l1) => match grun E ops' g1 with
                         | None => None
                         | Some (g2, l2) => Some (g2, l1 ++ l2)
                         end
      end
  end.

End Trace.
Arguments gop : clear implicits.
