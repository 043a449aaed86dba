(** The way of an audio-processing event: from a script processor to the callback, and of its answer back to the graph.

    Source: /repo/src/node/script_processor.rs 146-167, 213-241, 260-272, /repo/src/render/processor.rs 60-75, /repo/src/events.rs 62-71,
    206-224, /repo/src/context/concrete_base.rs 24-48, 240-262, 330-349, /repo/src/render/graph.rs 230-262, 551-560,
    /repo/src/render/node_collection.rs 33-45, 90-93, /repo/src/render/thread.rs 142-158, 177-179, 199-204.

    A node is known by the order of its creation, an event by the node that sent it and a number.  Simplifications: of the
    control messages only registration, drop and the answers; the contents of buffers are in Script_Model.v; a node that the
    client has dropped may be removed at any quantum; a callback does not keep its event after it has returned. *)
From Coq Require Import List Arith Bool.
Import ListNotations.

(** script processors, and nodes of other kinds *)
Inductive kind := Script | Other.
(** the node that asks, and which of its blocks *)
Record request := mk_request { asked_by : nat; block : nat }.
(** control messages *)
Inductive message := Register (id n : nat) | Handle_dropped (n : nat) | Answer (id : nat) (r : request).

(** [kinds], [ids]: of all nodes made so far; [held]: the nodes the client holds; [next_id], [free]: the id provider; [handlers]: the
    ids with a callback for audio processing; [channel]: control messages; [graph]: ids with the node that is there;
    [orphans]: nodes whose handle is known to be dropped; [events]: the event queue; [callback]: the event a callback works on;
    [delivered]: the answers the render thread has passed on, with the node that got them; [panicked]: the render thread has *)
Record state := mk_state { kinds : list kind; ids : list nat; held : list nat; next_id : nat; free : list nat; handlers : list nat; channel : list message;
  graph : list (nat * nat); orphans : list nat; events : list (nat * request); callback : option (nat * request); delivered : list (nat * request); panicked : bool }.
Definition start : state := mk_state [] [] [] 0 [] [] [] [] [] [] None [] false.

Inductive action :=
  | New (k : kind)           (* concrete_base.rs 40-47, 240-262 *)
  | On (n : nat)             (* script_processor.rs 146-167: set_onaudioprocess *)
  | Release (n : nat)        (* concrete_base.rs 330-349: the client drops its handle *)
  | Receive                  (* thread.rs 128-134: the render thread handles the next message *)
  | Ask (n b : nat)          (* script_processor.rs 213-241: a block is full, an event is sent *)
  | Free (n : nat)           (* graph.rs 551-560 *)
  | Take                     (* events.rs 206-208: the event thread takes an event *)
  | Return.                  (* events.rs 210-224, 62-71: the callback returns, the event is dropped *)

Definition has (n : nat) (l : list nat) : bool := existsb (Nat.eqb n) l.
Definition kind_of (s : state) (n : nat) : option kind := nth_error (kinds s) n.
Definition is_script (s : state) (n : nat) : bool := match kind_of s n with Some Script => true | _ => false end.
(** node_collection.rs 33-38, 90-93 *)
Definition occupant (id : nat) (g : list (nat * nat)) : option nat := match find (fun p => fst p =? id) g with Some (_, n) => Some n | None => None end.
Definition insert (id n : nat) (g : list (nat * nat)) : list (nat * nat) := (id, n) :: filter (fun p => negb (fst p =? id)) g.

(** [None]: the step cannot be made in this state *)
Definition act (s : state) (a : action) : option state :=
  if panicked s then None else
  match a with
  | New k =>
      let n := length (kinds s) in
      let '(id, next, f) := match free s with i :: f => (i, next_id s, f) | [] => (next_id s, next_id s + 1, []) end in
      Some (mk_state (kinds s ++ [k]) (ids s ++ [id]) (n :: held s) next f (handlers s) (channel s ++ [Register id n]) (graph s) (orphans s) (events s) (callback s) (delivered s) false)
  | On n =>
      match nth_error (ids s) n with
      | Some id =>
          if has n (held s) && is_script s n
          then Some (mk_state (kinds s) (ids s) (held s) (next_id s) (free s) (id :: handlers s) (channel s) (graph s) (orphans s) (events s) (callback s) (delivered s) false)
          else None
      | None => None
      end
  | Release n =>
      if has n (held s)
      then Some (mk_state (kinds s) (ids s) (filter (fun m => negb (m =? n)) (held s)) (next_id s) (free s) (handlers s) (channel s ++ [Handle_dropped n]) (graph s) (orphans s) (events s) (callback s) (delivered s) false)
      else None
  | Receive =>
      match channel s with
      | Register id n :: c => Some (mk_state (kinds s) (ids s) (held s) (next_id s) (free s) (handlers s) c (insert id n (graph s)) (orphans s) (events s) (callback s) (delivered s) false)
      | Handle_dropped n :: c => Some (mk_state (kinds s) (ids s) (held s) (next_id s) (free s) (handlers s) c (graph s) (n :: orphans s) (events s) (callback s) (delivered s) false)
      | Answer id r :: c =>
          match occupant id (graph s) with
          | Some n => Some (mk_state (kinds s) (ids s) (held s) (next_id s) (free s) (handlers s) c (graph s) (orphans s) (events s) (callback s) (delivered s ++ [(n, r)]) false)
          | None => (* node_collection.rs 92: unwrap *)
              Some (mk_state (kinds s) (ids s) (held s) (next_id s) (free s) (handlers s) c (graph s) (orphans s) (events s) (callback s) (delivered s) true)
          end
      | [] => None
      end
  | Ask n b =>
      match find (fun p => snd p =? n) (graph s) with
      | Some (id, _) =>
          if is_script s n
          then Some (mk_state (kinds s) (ids s) (held s) (next_id s) (free s) (handlers s) (channel s) (graph s) (orphans s) (events s ++ [(id, mk_request n b)]) (callback s) (delivered s) false)
          else None
      | None => None
      end
  | Free n =>
      match find (fun p => snd p =? n) (graph s) with
      | Some (id, _) =>
          if has n (orphans s)
          then Some (mk_state (kinds s) (ids s) (held s) (next_id s) (free s ++ [id]) (handlers s) (channel s) (filter (fun p => negb (snd p =? n)) (graph s)) (orphans s) (events s) (callback s) (delivered s) false)
          else None
      | None => None
      end
  | Take =>
      match callback s, events s with
      | None, (id, r) :: q =>
          let c := if has id (handlers s) then Some (id, r) else None in
          Some (mk_state (kinds s) (ids s) (held s) (next_id s) (free s) (handlers s) (channel s) (graph s) (orphans s) q c (delivered s) false)
      | _, _ => None
      end
  | Return =>
      match callback s with
      | Some (id, r) => Some (mk_state (kinds s) (ids s) (held s) (next_id s) (free s) (handlers s) (channel s ++ [Answer id r]) (graph s) (orphans s) (events s) None (delivered s) false)
      | None => None
      end
  end.
Fixpoint acts (s : state) (l : list action) : option state :=
  match l with [] => Some s | a :: l' => match act s a with Some s' => acts s' l' | None => None end end.
