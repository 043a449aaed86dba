(** What the connection calls mean to a program, without node identifiers: there
    are nodes (an AudioParam counts as one, a DelayNode is a single node) and a
    set of links between an output of one and an input of another. *)
From Coq Require Import List Arith Bool.
From Verif Require Import Calls_Model.
Import ListNotations.

Record node := mk_node { n_ctx : nat; n_ins : nat; n_outs : nat; n_alive : bool; n_stays : bool }.

(** from, output, to, input *)
Definition link : Type := nat * nat * nat * nat.

Record view := mk_view { v_nodes : list node; v_links : list link }.

Definition given (o : option nat) (n : nat) : bool := match o with Some m => Nat.eqb n m | None => true end.

(** the links leaving [a], narrowed to an output, a destination, an input *)
Definition matches (a : nat) (out b inp : option nat) (l : link) : bool :=
  let '(a', o', b', i') := l in Nat.eqb a' a && given out o' && given b b' && given inp i'.

Definition same_link (l m : link) : bool :=
  let '(a, o, b, i) := l in let '(a', o', b', i') := m in
  Nat.eqb a a' && Nat.eqb o o' && Nat.eqb b b' && Nat.eqb i i'.

Definition touches (a : nat) (l : link) : bool := let '(x, _, y, _) := l in Nat.eqb x a || Nat.eqb y a.

Definition alive (v : view) (a : nat) : option node :=
  match nth_error (v_nodes v) a with Some n => if n_alive n then Some n else None | None => None end.

Definition a_param (ctx : nat) : node := mk_node ctx 1 1 true false.

Definition add_nodes (v : view) (ns : list node) : view := mk_view (v_nodes v ++ ns) (v_links v).

(** a link that is there is not added again *)
Definition add_link (v : view) (l : link) : view :=
  mk_view (v_nodes v) (if existsb (same_link l) (v_links v) then v_links v else v_links v ++ [l]).

(** naming a destination to which no such link exists is an error; otherwise the
    matching links, and no others, disappear *)
Definition cut (v : view) (a : nat) (out b inp : option nat) : outcome * view :=
  let none := negb (existsb (matches a out b inp) (v_links v)) in
  match b with
  | Some _ => if none then (Rejected InvalidAccess, v)
              else (Accepted, mk_view (v_nodes v) (filter (fun l => negb (matches a out b inp l)) (v_links v)))
  | None => (Accepted, mk_view (v_nodes v) (filter (fun l => negb (matches a out b inp l)) (v_links v)))
  end.

Fixpoint kill (l : list node) (a : nat) : list node :=
  match l, a with
  | [], _ => []
  | n :: r, 0 => mk_node (n_ctx n) (n_ins n) (n_outs n) false (n_stays n) :: r
  | n :: r, S a' => n :: kill r a'
  end.

Definition meaning (c : call) (v : view) : outcome * view :=
  match c with
  | MakeNode ctx _ ins outs params =>
      (Accepted, add_nodes v (mk_node ctx ins outs true false :: map (fun _ => a_param ctx) params))
  | MakeDelay ctx _ _ _ => (Accepted, add_nodes v [mk_node ctx 1 1 true false; a_param ctx])
  | MakePanner ctx _ params =>
      (Accepted, add_nodes v (mk_node ctx 1 1 true false :: map (fun _ => a_param ctx) params))
  | Listener _ => (Accepted, v)
  | Connect a out b inp =>
      match alive v a, alive v b with
      | Some x, Some y =>
          if negb (Nat.eqb (n_ctx x) (n_ctx y)) then (Rejected InvalidAccess, v)
          else if Nat.ltb out (n_outs x) && Nat.ltb inp (n_ins y) then (Accepted, add_link v (a, out, b, inp))
          else (Rejected IndexSize, v)
      | _, _ => (Impossible, v)
      end
  | Disconnect a => match alive v a with Some _ => cut v a None None None | None => (Impossible, v) end
  | DisconnectDest a b =>
      match alive v a, alive v b with
      | Some x, Some y =>
          if negb (Nat.eqb (n_ctx x) (n_ctx y)) then (Rejected InvalidAccess, v)
          else cut v a None (Some b) None
      | _, _ => (Impossible, v)
      end
  | DisconnectOutput a out =>
      match alive v a with
      | Some x => if Nat.ltb out (n_outs x) then cut v a (Some out) None None else (Rejected IndexSize, v)
      | None => (Impossible, v)
      end
  | DisconnectDestFromOutput a b out =>
      match alive v a, alive v b with
      | Some x, Some y =>
          if negb (Nat.eqb (n_ctx x) (n_ctx y)) then (Rejected InvalidAccess, v)
          else if Nat.ltb out (n_outs x) then cut v a (Some out) (Some b) None else (Rejected IndexSize, v)
      | _, _ => (Impossible, v)
      end
  | DisconnectDestFromOutputToInput a b out inp =>
      match alive v a, alive v b with
      | Some x, Some y =>
          if negb (Nat.eqb (n_ctx x) (n_ctx y)) then (Rejected InvalidAccess, v)
          else if Nat.ltb out (n_outs x) && Nat.ltb inp (n_ins y)
               then cut v a (Some out) (Some b) (Some inp) else (Rejected IndexSize, v)
      | _, _ => (Impossible, v)
      end
  | Drop a =>
      match alive v a with
      | Some x => (Accepted, if n_stays x then v
                             else mk_view (kill (v_nodes v) a) (filter (fun l => negb (touches a l)) (v_links v)))
      | None => (Impossible, v)
      end
  end.

Fixpoint meanings (cs : list call) (v : view) : list outcome * view :=
  match cs with
  | [] => ([], v)
  | c :: cs' => let '(r, v1) := meaning c v in let '(rs, v2) := meanings cs' v1 in (r :: rs, v2)
  end.

(** [n] contexts, each with its destination and nine listener parameters *)
Definition view0 (n : nat) : view :=
  mk_view (flat_map (fun ctx => repeat (mk_node ctx 1 1 true true) 10) (seq 0 n)) [].

(** the identifiers a constructor takes *)
Definition takes (c : call) : option (nat * list nat) :=
  match c with
  | MakeNode ctx id _ _ params => Some (ctx, id :: params)
  | MakeDelay ctx wr rd p => Some (ctx, [wr; rd; p])
  | MakePanner ctx id params => Some (ctx, id :: params)
  | _ => None
  end.

(** an object whose handle exists uses the identifier *)
Definition in_use (w : world) (ctx id : nat) : Prop :=
  exists a o, nth_error (w_objs w) a = Some (o, true) /\ o_ctx o = ctx /\ (o_in o = id \/ o_out o = id).

(** identifiers are given out while not in use (C06); 0 to 10 belong to the
    destination, the listener and its parameters *)
Definition fresh_ids (n : nat) (cs : list call) : Prop :=
  forall before c after, cs = before ++ c :: after ->
  forall ctx ids, takes c = Some (ctx, ids) ->
  NoDup ids /\ Forall (fun id => 10 < id /\ ~ in_use (snd (calls before (world0 n))) ctx id) ids.

(** the connection of the audio graph that carries a link *)
Definition carried (w : world) (l : link) (ctx : nat) (c : nat * nat * nat * option nat) : Prop :=
  let '(a, out, b, inp) := l in
  exists x y, held w a = Some x /\ held w b = Some y /\ o_ctx x = ctx /\ o_ctx y = ctx /\
              c = (o_out x, out, o_in y, Some inp).

(** the links a disconnect call names *)
Definition asks (c : call) : option (nat * option nat * option nat * option nat) :=
  match c with
  | Disconnect a => Some (a, None, None, None)
  | DisconnectDest a b => Some (a, None, Some b, None)
  | DisconnectOutput a out => Some (a, Some out, None, None)
  | DisconnectDestFromOutput a b out => Some (a, Some out, Some b, None)
  | DisconnectDestFromOutputToInput a b out inp => Some (a, Some out, Some b, Some inp)
  | _ => None
  end.

(** the call makes the program ask for the listener of a context *)
Definition wakes (ctx : nat) (c : call) : bool :=
  match c with Listener x | MakePanner x _ _ => Nat.eqb x ctx | _ => false end.

(** the message makes a node of the listener or one of its parameters, or is
    about the listener *)
Definition about_listener (m : note) : bool :=
  match m with
  | NRegister id _ _ => Nat.leb 1 id && Nat.leb id 10
  | NConnect s _ d _ | NDisconnect s _ d _ => Nat.eqb s 1 || Nat.eqb d 1
  | NDrop id | NBreaker id => Nat.eqb id 1
  end.

(** the listener, its nine parameters, their connections to it, and its
    connection to the destination, which keeps it rendering *)
Definition listener_block : list note :=
  [NRegister 1 0 9;
   NRegister 10 1 1; NRegister 9 1 1; NRegister 8 1 1; NRegister 7 1 1; NRegister 6 1 1;
   NRegister 5 1 1; NRegister 4 1 1; NRegister 3 1 1; NRegister 2 1 1;
   NConnect 2 0 1 None; NConnect 3 0 1 None; NConnect 4 0 1 None; NConnect 5 0 1 None; NConnect 6 0 1 None;
   NConnect 7 0 1 None; NConnect 8 0 1 None; NConnect 9 0 1 None; NConnect 10 0 1 None;
   NConnect 1 0 0 None].

(** the connections from the listener to panners *)
Definition to_panner (m : note) : bool :=
  match m with NConnect 1 0 _ None => true | _ => false end.

(** ** What the renderer knows: the nodes made and not dropped, with their numbers of inputs and outputs *)
Fixpoint made (log : list note) (known : nat -> option (nat * nat)) : nat -> option (nat * nat) :=
  match log with
  | [] => known
  | NRegister id ins outs :: r => made r (fun j => if Nat.eqb j id then Some (ins, outs) else known j)
  | NDrop id :: r => made r (fun j => if Nat.eqb j id then None else known j)
  | _ :: r => made r known
  end.
Definition made_by (log : list note) : nat -> option (nat * nat) := made log (fun _ => None).

(** parameters of the listener are connected after asking for the listener *)
Definition asked_first (n : nat) (cs : list call) : Prop :=
  forall before a out b inp after, cs = before ++ Connect a out b inp :: after ->
  forall x, held (snd (calls before (world0 n))) a = Some x \/ held (snd (calls before (world0 n))) b = Some x ->
  2 <= o_in x <= 10 -> existsb (wakes (o_ctx x)) before = true.
