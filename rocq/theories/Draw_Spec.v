(** The drawing a program makes with its connection calls, and when it has no
    feedback without delay. *)
From Coq Require Import List Arith Bool.
From Verif Require Import Calls_Model Calls_Spec.
Import ListNotations.

(** an identifier some call of [cs] took in this context *)
Definition taken (cs : list call) (ctx id : nat) : Prop :=
  exists c ids, In c cs /\ takes c = Some (ctx, ids) /\ In id ids.

(** As long as nothing is rendered no identifier comes back: new ones are new. *)
Definition never_reused (cs : list call) : Prop :=
  forall before c after, cs = before ++ c :: after ->
  forall ctx ids, takes c = Some (ctx, ids) ->
  NoDup ids /\ Forall (fun id => 10 < id /\ ~ taken before ctx id) ids.

(** the program keeps its handles *)
Definition kept (cs : list call) : Prop := forall a, ~ In (Drop a) cs.

(** no link is drawn that is there already *)
Definition drawn_once (n : nat) (cs : list call) : Prop :=
  forall before a out b inp after, cs = before ++ Connect a out b inp :: after ->
  ~ In (a, out, b, inp) (v_links (snd (meanings before (view0 n)))).

(** how many AudioParams a constructor makes, if it is one *)
Definition params_made (c : call) : option nat :=
  match c with
  | MakeNode _ _ _ _ ps | MakePanner _ _ ps => Some (length ps)
  | MakeDelay _ _ _ _ => Some 1
  | _ => None
  end.

(** The constructor calls, each with the number of the node it makes; the
    parameters have the numbers after it. *)
Fixpoint layout (k : nat) (cs : list call) : list (call * nat) :=
  match cs with
  | [] => []
  | c :: r => match params_made c with
              | Some m => (c, k) :: layout (k + 1 + m) r
              | None => layout k r
              end
  end.

(** each context comes with ten objects: the destination and the listener's parameters *)
Definition placed (n : nat) (cs : list call) (c : call) (k : nat) : Prop := In (c, k) (layout (10 * n) cs).

(** AudioParam [p] belongs to node [b] *)
Definition belongs (n : nat) (cs : list call) (p b : nat) : Prop :=
  exists c m, placed n cs c b /\ params_made c = Some m /\ b < p <= b + m.
Definition a_delay (n : nat) (cs : list call) (b : nat) : Prop :=
  exists ctx wr rd p, placed n cs (MakeDelay ctx wr rd p) b.
Definition a_panner (n : nat) (cs : list call) (ctx b : nat) : Prop :=
  exists id ps, placed n cs (MakePanner ctx id ps) b.

(** the connections a constructor makes in a context: of the parameters to their
    node, within a delay from its input to its output, of the listener to a panner *)
Definition own (ctx : nat) (c : call) : list (nat * nat * nat * option nat) :=
  match c with
  | MakeNode x id _ _ ps => if Nat.eqb x ctx then map (fun p => (p, 0, id, None)) ps else []
  | MakeDelay x wr rd p => if Nat.eqb x ctx then [(p, 0, rd, None); (wr, 0, rd, Some 0)] else []
  | MakePanner x id ps => if Nat.eqb x ctx then map (fun p => (p, 0, id, None)) ps ++ [(1, 0, id, None)] else []
  | _ => []
  end.
(** those of the listener: from its nine parameters, and to the destination *)
Definition of_ears : list (nat * nat * nat * option nat) := map (fun p => (p, 0, 1, None)) (seq 2 9) ++ [(1, 0, 0, None)].

(** a connection of the renderer's graph (from, output, to, input) that the program drew *)
Definition drawn (n : nat) (cs : list call) (ctx : nat) (e : nat * nat * nat * option nat) : Prop :=
  (exists l, In l (v_links (snd (meanings cs (view0 n)))) /\ carried (snd (calls cs (world0 n))) l ctx e) \/
  (exists c k, placed n cs c k /\ In e (own ctx c)) \/
  (existsb (wakes ctx) cs = true /\ In e of_ears).

Inductive vertex := Node (a : nat) | Ears.

(** What is needed within the same quantum: a node needs what is linked to it,
    unless it is a delay; it needs its parameters (a delay, too).  The listener
    needs its parameters; panners and the destination come after it. *)
Definition at_once (n : nat) (cs : list call) (ctx : nat) (u v : vertex) : Prop :=
  let vw := snd (meanings cs (view0 n)) in
  match u, v with
  | Node a, Node b =>
      (exists nd, nth_error (v_nodes vw) a = Some nd /\ n_ctx nd = ctx) /\
      ((exists out inp, In (a, out, b, inp) (v_links vw)) /\ ~ a_delay n cs b \/ belongs n cs a b)
  | Node a, Ears => 10 * ctx < a < 10 * ctx + 10
  | Ears, Node b => b = 10 * ctx \/ a_panner n cs ctx b
  | Ears, Ears => False
  end.

(** a link was made in this context, and no node after it *)
Definition settled (n : nat) (cs : list call) (ctx : nat) : Prop :=
  exists before a out b inp after nd, cs = before ++ Connect a out b inp :: after /\
  fst (meaning (Connect a out b inp) (snd (meanings before (view0 n)))) = Accepted /\
  nth_error (v_nodes (snd (meanings before (view0 n)))) a = Some nd /\ n_ctx nd = ctx /\
  Forall (fun c => wakes ctx c = false /\ forall ids, takes c <> Some (ctx, ids)) after.
