(** Model of render quanta: multi-channel blocks of samples, mixing and summing.

    Source: /repo/src/render/quantum.rs 109-127 and 162-586.

    A channel is represented by its samples and the name of its buffer.  That
    this is what the reference-counted implementation provides is proved in
    [Quantum_HeapProofs] ([heap_refines]): copying a channel copies the name,
    writing yields a new name, the silence buffer has name 0, and two channels
    share their buffer exactly if they have the same name.  New names come from
    a counter that is passed along.

    The samples and the arithmetic on them are parameters.  The flag
    [single_valued] (line 183) is not part of this model. *)
From Coq Require Import List Arith Bool.
Import ListNotations.

(** Arithmetic on samples used by this file. *)
Record sops (V : Type) := mk_sops {
  s_zero : V;
  s_add : V -> V -> V;
  s_mul : V -> V -> V;
  s_fma : V -> V -> V -> V;    (* a * b + c *)
  s_half : V;
  s_quarter : V;
  s_sqrt05 : V
}.
Arguments s_zero {V}. Arguments s_add {V}. Arguments s_mul {V}. Arguments s_fma {V}.
Arguments s_half {V}. Arguments s_quarter {V}. Arguments s_sqrt05 {V}.

(** node/channel configuration: audio_node.rs, [ChannelCountMode],
    [ChannelInterpretation], [ChannelConfigInner] *)
Inductive count_mode := Max | ClampedMax | Explicit.
Inductive interpretation := Speakers | Discrete.
Record channel_config := mk_config {
  cc_count : nat;
  cc_mode : count_mode;
  cc_interp : interpretation
}.

Definition max_channels := 32.   (** lib.rs 21 *)

Record chan (V : Type) := mk_chan { c_name : nat; c_val : list V }.
Arguments mk_chan {V}. Arguments c_name {V}. Arguments c_val {V}.

(** [xs.iter_mut().zip(ys).for_each(|(x, y)| *x = f(x, y))] *)
Fixpoint zip_mut {A B} (f : A -> B -> A) (xs : list A) (ys : list B) : list A :=
  match xs, ys with
  | x :: xs', y :: ys' => f x y :: zip_mut f xs' ys'
  | _, _ => xs
  end.

Section Quantum.
Context {V : Type} (O : sops V) (size : nat).

Definition quantum := list (chan V).

(** quantum.rs 122-127 *)
Definition silence_chan : chan V := mk_chan 0 (repeat (s_zero O) size).

(** quantum.rs 109-111 *)
Definition chan_is_silent (c : chan V) : bool := Nat.eqb (c_name c) 0.

(** any mutable access, quantum.rs 140-144: the new name is [s] *)
Definition cwrite (s : nat) (c : chan V) (f : list V -> list V) : nat * chan V :=
  (S s, mk_chan s (f (c_val c))).

(** quantum.rs 114-120 *)
Definition chan_add (s : nat) (a b : chan V) : nat * chan V :=
  if chan_is_silent a then (s, b)
  else if negb (chan_is_silent b) then cwrite s a (fun v => zip_mut (s_add O) v (c_val b))
  else (s, a).

(** quantum.rs 257-259 *)
Definition is_silent (q : quantum) : bool :=
  negb (existsb (fun c => negb (chan_is_silent c)) q).

(** quantum.rs 220-226; the index [channels[0]] panics on an empty quantum when
    channels are added *)
Definition set_number_of_channels (q : quantum) (n : nat) : option quantum :=
  if Nat.ltb 0 n && Nat.leb n max_channels then
    match q with
    | c :: _ => Some (firstn n (q ++ repeat c (n - length q)))
    | [] => None
    end
  else None.

(** quantum.rs 511-516 *)
Definition make_silent (q : quantum) : option quantum :=
  match q with [] => None | _ :: _ => Some [silence_chan] end.

(** quantum.rs 519-521 *)
Definition force_mono (q : quantum) : quantum := firstn 1 q.

(** fill with silence or truncate, quantum.rs 300-306 and 493-500 *)
Definition fill (q : quantum) (n : nat) : quantum :=
  firstn n (q ++ repeat silence_chan (n - length q)).

(** quantum.rs 285-505.  [swap_remove] at lines 475-476 is written out. *)
Definition mix_inner (s : nat) (q : quantum) (n : nat) (i : interpretation) : option (nat * quantum) :=
  if negb (Nat.ltb 0 n && Nat.leb n max_channels) then None (* assert_valid_number_of_channels *)
  else match q with [] => None | _ =>
  match i with
  | Discrete => Some (s, fill q n)
  | Speakers =>
    if Nat.ltb 6 (length q) || Nat.ltb 6 n then Some (s, fill q n)
    else
    let z := silence_chan in
    match q, n with
    (* up mix *)
    | [a], 2 => Some (s, [a; a])
    | [a], 4 => Some (s, [a; a; z; z])
    | [a], 6 => Some (s, [z; z; a; z; z; z])
    | [l; r], 4 => Some (s, [l; r; z; z])
    | [l; r], 6 => Some (s, [l; r; z; z; z; z])
    | [l; r; sl; sr], 5 => Some (s, [l; r; z; sl; sr])
    | [l; r; sl; sr], 6 => Some (s, [l; r; z; z; sl; sr])
    (* down mix *)
    | [l; r], 1 =>
        let '(s, l) := cwrite s l (fun v =>
          zip_mut (fun l r => s_mul O (s_half O) (s_add O l r)) v (c_val r)) in
        Some (s, [l])
    | [l; r; sl; sr], 1 =>
        let '(s, l) := cwrite s l (fun v =>
          zip_mut (fun l t => let '((r, sl), sr) := t in
                     s_mul O (s_quarter O) (s_add O (s_add O (s_add O l r) sl) sr))
                  v (combine (combine (c_val r) (c_val sl)) (c_val sr))) in
        Some (s, [l])
    | [l; r; c; lfe; sl; sr], 1 =>
        let '(s, l) := cwrite s l (fun v =>
          zip_mut (fun l t => let '(((r, c), sl), sr) := t in
                     s_fma O (s_sqrt05 O) (s_add O l r) (s_fma O (s_half O) (s_add O sl sr) c))
                  v (combine (combine (combine (c_val r) (c_val c)) (c_val sl)) (c_val sr))) in
        Some (s, [l])
    | [l; r; sl; sr], 2 =>
        let '(s, l) := cwrite s l (fun v =>
          zip_mut (fun l sl => s_mul O (s_half O) (s_add O l sl)) v (c_val sl)) in
        let '(s, r) := cwrite s r (fun v =>
          zip_mut (fun r sr => s_mul O (s_half O) (s_add O r sr)) v (c_val sr)) in
        Some (s, [l; r])
    | [l; r; c; lfe; sl; sr], 2 =>
        let '(s, l) := cwrite s l (fun v =>
          zip_mut (fun l t => let '(c, sl) := t in s_add O l (s_mul O (s_sqrt05 O) (s_add O c sl)))
                  v (combine (c_val c) (c_val sl))) in
        let '(s, r) := cwrite s r (fun v =>
          zip_mut (fun r t => let '(c, sr) := t in s_add O r (s_mul O (s_sqrt05 O) (s_add O c sr)))
                  v (combine (c_val c) (c_val sr))) in
        Some (s, [l; r])
    | [l; r; c; lfe; sl; sr], 4 =>
        let '(s, l) := cwrite s l (fun v =>
          zip_mut (fun l c => s_add O l (s_mul O (s_sqrt05 O) c)) v (c_val c)) in
        let '(s, r) := cwrite s r (fun v =>
          zip_mut (fun r c => s_add O r (s_mul O (s_sqrt05 O) c)) v (c_val c)) in
        Some (s, [l; r; sl; sr])
    | _, _ => Some (s, fill q n)
    end
  end end.

(** quantum.rs 274-283 *)
Definition mix (s : nat) (q : quantum) (n : nat) (i : interpretation) : option (nat * quantum) :=
  if Nat.eqb (length q) n then Some (s, q) else mix_inner s q n i.

(** quantum.rs 575-585 *)
Definition all_channels_identical (q : quantum) : option bool :=
  match q with
  | [] => None
  | first :: rest => Some (forallb (fun c => Nat.eqb (c_name first) (c_name c)) rest)
  end.

(** quantum.rs 543-547 *)
Definition new_channels (cfg : channel_config) (n1 n2 : nat) : nat :=
  match cc_mode cfg with
  | Max => Nat.max n1 n2
  | Explicit => cc_count cfg
  | ClampedMax => Nat.min (Nat.max n1 n2) (cc_count cfg)
  end.

(** quantum.rs 565-568: pairwise sum of channels *)
Fixpoint add_zip (s : nat) (q1 q2 : quantum) : nat * quantum :=
  match q1, q2 with
  | a :: q1', b :: q2' =>
      let '(s, c) := chan_add s a b in
      let '(s, q) := add_zip s q1' q2' in (s, c :: q)
  | _, _ => (s, q1)
  end.

(** the plain path of [add], quantum.rs 560-568 *)
Definition add_plain (s : nat) (q1 q2 : quantum) (n : nat) (i : interpretation) : option (nat * quantum) :=
  match mix s q1 n i with
  | None => None
  | Some (s, q1') =>
    match mix s q2 n i with
    | None => None
    | Some (s, q2') => Some (add_zip s q1' q2')
    end
  end.

(** quantum.rs 532-569 *)
Definition add (s : nat) (q1 q2 : quantum) (cfg : channel_config) : option (nat * quantum) :=
  let n := new_channels cfg (length q1) (length q2) in
  match cc_interp cfg with
  | Discrete => add_plain s q1 q2 n Discrete
  | Speakers =>
    match all_channels_identical q1 with
    | None => None
    | Some false => add_plain s q1 q2 n Speakers
    | Some true =>
      match all_channels_identical q2 with
      | None => None
      | Some false => add_plain s q1 q2 n Speakers
      | Some true =>
        match q1, q2 with
        | a :: _, b :: _ =>
            let '(s, c) := chan_add s a b in
            mix s [c] n Speakers
        | _, _ => None
        end
      end
    end
  end.

(** The input of a node: starts as silence (graph.rs 541-545) and each
    incoming connection is added (graph.rs 555-575). *)
Fixpoint add_all (s : nat) (acc : quantum) (qs : list quantum) (cfg : channel_config)
  : option (nat * quantum) :=
  match qs with
  | [] => Some (s, acc)
  | q :: qs' => match add s acc q cfg with
                | Some (s, acc) => add_all s acc qs' cfg
                | None => None
                end
  end.

End Quantum.
