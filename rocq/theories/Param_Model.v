(** Model of AudioParam: scheduling calls, the event timeline and the computation of
    the values of a block.

    Source: /repo/src/param.rs 18-120, 150-262, 395-640, 650-1600.

    Times (f64) and values (f32) are abstract types with the operations the code
    uses ([param_ops]); the model is instantiated with IEEE numbers and with
    rationals in Param_Inst.v.  Simplification: the [dirty] flag of the timeline
    (190-262) is left out, every [push] is followed by a [sort] in the same
    function. *)
From Coq Require Import List Arith Bool.
From Verif Require Export Common_Model.
Import ListNotations.

(** param.rs 152-162 *)
Inductive etype :=
  SetValue | SetValueAtTime | LinearRamp | ExponentialRamp | CancelScheduled | SetTarget | CancelAndHold | SetValueCurve.
Definition etype_eqb (a b : etype) : bool :=
  match a, b with
  | SetValue, SetValue | SetValueAtTime, SetValueAtTime | LinearRamp, LinearRamp | ExponentialRamp, ExponentialRamp
  | CancelScheduled, CancelScheduled | SetTarget, SetTarget | CancelAndHold, CancelAndHold | SetValueCurve, SetValueCurve => true
  | _, _ => false
  end.
Definition is_ramp (e : etype) : bool := match e with LinearRamp | ExponentialRamp => true | _ => false end.

Section Param.
Context {T V : Type}.

Record param_ops := mk_param_ops {
  (* f64 *)
  t_zero : T; t_add : T -> T -> T; t_sub : T -> T -> T; t_mul : T -> T -> T; t_div : T -> T -> T;
  t_fma : T -> T -> T -> T; t_neg : T -> T; t_exp : T -> T; t_floor : T -> T; t_round : T -> T; t_max : T -> T -> T;
  t_lt : T -> T -> bool; t_le : T -> T -> bool; t_eq : T -> T -> bool; t_finite : T -> bool;
  t_of_nat : nat -> T;            (* usize as f64 *)
  t_to_nat : T -> nat -> nat;     (* [t_to_nat x n]: (x as usize).min(n) *)
  (* f32 *)
  v_zero : V; v_add : V -> V -> V; v_sub : V -> V -> V; v_mul : V -> V -> V; v_div : V -> V -> V;
  v_fma : V -> V -> V -> V; v_powf : V -> V -> V; v_abs : V -> V; v_max : V -> V -> V; v_min : V -> V -> V;
  v_lt : V -> V -> bool; v_eq : V -> V -> bool; v_finite : V -> bool; v_nan : V -> bool; v_subnormal : V -> bool;
  v_clamp : V -> V -> V -> option V;
  v_of_t : T -> V;                (* f64 as f32 *)
  v_snap : V                      (* SNAP_TO_TARGET *)
}.
Variable P : param_ops.
Variable RQ : nat.                (* RENDER_QUANTUM_SIZE, capacity of the buffer *)

(** param.rs 164-173 *)
Record event := mk_event {
  ev_type : etype; ev_value : V; ev_time : T;
  ev_constant : option T; ev_cancel : option T; ev_duration : option T; ev_values : option (list V)
}.
Definition simple (ty : etype) (v : V) (t : T) : event := mk_event ty v t None None None None.
Definition with_time (e : event) (t : T) : event :=
  mk_event (ev_type e) (ev_value e) t (ev_constant e) (ev_cancel e) (ev_duration e) (ev_values e).
Definition with_value (e : event) (v : V) : event :=
  mk_event (ev_type e) v (ev_time e) (ev_constant e) (ev_cancel e) (ev_duration e) (ev_values e).
Definition with_cancel (e : event) (t : T) : event :=
  mk_event (ev_type e) (ev_value e) (ev_time e) (ev_constant e) (Some t) (ev_duration e) (ev_values e).

(** ** The curves (param.rs 63-120) *)
Definition linear_ramp_sample (start_time duration : T) (start_value diff : V) (time : T) : V :=
  v_fma P diff (v_of_t P (t_div P (t_sub P time start_time) duration)) start_value.
Definition exponential_ramp_sample (start_time duration : T) (start_value ratio : V) (time : T) : V :=
  v_mul P start_value (v_powf P ratio (v_of_t P (t_div P (t_sub P time start_time) duration))).
Definition set_target_sample (start_time constant : T) (end_value diff : V) (time : T) : V :=
  v_fma P diff (v_of_t P (t_exp P (t_neg P (t_div P (t_sub P time start_time) constant)))) end_value.
(** param.rs 105-120; index out of bounds = [Panic] *)
Definition value_curve_sample (start_time duration : T) (values : list V) (time : T) : res V :=
  if t_le P duration (t_sub P time start_time) then from_option (nth_error values (length values - 1))
  else
    let position := t_div P (t_mul P (t_of_nat P (length values - 1)) (t_sub P time start_time)) duration in
    let k := t_to_nat P position (length values) in
    let phase := v_of_t P (t_sub P position (t_floor P position)) in
    match nth_error values (k + 1), nth_error values k with
    | Some v1, Some v0 => Ok (v_fma P (v_sub P v1 v0) phase v0)
    | _, _ => Panic
    end.

(** ** Scheduling calls (param.rs 395-640): the event sent to the render thread,
    or [None] if the call panics (in the caller) *)
Inductive call :=
| C_set_value (v : V) | C_set_value_at_time (v : V) (t : T) | C_linear_ramp (v : V) (t : T) | C_exponential_ramp (v : V) (t : T)
| C_set_target (v : V) (t c : T) | C_cancel (t : T) | C_cancel_and_hold (t : T) | C_curve (vs : list V) (t d : T).

(** lib.rs, [assert_valid_time_value] *)
Definition valid_time (t : T) : bool := t_finite P t && t_le P (t_zero P) t.

Definition call_event (c : call) : option event :=
  match c with
  | C_set_value v => if v_finite P v then Some (simple SetValue v (t_zero P)) else None
  | C_set_value_at_time v t => if v_finite P v && valid_time t then Some (simple SetValueAtTime v t) else None
  | C_linear_ramp v t => if v_finite P v && valid_time t then Some (simple LinearRamp v t) else None
  | C_exponential_ramp v t =>
      if v_finite P v && negb (v_eq P v (v_zero P)) && valid_time t then Some (simple ExponentialRamp v t) else None
  | C_set_target v t c =>
      if v_finite P v && valid_time t && valid_time c then
        if t_eq P c (t_zero P) then Some (simple SetValueAtTime v t)
        else Some (mk_event SetTarget v t (Some c) None None None)
      else None
  | C_cancel t => if valid_time t then Some (simple CancelScheduled (v_zero P) t) else None
  | C_cancel_and_hold t => if valid_time t then Some (simple CancelAndHold (v_zero P) t) else None
  | C_curve vs t d =>
      if Nat.leb 2 (length vs) && valid_time t && (t_finite P d && t_lt P (t_zero P) d)
      then Some (mk_event SetValueCurve (v_zero P) t None None (Some d) (Some vs)) else None
  end.

(** ** The processor (param.rs 650-662) *)
Record param := mk_param {
  p_default : V; p_min : V; p_max : V;
  p_intrinsic : V;
  p_arate : bool;
  p_current : V;                 (* shared with the control thread *)
  p_timeline : list event;
  p_last : option event;
  p_buffer : list V
}.
Definition set_intrinsic (p : param) (v : V) : param :=
  mk_param (p_default p) (p_min p) (p_max p) v (p_arate p) (p_current p) (p_timeline p) (p_last p) (p_buffer p).
Definition set_timeline (p : param) (l : list event) : param :=
  mk_param (p_default p) (p_min p) (p_max p) (p_intrinsic p) (p_arate p) (p_current p) l (p_last p) (p_buffer p).
Definition set_last (p : param) (e : option event) : param :=
  mk_param (p_default p) (p_min p) (p_max p) (p_intrinsic p) (p_arate p) (p_current p) (p_timeline p) e (p_buffer p).
Definition set_buffer (p : param) (b : list V) : param :=
  mk_param (p_default p) (p_min p) (p_max p) (p_intrinsic p) (p_arate p) (p_current p) (p_timeline p) (p_last p) b.
Definition set_current (p : param) (v : V) : param :=
  mk_param (p_default p) (p_min p) (p_max p) (p_intrinsic p) (p_arate p) v (p_timeline p) (p_last p) (p_buffer p).
Definition set_rate (p : param) (a : bool) : param :=
  mk_param (p_default p) (p_min p) (p_max p) (p_intrinsic p) a (p_current p) (p_timeline p) (p_last p) (p_buffer p).

(** param.rs 1603-1654 *)
Definition new_param (arate : bool) (dflt lo hi : V) : param := mk_param dflt lo hi dflt arate dflt [] None [].

(** ** Sorting (param.rs 248-252): [sort_by] is a stable sort; it panics if a
    time is NaN and there is something to compare it with *)
Fixpoint insert_event (e : event) (l : list event) : list event :=
  match l with
  | [] => [e]
  | x :: l' => if t_le P (ev_time e) (ev_time x) then e :: l else x :: insert_event e l'
  end.
Definition sort_events (l : list event) : list event := fold_right insert_event [] l.
Definition sort_timeline (l : list event) : res (list event) :=
  if Nat.ltb (length l) 2 || forallb (fun e => t_le P (ev_time e) (ev_time e)) l then Ok (sort_events l) else Panic.

(** ** Incoming events *)

(** param.rs 800-860 *)
Definition handle_cancel (p : param) (t : T) : res param :=
  let restored :=
    match p_timeline p with
    | [] => Ok p
    | cur :: _ =>
        if is_ramp (ev_type cur) && t_le P t (ev_time cur)
        then match p_last p with None => Panic | Some last => Ok (set_intrinsic p (ev_value last)) end
        else Ok p
    end in
  do p' <- restored; Ok (set_timeline p' (filter (fun e => t_lt P (ev_time e) t) (p_timeline p'))).

(** param.rs 866-890: indices of the closest event not after and after [t];
    [None] as a bound stands for f64::MIN and f64::MAX *)
Fixpoint neighbours (t : T) (i : nat) (l : list event) (e1 : option (nat * T)) (e2 : option (nat * T)) : option nat * option nat :=
  match l with
  | [] => (option_map fst e1, option_map fst e2)
  | q :: l' =>
      if (match e1 with None => true | Some (_, t1) => t_le P t1 (ev_time q) end) && t_le P (ev_time q) t
      then neighbours t (S i) l' (Some (i, ev_time q)) e2
      else if (match e2 with None => true | Some (_, t2) => t_lt P (ev_time q) t2 end) && t_lt P t (ev_time q)
           then neighbours t (S i) l' e1 (Some (i, ev_time q))
           else neighbours t (S i) l' e1 e2
  end.

(** param.rs 892-930 *)
Definition mark_cancelled (t : T) (l : list event) : res (list event) :=
  let '(e1, e2) := neighbours t 0 l None None in
  match e2 with
  | Some i =>
      Ok (update i (fun e => if is_ramp (ev_type e) then with_cancel e t else e) l)
  | None =>
      match e1 with
      | None => Ok l
      | Some i =>
          match nth_error l i with
          | None => Panic
          | Some e =>
              if etype_eqb (ev_type e) SetTarget then Ok (update i (fun e => with_cancel e t) l)
              else if etype_eqb (ev_type e) SetValueCurve then
                match ev_duration e with
                | None => Panic
                | Some d => if t_le P t (t_add P (ev_time e) d) then Ok (update i (fun e => with_cancel e t) l) else Ok l
                end
              else Ok l
          end
      end
  end.

(** param.rs 862-945 *)
Definition handle_cancel_and_hold (p : param) (t : T) : res param :=
  do l <- sort_timeline (p_timeline p);
  do l' <- mark_cancelled t l;
  Ok (set_timeline p (filter (fun e => t_le P (match ev_cancel e with Some c => c | None => ev_time e end) t) l')).

(** param.rs 957-996: the assertions on value curves *)
Definition curve_checks (p : param) (e : event) : res unit :=
  let new_curve :=
    if etype_eqb (ev_type e) SetValueCurve then
      match ev_duration e with
      | None => Panic
      | Some d => if forallb (fun q => t_le P (ev_time q) (ev_time e) || t_le P (t_add P (ev_time e) d) (ev_time q)) (p_timeline p)
                  then Ok tt else Panic
      end
    else Ok tt in
  do _ <- new_curve;
  match ev_type e with
  | SetValueAtTime | SetValue | LinearRamp | ExponentialRamp | SetTarget =>
      if forallb (fun q => if etype_eqb (ev_type q) SetValueCurve then
                             match ev_duration q with
                             | None => false
                             | Some d => t_le P (ev_time e) (ev_time q) || t_le P (t_add P (ev_time q) d) (ev_time e)
                             end
                           else true) (p_timeline p)
      then Ok tt else Panic
  | _ => Ok tt
  end.

(** param.rs 797-1052 *)
Definition handle_incoming_event (p : param) (e : event) : res param :=
  match ev_type e with
  | CancelScheduled => handle_cancel p (ev_time e)
  | CancelAndHold => handle_cancel_and_hold p (ev_time e)
  | _ =>
      do _ <- curve_checks p e;
      let p1 := if etype_eqb (ev_type e) SetValue then set_intrinsic p (ev_value e) else p in
      let implicit := simple SetValue (p_intrinsic p1) (t_zero P) in
      let l1 := if (match p_timeline p1, p_last p1 with [], None => true | _, _ => false end) && is_ramp (ev_type e)
                then [implicit] else p_timeline p1 in
      let l2 := if (match l1 with [] => true | _ => false end) && etype_eqb (ev_type e) SetTarget
                then [implicit] else l1 in
      do l3 <- sort_timeline (l2 ++ [e]);
      Ok (set_timeline p1 l3)
  end.

(** ** Computing a block *)

(** param.rs 642-648 *)
Record block := mk_block { b_time : T; b_dt : T; b_count : nat; b_arate : bool; b_next : T }.

(** ArrayVec::push: panics beyond the capacity *)
Definition extend (p : param) (vs : list V) : res param :=
  if Nat.leb (length (p_buffer p) + length vs) RQ then Ok (set_buffer p (p_buffer p ++ vs)) else Panic.

(** [((time - block_time).max(0.) / dt).round() as usize).min(count)] *)
Definition end_index (b : block) (time : T) : nat :=
  t_to_nat P (t_round P (t_div P (t_max P (t_sub P time (b_time b)) (t_zero P)) (b_dt b))) (b_count b).

(** the sampling loops: [n] samples from [time] on, [time += dt] after each *)
Fixpoint samples (n : nat) (time dt : T) (f : T -> res V) : res (list V) :=
  match n with
  | O => Ok []
  | S n' => do v <- f time; do vs <- samples n' (t_add P time dt) dt f; Ok (v :: vs)
  end.

(** the common shape of the a-rate part of ramps, targets and curves: sample up to
    [end_time]; the intrinsic value becomes the last sample *)
Definition sample_block (p : param) (b : block) (end_time : T) (f : T -> res V) : res param :=
  if b_arate b then
    let start := length (p_buffer p) in
    let stop := end_index b end_time in
    if Nat.ltb start stop then
      let time := t_fma P (t_of_nat P start) (b_dt b) (b_time b) in
      do vs <- samples (stop - start) time (b_dt b) f;
      do p' <- extend p vs;
      Ok (set_intrinsic p' (last vs (v_zero P)))
    else Ok p
  else Ok p.

(** The results of the following functions: the new state, and whether the loop ends *)

(** param.rs 1055-1096 *)
Definition do_set_value (p : param) (b : block) (e : event) (rest : list event) : res (param * bool) :=
  let time := if t_eq P (ev_time e) (t_zero P) then b_time b else ev_time e in
  do p1 <- (if b_arate b then extend p (repeat (p_intrinsic p) (end_index b time - length (p_buffer p))) else Ok p);
  if t_lt P (b_next b) time then Ok (p1, true)
  else
    let p2 := set_intrinsic p1 (ev_value e) in
    Ok (set_last (set_timeline p2 rest) (Some (if t_eq P time (ev_time e) then e else with_time e time)), false).

(** param.rs 1098-1172 *)
Definition do_linear_ramp (p : param) (b : block) (e : event) (rest : list event) : res (param * bool) :=
  match p_last p with
  | None => Panic
  | Some last =>
      let start_time := ev_time last in
      let duration := t_sub P (ev_time e) start_time in
      let end_time := match ev_cancel e with Some c => c | None => ev_time e end in
      let diff := v_sub P (ev_value e) (ev_value last) in
      let f := linear_ramp_sample start_time duration (ev_value last) diff in
      do p1 <- sample_block p b end_time (fun t => Ok (f t));
      if t_le P (b_next b) end_time then Ok (set_intrinsic p1 (f (b_next b)), true)
      else match ev_cancel e with
           | Some _ =>
               let v := f end_time in
               Ok (set_last (set_timeline (set_intrinsic p1 v) rest) (Some (with_value (with_time e end_time) v)), false)
           | None => Ok (set_last (set_timeline (set_intrinsic p1 (ev_value e)) rest) (Some e), false)
           end
  end.

(** param.rs 1174-1283 *)
Definition do_exponential_ramp (p : param) (b : block) (e : event) (rest : list event) : res (param * bool) :=
  match p_last p with
  | None => Panic
  | Some last =>
      let start_time := ev_time last in
      let duration := t_sub P (ev_time e) start_time in
      let end_time := match ev_cancel e with Some c => c | None => ev_time e end in
      let ratio := v_div P (ev_value e) (ev_value last) in
      if v_eq P (ev_value last) (v_zero P) || v_lt P (v_mul P (ev_value last) (ev_value e)) (v_zero P)
      then Ok (set_timeline p (simple SetValueAtTime (ev_value e) end_time :: rest), false)
      else
        let f := exponential_ramp_sample start_time duration (ev_value last) ratio in
        do p1 <- sample_block p b end_time (fun t => Ok (f t));
        if t_le P (b_next b) end_time then Ok (set_intrinsic p1 (f (b_next b)), true)
        else match ev_cancel e with
             | Some _ =>
                 let v := f end_time in
                 Ok (set_last (set_timeline (set_intrinsic p1 v) rest) (Some (with_value (with_time e end_time) v)), false)
             | None => Ok (set_last (set_timeline (set_intrinsic p1 (ev_value e)) rest) (Some e), false)
             end
  end.

(** param.rs 1290-1427 *)
Definition do_set_target (p : param) (b : block) (e : event) (rest : list event) : res (param * bool) :=
  let '(end1, ended1) :=
    match rest with
    | [] => (b_next b, false)
    | nxt :: _ => if is_ramp (ev_type nxt) then (b_time b, true)
                  else if t_lt P (ev_time nxt) (b_next b) then (ev_time nxt, true) else (b_next b, false)
    end in
  let '(end_time, ended) :=
    match ev_cancel e with
    | Some c => if t_lt P c (b_next b) then (c, true) else (end1, ended1)
    | None => (end1, ended1)
    end in
  match p_last p, ev_constant e with
  | Some last, Some constant =>
      let start_time := ev_time e in
      let end_value := ev_value e in
      let diff := v_sub P (ev_value last) end_value in
      let f := set_target_sample start_time constant end_value diff in
      do p1 <- sample_block p b end_time
                 (fun t => Ok (if t_lt P (t_sub P t start_time) (t_zero P) then p_intrinsic p else f t));
      if negb ended then
        let v := f (b_next b) in
        if v_lt P (v_abs P (v_sub P end_value v)) (v_snap P) then
          let p2 := set_intrinsic p1 end_value in
          let p3 := if v_eq P end_value (v_zero P)
                    then set_buffer p2 (map (fun x => if v_subnormal P x then v_zero P else x) (p_buffer p2)) else p2 in
          Ok (set_timeline p3 (simple SetValueAtTime end_value (b_next b) :: rest), true)
        else Ok (set_intrinsic p1 v, true)
      else
        let v := f end_time in
        Ok (set_last (set_timeline (set_intrinsic p1 v) rest) (Some (with_value (with_time e end_time) v)), false)
  | _, _ => Panic
  end.

(** param.rs 1429-1503 *)
Definition do_value_curve (p : param) (b : block) (e : event) (rest : list event) : res (param * bool) :=
  match ev_duration e, ev_values e with
  | Some duration, Some values =>
      let start_time := ev_time e in
      let end_time := match ev_cancel e with Some c => c | None => t_add P start_time duration end in
      let f := value_curve_sample start_time duration values in
      do p1 <- sample_block p b end_time (fun t => if t_lt P t start_time then Ok (p_intrinsic p) else f t);
      if t_le P (b_next b) end_time then do v <- f (b_next b); Ok (set_intrinsic p1 v, true)
      else
        do v <- match ev_cancel e with
                | Some _ => f end_time
                | None => from_option (nth_error values (length values - 1))
                end;
        Ok (set_last (set_timeline (set_intrinsic p1 v) rest) (Some (with_value (with_time e end_time) v)), false)
  | _, _ => Panic
  end.

(** param.rs 1561-1598: one iteration of the loop *)
Definition do_event (p : param) (b : block) : res (param * bool) :=
  match p_timeline p with
  | [] =>
      do p1 <- (if b_arate b then extend p (repeat (p_intrinsic p) (b_count b - length (p_buffer p))) else Ok p);
      Ok (p1, true)
  | e :: rest =>
      match ev_type e with
      | SetValue | SetValueAtTime => do_set_value p b e rest
      | LinearRamp => do_linear_ramp p b e rest
      | ExponentialRamp => do_exponential_ramp p b e rest
      | SetTarget => do_set_target p b e rest
      | SetValueCurve => do_value_curve p b e rest
      | CancelScheduled | CancelAndHold => Panic
      end
  end.

Fixpoint do_events (fuel : nat) (p : param) (b : block) : res param :=
  match fuel with
  | O => Stuck
  | S fuel' => do r <- do_event p b; if snd r then Ok (fst r) else do_events fuel' (fst r) b
  end.

(** param.rs 1505-1600; the number of iterations is bounded by twice the number of
    events (an exponential ramp may first be replaced by a set-value event) *)
Definition compute_buffer (p : param) (block_time dt : T) (count : nat) : res param :=
  do cur <- from_option (v_clamp P (p_intrinsic p) (p_min p) (p_max p));
  let p1 := set_buffer (set_current p cur) [] in
  let next := t_fma P dt (t_of_nat P count) block_time in
  let constant :=
    match p_timeline p1 with
    | [] => true
    | e :: _ => if is_ramp (ev_type e) then false else t_le P next (ev_time e)
    end in
  do p2 <- (if negb (p_arate p1) || constant then extend p1 [p_intrinsic p1] else Ok p1);
  if constant then Ok p2
  else do_events (2 * length (p_timeline p2) + 1) p2 (mk_block block_time dt count (p_arate p2) next).

(** ** Mixing (param.rs 738-795).  [input] is the channel of the (mono) input,
    [silent] the silence test; the result is the list of values handed to the node:
    a single one, or one per frame. *)
Definition limit (p : param) (v : V) : V :=
  if v_nan P v then p_default p else v_min P (v_max P v (p_min p)) (p_max p).

Definition mix_to_output (p : param) (input : list V) (silent : bool) : res (list V) :=
  if Nat.eqb (length (p_buffer p)) 1 || negb (p_arate p) then
    match p_buffer p with
    | [] => Panic
    | value :: _ =>
        if silent || negb (p_arate p)
        then match input with
             | [] => Panic
             | i0 :: _ => Ok [limit p (v_add P value i0)]
             end
        else Ok (map (fun i => limit p (v_add P i value)) input)
    end
  else
    Ok (map (fun ip => limit p (v_add P (fst ip) (snd ip))) (combine input (p_buffer p))
        ++ skipn (length (p_buffer p)) input).

(** param.rs 665-682 *)
Definition process (p : param) (time dt : T) (input : list V) (silent : bool) : res (param * list V) :=
  do p' <- compute_buffer p time dt RQ;
  do out <- mix_to_output p' input silent;
  Ok (p', out).

(** ** Histories: scheduling calls and quanta *)
Inductive pop :=
| Schedule (c : call)                                              (* a call, and its message *)
| Rate (arate : bool)
| Quantum (time dt : T) (input : list V) (silent : bool).

(** A call that panics in the caller has no effect on the render thread. *)
Definition pstep (p : param) (o : pop) : res (param * list (list V)) :=
  match o with
  | Schedule c => match call_event c with
                  | None => Ok (p, [])
                  | Some e => do p' <- handle_incoming_event p e; Ok (p', [])
                  end
  | Rate a => Ok (set_rate p a, [])
  | Quantum time dt input silent => do r <- process p time dt input silent; Ok (fst r, [snd r])
  end.

Fixpoint prun (p : param) (os : list pop) : res (param * list (list V)) :=
  match os with
  | [] => Ok (p, [])
  | o :: os' => do r <- pstep p o; do r' <- prun (fst r) os'; Ok (fst r', snd r ++ snd r')
  end.

End Param.
