(** Model of the BiquadFilterNode and the IIRFilterNode.

    Source: /repo/src/node/biquad_filter.rs 28-373 (coefficients), 601 (initial state), 764-900 (rendering);
    /repo/src/node/iir_filter.rs 27-64 (checks), 276-322 (renderer), 324-413 (rendering). *)
From Coq Require Import List Arith Bool ZArith.
From Verif Require Export Common_Model Quantum_Model.
From Verif Require Import Arith_Model Route_Spec.
Import ListNotations.

Section Filter.
Context {T V : Type}.
Variable A : arith T V.
Variable size : nat.   (* RENDER_QUANTUM_SIZE *)
Notation quantum := (list (chan V)).

Local Notation "x +! y" := (t_add A x y) (at level 50, left associativity).
Local Notation "x -! y" := (t_sub A x y) (at level 50, left associativity).
Local Notation "x *! y" := (t_mul A x y) (at level 40, left associativity).
Local Notation "x /! y" := (t_div A x y) (at level 40, left associativity).
Local Notation "# n" := (t_of_Z A n) (at level 5, n at level 0).

(** ** Biquad coefficients: biquad_filter.rs 17-26 *)
Record coefs := mk_coefs { k_b0 : T; k_b1 : T; k_b2 : T; k_a1 : T; k_a2 : T }.
(** a constant gain *)
Definition wire (g : T) : coefs := mk_coefs g #0 #0 #0 #0.
(** 28-38 *)
Definition normalize_coefs (b0 b1 b2 a0 a1 a2 : T) : coefs :=
  let scale := #1 /! a0 in mk_coefs (b0 *! scale) (b1 *! scale) (b2 *! scale) (a1 *! scale) (a2 *! scale).
(** 53-54: shared by lowpass and highpass *)
Definition alpha_q_db (w0 q : T) : T := t_sin A w0 /! (#2 *! t_pow A #10 (q /! #20)).
(** 40-67 *)
Definition lowpass_coefs (freq q : T) : coefs :=
  if t_eq A freq #1 then wire #1
  else
    let w0 := t_PI A *! freq in
    let alpha := alpha_q_db w0 q in
    let cos_w0 := t_cos A w0 in
    let beta := (#1 -! cos_w0) /! #2 in
    normalize_coefs beta (#2 *! beta) beta (#1 +! alpha) (#(-2) *! cos_w0) (#1 -! alpha).
(** 69-106 *)
Definition highpass_coefs (freq q : T) : coefs :=
  if t_eq A freq #1 then wire #0
  else if t_eq A freq #0 then wire #1
  else
    let w0 := t_PI A *! freq in
    let alpha := alpha_q_db w0 q in
    let cos_w0 := t_cos A w0 in
    let beta := (#1 +! cos_w0) /! #2 in
    normalize_coefs beta (#(-2) *! beta) beta (#1 +! alpha) (#(-2) *! cos_w0) (#1 -! alpha).
(** [freq > 0. && freq < 1.] *)
Definition inner (freq : T) : bool := t_lt A #0 freq && t_lt A freq #1.
(** 108-146 *)
Definition bandpass_coefs (freq q : T) : coefs :=
  if inner freq then
    if t_lt A #0 q then
      let w0 := t_PI A *! freq in
      let alpha := t_sin A w0 /! (#2 *! q) in
      let cos_w0 := t_cos A w0 in
      normalize_coefs alpha #0 (t_neg A alpha) (#1 +! alpha) (#(-2) *! cos_w0) (#1 -! alpha)
    else wire #1
  else wire #0.
(** 148-185 *)
Definition notch_coefs (freq q : T) : coefs :=
  if inner freq then
    if t_lt A #0 q then
      let w0 := t_PI A *! freq in
      let alpha := t_sin A w0 /! (#2 *! q) in
      let cos_w0 := t_cos A w0 in
      normalize_coefs #1 (#(-2) *! cos_w0) #1 (#1 +! alpha) (#(-2) *! cos_w0) (#1 -! alpha)
    else wire #0
  else wire #1.
(** 187-222 *)
Definition allpass_coefs (freq q : T) : coefs :=
  if inner freq then
    if t_lt A #0 q then
      let w0 := t_PI A *! freq in
      let alpha := t_sin A w0 /! (#2 *! q) in
      let cos_w0 := t_cos A w0 in
      normalize_coefs (#1 -! alpha) (#(-2) *! cos_w0) (#1 +! alpha) (#1 +! alpha) (#(-2) *! cos_w0) (#1 -! alpha)
    else wire #(-1)
  else wire #1.
(** 224-263 *)
Definition peaking_coefs (freq q gain : T) : coefs :=
  let a := t_pow A #10 (gain /! #40) in
  if inner freq then
    if t_lt A #0 q then
      let w0 := t_PI A *! freq in
      let alpha := t_sin A w0 /! (#2 *! q) in
      let cos_w0 := t_cos A w0 in
      normalize_coefs (#1 +! alpha *! a) (#(-2) *! cos_w0) (#1 -! alpha *! a) (#1 +! alpha /! a) (#(-2) *! cos_w0) (#1 -! alpha /! a)
    else wire (a *! a)
  else wire #1.
(** SQRT_2 is the square root of 2, correctly rounded *)
Definition shelf_alpha (w0 a : T) : T := #2 *! (t_sin A w0 /! #2 *! t_sqrt A #2) *! t_sqrt A a.
(** 265-304 *)
Definition lowshelf_coefs (freq gain : T) : coefs :=
  let a := t_pow A #10 (gain /! #40) in
  if t_eq A freq #1 then wire (a *! a)
  else if t_eq A freq #0 then wire #1
  else
    let w0 := t_PI A *! freq in
    let cos_w0 := t_cos A w0 in
    let s := shelf_alpha w0 a in
    let p := a +! #1 in
    let m := a -! #1 in
    normalize_coefs (a *! (p -! m *! cos_w0 +! s)) (#2 *! a *! (m -! p *! cos_w0)) (a *! (p -! m *! cos_w0 -! s))
      (p +! m *! cos_w0 +! s) (#(-2) *! (m +! p *! cos_w0)) (p +! m *! cos_w0 -! s).
(** 306-345 *)
Definition highshelf_coefs (freq gain : T) : coefs :=
  let a := t_pow A #10 (gain /! #40) in
  if t_eq A freq #1 then wire #1
  else if t_lt A #0 freq then
    let w0 := t_PI A *! freq in
    let cos_w0 := t_cos A w0 in
    let s := shelf_alpha w0 a in
    let p := a +! #1 in
    let m := a -! #1 in
    normalize_coefs (a *! (p +! m *! cos_w0 +! s)) (#(-2) *! a *! (m +! p *! cos_w0)) (a *! (p +! m *! cos_w0 -! s))
      (p -! m *! cos_w0 +! s) (#2 *! (m -! p *! cos_w0)) (p -! m *! cos_w0 -! s)
  else wire (a *! a).

Inductive filter_type := Lowpass | Highpass | Bandpass | Notch | Allpass | Peaking | Lowshelf | Highshelf.
(** [x.clamp(0., 1.)] *)
Definition clamp01 (x : T) : T := if t_lt A x #0 then #0 else if t_lt A #1 x then #1 else x.
(** 347-371 *)
Definition calculate_coefs (type_ : filter_type) (sample_rate f0 gain q : T) : coefs :=
  let freq := clamp01 (f0 /! (sample_rate /! #2)) in
  match type_ with
  | Lowpass => lowpass_coefs freq q
  | Highpass => highpass_coefs freq q
  | Bandpass => bandpass_coefs freq q
  | Notch => notch_coefs freq q
  | Allpass => allpass_coefs freq q
  | Peaking => peaking_coefs freq q gain
  | Lowshelf => lowshelf_coefs freq gain
  | Highshelf => highshelf_coefs freq gain
  end.
(** 374-380 *)
Definition computed_freq (freq detune : V) : V :=
  if negb (v_eq A detune (v_zero A)) then v_mul A freq (v_exp2 A (v_div A detune (v_of_Z A 1200))) else freq.

(** ** Biquad rendering *)
(** values of the AudioParams in a quantum: 1 or [size] *)
Record biquad_params := mk_biquad_params { q_frequency : list V; q_detune : list V; q_q : list V; q_gain : list V }.
(** the coefficients of a frame; params are read cyclically *)
Definition coefs_at (type_ : filter_type) (sample_rate : V) (p : biquad_params) (i : nat) : res coefs :=
  let value l := index l (i mod length l) in
  do f <- value (q_frequency p);
  do d <- value (q_detune p);
  do q <- value (q_q p);
  do g <- value (q_gain p);
  Ok (calculate_coefs type_ (t_of_v A sample_rate) (t_of_v A (computed_freq f d)) (t_of_v A g) (t_of_v A q)).
(** 818-856 *)
Definition coefs_list (type_ : filter_type) (sample_rate : V) (p : biquad_params) : res (list coefs) :=
  do c <- coefs_at type_ sample_rate p 0;
  let single l := length l =? 1 in
  if single (q_frequency p) && single (q_detune p) && single (q_q p) && single (q_gain p) then Ok (repeat c size)
  else do cs <- map_res (coefs_at type_ sample_rate p) (seq 1 (size - 1)); Ok (c :: cs).

(** [x1, x2, y1, y2] *)
Definition xy : Type := (T * T * T * T)%type.
Definition xy_zero : xy := (#0, #0, #0, #0).
(** 884-888: NaN, infinities and subnormal numbers become 0 *)
Definition flush (y : T) : T := if t_normal A y then y else #0.
(** 873-898: one frame; the result is the state and the output *)
Definition biquad_step (c : coefs) (s : xy) (i : V) : xy * V :=
  let '(x1, x2, y1, y2) := s in
  let x := t_of_v A i in
  let y := flush (k_b0 c *! x +! k_b1 c *! x1 +! k_b2 c *! x2 -! k_a1 c *! y1 -! k_a2 c *! y2) in
  ((x, x1, y, y1), v_of_t A y).
Fixpoint biquad_channel (cs : list coefs) (s : xy) (input : list V) : xy * list V :=
  match cs, input with
  | c :: cs', i :: input' =>
      let '(s', o) := biquad_step c s i in
      let '(s'', os) := biquad_channel cs' s' input' in
      (s'', o :: os)
  | _, _ => (s, [])
  end.
(** 783-787: the filter of a channel has not come to rest *)
Definition xy_live (s : xy) : bool := let '(x1, x2, y1, y2) := s in t_normal A x1 || t_normal A x2 || t_normal A y1 || t_normal A y2.

(** ** The part both nodes share: biquad_filter.rs 772-816 and 858-903, iir_filter.rs 333-413.
    [run] processes a channel.  All samples of the output are written, so what the output held before does not matter; the
    channels get new buffers, named from [s] on. *)
Section Shared.
Context {S : Type}.
Variable start : S.
Variable live : S -> bool.
Variable run : S -> list V -> res (S * list V).

Fixpoint run_channels (states : list S) (input : quantum) (i s : nat) : res (list S * quantum) :=
  match states with
  | [] => Ok ([], [])
  | st :: states' =>
      do c <- index input (if is_silent input then 0 else i);
      do (st', o) <- run st (c_val c);
      do (sts, os) <- run_channels states' input (Datatypes.S i) (Datatypes.S s);
      Ok (st' :: sts, mk_chan s o :: os)
  end.
Definition filter_quantum (states : list S) (s : nat) (input output : quantum) : res (list S * quantum * bool) :=
  if is_silent input && negb (existsb live states) then
    do o <- from_option (make_silent (sops_of A) size output); Ok (states, o, false)
  else
    let states := if is_silent input then states else firstn (length input) (states ++ repeat start (length input - length states)) in
    do _ <- from_option (set_number_of_channels output (length states));
    do (sts, os) <- run_channels states input 0 s;
    Ok (sts, os, true).
End Shared.

Definition biquad_quantum (type_ : filter_type) (sample_rate : V) (p : biquad_params) (states : list xy) (s : nat) (input output : quantum) : res (list xy * quantum * bool) :=
  if is_silent input && negb (existsb xy_live states) then
    do o <- from_option (make_silent (sops_of A) size output); Ok (states, o, false)
  else
    do cs <- coefs_list type_ sample_rate p;
    filter_quantum xy_zero xy_live (fun st i => Ok (biquad_channel cs st i)) states s input output.

(** ** IIR filter *)
(** iir_filter.rs 15, 27-64 *)
Definition MAX_IIR_COEFFS_LEN : nat := 20.
Definition check_feedforward (coefs : list T) : res unit :=
  do _ <- check (negb (length coefs =? 0) && (length coefs <=? MAX_IIR_COEFFS_LEN));
  check (negb (forallb (fun f => t_eq A f #0) coefs)).
Definition check_feedback (coefs : list T) : res unit :=
  do _ <- check (negb (length coefs =? 0) && (length coefs <=? MAX_IIR_COEFFS_LEN));
  do a0 <- index coefs 0; check (negb (t_eq A a0 #0)).
(** 276-322: the normalised coefficients and the states of two channels *)
Definition pad (n : nat) (l : list T) : list T := l ++ repeat #0 (n - length l).
Definition iir_start : list T := repeat #0 MAX_IIR_COEFFS_LEN.
Definition iir_new (feedforward feedback : list T) : res (list (T * T) * list (list T)) :=
  do _ <- check_feedforward feedforward;
  do _ <- check_feedback feedback;
  let n := Nat.max (length feedforward) (length feedback) in
  do a0 <- index feedback 0;
  Ok (map (fun p => (fst p /! a0, snd p /! a0)) (combine (pad n feedforward) (pad n feedback)), [iir_start; iir_start]).

(** 396-399: the states move up *)
Fixpoint iir_update (cs : list (T * T)) (x y : T) (st : list T) : res (list T) :=
  match cs with
  | [] => Ok st
  | (b, a) :: cs' =>
      match st with
      | _ :: rest =>
          do s1 <- index rest 0;
          do r <- iir_update cs' x y rest;
          Ok ((b *! x -! a *! y +! s1) :: r)
      | [] => Panic
      end
  end.
(** 384-407: one frame *)
Definition iir_step (cs : list (T * T)) (st : list T) (i : V) : res (list T * V) :=
  let x := t_of_v A i in
  do c <- index cs 0;
  do s0 <- index st 0;
  let y := flush (t_fma A (fst c) x s0) in
  do st' <- iir_update (tl cs) x y st;
  Ok (st', v_of_t A y).
Fixpoint iir_channel (cs : list (T * T)) (st : list T) (input : list V) : res (list T * list V) :=
  match input with
  | [] => Ok (st, [])
  | i :: input' =>
      do (st', o) <- iir_step cs st i;
      do (st'', os) <- iir_channel cs st' input';
      Ok (st'', o :: os)
  end.
(** 341-347 *)
Definition iir_live (cs : list (T * T)) (st : list T) : bool := existsb (t_normal A) (firstn (length cs) st).
Definition iir_quantum (cs : list (T * T)) (states : list (list T)) (s : nat) (input output : quantum) : res (list (list T) * quantum * bool) :=
  filter_quantum iir_start (iir_live cs) (iir_channel cs) states s input output.

(** ** getFrequencyResponse *)
(** num_complex: the operations used *)
Definition complex : Type := (T * T)%type.
Definition c_mul (x y : complex) : complex := (fst x *! fst y -! snd x *! snd y, fst x *! snd y +! snd x *! fst y).
Definition c_div (x y : complex) : complex :=
  let n := fst y *! fst y +! snd y *! snd y in
  ((fst x *! fst y +! snd x *! snd y) /! n, (snd x *! fst y -! fst x *! snd y) /! n).
Definition c_add (x y : complex) : complex := (fst x +! fst y, snd x +! snd y).
(** a real number added to or multiplied with a complex one *)
Definition r_add (x : T) (y : complex) : complex := (x +! fst y, snd y).
Definition r_mul (x : T) (y : complex) : complex := (x *! fst y, x *! snd y).
(** norm and arg; as f32 *)
Definition to_polar (x : complex) : V * V := (v_of_t A (t_hypot A (fst x) (snd x)), v_of_t A (t_atan2 A (snd x) (fst x))).
(** biquad_filter.rs 681-740, one frequency: magnitude and phase, [None] when they are NaN.  The values of the params are
    those the control thread last knows of. *)
Definition biquad_response (type_ : filter_type) (sample_rate frequency detune gain q freq : V) : option (V * V) :=
  let n_quist := v_div A sample_rate (v_of_Z A 2) in
  let c := calculate_coefs type_ (t_of_v A sample_rate) (t_of_v A (computed_freq frequency detune)) (t_of_v A gain) (t_of_v A q) in
  if v_lt A freq (v_zero A) || v_lt A n_quist freq then None
  else
    let omega := t_neg A (t_PI A) *! t_of_v A (v_div A freq n_quist) in
    let z := (t_cos A omega, t_sin A omega) in
    let numerator := r_add (k_b0 c) (c_mul (r_add (k_b1 c) (r_mul (k_b2 c) z)) z) in
    let denominator := c_add (#1, #0) (c_mul (r_add (k_a1 c) (r_mul (k_a2 c) z)) z) in
    Some (to_polar (c_div numerator denominator)).
(** iir_filter.rs 232-263, one frequency *)
Definition from_polar (r theta : T) : complex := (r *! t_cos A theta, r *! t_sin A theta).
Fixpoint polar_sum (cs : list T) (idx : Z) (z : T) (acc : complex) : complex :=
  match cs with [] => acc | c :: cs' => polar_sum cs' (idx + 1) z (c_add acc (from_polar c (t_of_Z A idx *! z))) end.
Definition iir_response (feedforward feedback : list T) (sample_rate f : V) : option (V * V) :=
  let rate := t_of_v A sample_rate in
  let nquist := rate /! #2 in
  let freq := t_of_v A f in
  if t_lt A freq #0 || t_lt A nquist freq then None
  else
    let z := #(-2) *! t_PI A *! freq /! rate in
    Some (to_polar (c_div (polar_sum feedforward 0 z (#0, #0)) (polar_sum feedback 0 z (#0, #0)))).

(** ** Calls of [process], one after the other *)
(** the input quantum and the output quantum as it was before; [l_name] is a name for new buffers *)
Record call (P : Type) := mk_call { l_settings : P; l_name : nat; l_input : quantum; l_output : quantum }.
Definition biquad_call (sample_rate : V) (states : list xy) (l : call (filter_type * biquad_params)) : res (list xy * quantum * bool) :=
  biquad_quantum (fst (l_settings _ l)) sample_rate (snd (l_settings _ l)) states (l_name _ l) (l_input _ l) (l_output _ l).
Definition iir_call (cs : list (T * T)) (states : list (list T)) (l : call unit) : res (list (list T) * quantum * bool) :=
  iir_quantum cs states (l_name _ l) (l_input _ l) (l_output _ l).
Fixpoint run_calls {P St} (f : St -> call P -> res (St * quantum * bool)) (st : St) (ls : list (call P)) : res (St * list quantum) :=
  match ls with
  | [] => Ok (st, [])
  | l :: ls' => do (st', o, _) <- f st l; do (st'', os) <- run_calls f st' ls'; Ok (st'', o :: os)
  end.
End Filter.
