(** Model of the stereo panner, of the panner and of its geometry, on render quanta (Quantum_Model.v).

    Source: /repo/src/node/stereo_panner.rs 70-80, 229-325, node/panner.rs 19-32, 416-429, 560-1058, spatial.rs
    199-299, and the functions of the vecmath crate (vec3_*, from its documentation).  The convolution with head
    related impulse responses (crate hrtf) is a parameter. *)
From Coq Require Import List Arith Bool ZArith.
From Verif Require Export Common_Model Quantum_Model.
From Verif Require Import Arith_Model Route_Spec.
Import ListNotations.

Section Pan.
Context {T V : Type}.
Variable A : arith T V.
Variable size : nat.
Notation quantum := (list (chan V)).
Notation lit n := (v_of_Z A n).

(** [lefts], [rights], [a], [b] and the parameters are zipped; the first two are overwritten *)
Fixpoint write_pairs {P} (f : P -> V -> V -> V * V) (ps : list P) (lefts rights a b : list V) : list V * list V :=
  match ps, lefts, rights, a, b with
  | p :: ps, _ :: lefts, _ :: rights, x :: a, y :: b =>
      let '(l, r) := f p x y in let '(ls, rs) := write_pairs f ps lefts rights a b in (l :: ls, r :: rs)
  | _, _, _, _, _ => (lefts, rights)
  end.
(** quantum.rs 261-265: the two channels; they get new buffers named [s] and [s + 1] *)
Definition stereo_mut (q : quantum) : res (list V * list V) :=
  match q with [l; r] => Ok (c_val l, c_val r) | _ => Panic end.
Definition new_pair (s : nat) (p : list V * list V) : quantum := [mk_chan s (fst p); mk_chan (S s) (snd p)].

(** ** The stereo panner *)

(** [x * PI / 2] *)
Definition quarter_turn (x : V) : V := v_div A (v_mul A x (v_PI A)) (lit 2).
(** stereo_panner.rs 74-79 *)
Definition get_stereo_gains (x : V) : V * V := (v_sin A (quarter_turn (v_sub A (lit 1) x)), v_sin A (quarter_turn x)).
(** 255-262 and 269-275: mono input *)
Definition stereo_pan_mono (pan input _input : V) : V * V :=
  let '(gl, gr) := get_stereo_gains (v_mul A (v_add A pan (lit 1)) (v_frac A 1 2)) in (v_mul A input gl, v_mul A input gr).
(** 281-299 and 306-320: stereo input *)
Definition stereo_pan_stereo (pan input_left input_right : V) : V * V :=
  if v_le A pan (lit 0) then
    let '(gl, gr) := get_stereo_gains (v_add A pan (lit 1)) in (v_fma A input_right gl input_left, v_mul A input_right gr)
  else
    let '(gl, gr) := get_stereo_gains pan in (v_mul A input_left gl, v_fma A input_left gr input_right).
(** 229-325 *)
Definition stereo_panner (s : nat) (input output : quantum) (pan : list V) : res quantum :=
  if is_silent input then from_option (make_silent (sops_of A) size output)
  else
    do output <- from_option (set_number_of_channels output 2);
    do (lefts, rights) <- stereo_mut output;
    let pans := match pan with [p] => repeat p (length lefts) | _ => pan end in
    match input with
    | [] => Ok output
    | [c] => Ok (new_pair s (write_pairs stereo_pan_mono pans lefts rights (c_val c) (c_val c)))
    | [c; d] => Ok (new_pair s (write_pairs stereo_pan_stereo pans lefts rights (c_val c) (c_val d)))
    | _ => Panic
    end.

(** ** Geometry *)
Definition vec : Type := V * V * V.
(** the vecmath crate *)
Definition vec_sub (a b : vec) : vec := let '(a0, a1, a2) := a in let '(b0, b1, b2) := b in (v_sub A a0 b0, v_sub A a1 b1, v_sub A a2 b2).
Definition vec_dot (a b : vec) : V := let '(a0, a1, a2) := a in let '(b0, b1, b2) := b in v_add A (v_add A (v_mul A a0 b0) (v_mul A a1 b1)) (v_mul A a2 b2).
Definition vec_cross (a b : vec) : vec := let '(a0, a1, a2) := a in let '(b0, b1, b2) := b in
  (v_sub A (v_mul A a1 b2) (v_mul A a2 b1), v_sub A (v_mul A a2 b0) (v_mul A a0 b2), v_sub A (v_mul A a0 b1) (v_mul A a1 b0)).
Definition vec_scale (a : vec) (x : V) : vec := let '(a0, a1, a2) := a in (v_mul A a0 x, v_mul A a1 x, v_mul A a2 x).
Definition vec_square_len (a : vec) : V := vec_dot a a.
Definition vec_len (a : vec) : V := v_sqrt A (vec_square_len a).
Definition vec_normalized (a : vec) : vec := vec_scale a (v_div A (lit 1) (vec_len a)).

(** f32::MIN_POSITIVE *)
Definition min_positive : V := v_frac A 1 (2 ^ 126).
(** [180. * acos(x) / PI] *)
Definition degrees_acos (x : V) : V := v_div A (v_mul A (lit 180) (v_acos A x)) (v_PI A).
(** spatial.rs 206-265 *)
Definition azimuth_and_elevation (source listener forward listener_up : vec) : V * V :=
  let relative := vec_sub source listener in
  if v_le A (vec_square_len relative) min_positive then (lit 0, lit 0)
  else
    let direction := vec_normalized relative in
    let right := vec_cross forward listener_up in
    if v_eq A (vec_square_len right) (lit 0) then (lit 0, lit 0)
    else
      let right_norm := vec_normalized right in
      let forward_norm := vec_normalized forward in
      let up := vec_cross right_norm forward_norm in
      let elevation := v_sub A (lit 90) (degrees_acos (vec_dot direction up)) in
      let elevation := if v_lt A (lit 90) elevation then v_sub A (lit 180) elevation
                       else if v_lt A elevation (lit (-90)) then v_sub A (lit (-180)) elevation else elevation in
      let up_projection := vec_dot direction up in
      let projected := vec_sub direction (vec_scale up up_projection) in
      if v_eq A (vec_square_len projected) (lit 0) then (lit 0, elevation)
      else
        let projected := vec_normalized projected in
        let azimuth := degrees_acos (vec_dot projected right_norm) in
        let front_back := vec_dot projected forward_norm in
        let azimuth := if v_lt A front_back (lit 0) then v_sub A (lit 360) azimuth else azimuth in
        let azimuth := if v_le A (lit 0) azimuth && v_le A azimuth (lit 270) then v_sub A (lit 90) azimuth else v_sub A (lit 450) azimuth in
        (azimuth, elevation).
(** 268-270 *)
Definition distance (source listener : vec) : V := vec_len (vec_sub source listener).
(** 273-295 *)
Definition angle (source orientation listener : vec) : V :=
  if v_eq A (vec_square_len orientation) (lit 0) then lit 0
  else
    let relative := vec_sub source listener in
    if v_le A (vec_square_len relative) min_positive then lit 0
    else v_abs A (degrees_acos (vec_dot (vec_normalized relative) (vec_normalized orientation))).

(** ** The panner *)
Inductive distance_model := Linear | Inverse | Exponential.

(** panner.rs 669-684 without the parameters and the impulse responses *)
Record settings := mk_settings {
  p_model : distance_model; p_ref : T; p_max : T; p_rolloff : T; p_inner : T; p_outer : T; p_outer_gain : T }.
(** 416-427: what the constructor checks; the setters make the same checks (560-636) *)
Definition settings_valid (p : settings) : bool :=
  t_le A (t_zero A) (p_ref p) && t_lt A (t_zero A) (p_max p) && t_le A (t_zero A) (p_rolloff p) &&
  (t_le A (t_zero A) (p_outer_gain p) && t_le A (p_outer_gain p) (t_one A)).
Inductive setter := Set_model (m : distance_model) | Set_ref (x : T) | Set_max (x : T) | Set_rolloff (x : T) | Set_inner (x : T) | Set_outer (x : T) | Set_outer_gain (x : T).
(** 550-637, 905-917 *)
Definition set (p : settings) (o : setter) : res settings :=
  match o with
  | Set_model m => Ok (mk_settings m (p_ref p) (p_max p) (p_rolloff p) (p_inner p) (p_outer p) (p_outer_gain p))
  | Set_ref x => do _ <- check (t_le A (t_zero A) x); Ok (mk_settings (p_model p) x (p_max p) (p_rolloff p) (p_inner p) (p_outer p) (p_outer_gain p))
  | Set_max x => do _ <- check (t_lt A (t_zero A) x); Ok (mk_settings (p_model p) (p_ref p) x (p_rolloff p) (p_inner p) (p_outer p) (p_outer_gain p))
  | Set_rolloff x => do _ <- check (t_le A (t_zero A) x); Ok (mk_settings (p_model p) (p_ref p) (p_max p) x (p_inner p) (p_outer p) (p_outer_gain p))
  | Set_inner x => Ok (mk_settings (p_model p) (p_ref p) (p_max p) (p_rolloff p) x (p_outer p) (p_outer_gain p))
  | Set_outer x => Ok (mk_settings (p_model p) (p_ref p) (p_max p) (p_rolloff p) (p_inner p) x (p_outer_gain p))
  | Set_outer_gain x => do _ <- check (t_le A (t_zero A) x && t_le A x (t_one A)); Ok (mk_settings (p_model p) (p_ref p) (p_max p) (p_rolloff p) (p_inner p) (p_outer p) x)
  end.

(** f64::clamp *)
Definition t_clamp (x lo hi : T) : res T :=
  do _ <- check (t_le A lo hi); Ok (if t_lt A x lo then lo else if t_lt A hi x then hi else x).
(** 927-955 *)
Definition cone_gain (p : settings) (source orientation listener : vec) : V :=
  let inner := v_div A (v_of_t A (t_abs A (p_inner p))) (lit 2) in
  let outer := v_div A (v_of_t A (t_abs A (p_outer p))) (lit 2) in
  if v_le A (lit 180) inner && v_le A (lit 180) outer then lit 1
  else
    let outer_gain := v_of_t A (p_outer_gain p) in
    let a := angle source orientation listener in
    if v_lt A a inner then lit 1
    else if v_le A outer a then outer_gain
    else
      let x := v_div A (v_sub A a inner) (v_sub A outer inner) in
      v_add A (v_sub A (lit 1) x) (v_mul A outer_gain x).
(** 957-990, as a function of the distance *)
Definition gain_at (p : settings) (d : T) : res T :=
  match p_model p with
  | Linear =>
      do rolloff <- t_clamp (p_rolloff p) (t_zero A) (t_one A);
      let lo := t_min A (p_ref p) (p_max p) in
      let hi := t_max A (p_ref p) (p_max p) in
      do clamped <- t_clamp d lo hi;
      Ok (t_sub A (t_one A) (t_div A (t_mul A rolloff (t_sub A clamped lo)) (t_sub A hi lo)))
  | Inverse =>
      let rolloff := t_max A (p_rolloff p) (t_zero A) in
      if t_lt A (t_zero A) d then
        Ok (t_div A (p_ref p) (t_add A (p_ref p) (t_mul A rolloff (t_sub A (t_max A (p_ref p) d) (p_ref p)))))
      else Ok (t_one A)
  | Exponential =>
      let rolloff := t_max A (p_rolloff p) (t_zero A) in
      Ok (t_pow A (t_div A (t_max A d (p_ref p)) (p_ref p)) (t_neg A rolloff))
  end.
Definition dist_gain (p : settings) (source listener : vec) : res V :=
  do g <- gain_at p (t_of_v A (distance source listener)); Ok (v_of_t A g).

(** 660-665 *)
Record spatial := mk_spatial { sp_dist : V; sp_cone : V; sp_azimuth : V; sp_elevation : V }.
(** 1001-1008 and 1037-1044 *)
Definition fold_azimuth (az : V) : V :=
  let az := if v_lt A az (lit (-180)) then lit (-180) else if v_lt A (lit 180) az then lit 180 else az in
  if v_lt A az (lit (-90)) then v_sub A (lit (-180)) az
  else if v_lt A (lit 90) az then v_sub A (lit 180) az else az.
(** 992-1018 *)
Definition apply_mono (q : spatial) (l r : V) : V * V :=
  let az := fold_azimuth (sp_azimuth q) in
  let x := v_div A (v_add A az (lit 90)) (lit 180) in
  let gl := v_cos A (quarter_turn x) in
  let gr := v_sin A (quarter_turn x) in
  (v_mul A l (v_mul A (v_mul A gl (sp_dist q)) (sp_cone q)), v_mul A r (v_mul A (v_mul A gr (sp_dist q)) (sp_cone q))).
(** 1020-1058 *)
Definition apply_stereo (q : spatial) (il ir : V) : V * V :=
  let az := fold_azimuth (sp_azimuth q) in
  let x := if v_le A az (lit 0) then v_div A (v_add A az (lit 90)) (lit 90) else v_div A az (lit 90) in
  let gl := v_cos A (quarter_turn x) in
  let gr := v_sin A (quarter_turn x) in
  if v_le A az (lit 0) then
    (v_mul A (v_mul A (v_add A il (v_mul A ir gl)) (sp_dist q)) (sp_cone q), v_mul A (v_mul A (v_mul A ir gr) (sp_dist q)) (sp_cone q))
  else
    (v_mul A (v_mul A (v_mul A il gl) (sp_dist q)) (sp_cone q), v_mul A (v_mul A (v_add A ir (v_mul A il gr)) (sp_dist q)) (sp_cone q)).

(** the values of a parameter, one or one per frame; three of them make a vector *)
Definition lists : Type := list V * list V * list V.
Record positions := mk_positions { l_source : lists; l_orientation : lists; l_listener : lists; l_forward : lists; l_up : lists }.
Definition at_frame (l : list V) (i : nat) : res V := index l (i mod length l).
Definition vec_at (l : lists) (i : nat) : res vec :=
  let '(x, y, z) := l in do x <- at_frame x i; do y <- at_frame y i; do z <- at_frame z i; Ok (x, y, z).
(** 731-780: the spatial parameters at a frame.  (In the code an empty parameter would end the iteration; there are none.) *)
Definition spatial_at (p : settings) (l : positions) (i : nat) : res spatial :=
  do source <- vec_at (l_source l) i;
  do orientation <- vec_at (l_orientation l) i;
  do listener <- vec_at (l_listener l) i;
  do forward <- vec_at (l_forward l) i;
  do up <- vec_at (l_up l) i;
  do d <- dist_gain p source listener;
  let c := cone_gain p source orientation listener in
  let '(az, el) := azimuth_and_elevation source listener forward up in
  Ok (mk_spatial d c az el).
(** 834-842 *)
Definition single (l : lists) : bool := let '(x, y, z) := l in (length x =? 1) && (length y =? 1) && (length z =? 1).
Definition single_valued (l : positions) : bool := single (l_listener l) && single (l_forward l) && single (l_up l).
(** the parameters for the frames: 844-898 *)
Definition frame_params (p : settings) (l : positions) (n : nat) : res (list spatial) :=
  if single_valued l then do q <- spatial_at p l 0; Ok (repeat q n)
  else map_res (spatial_at p l) (seq 0 n).
(** 830-898 *)
Definition equal_power (p : settings) (s : nat) (input output : quantum) (l : positions) : res quantum :=
  match input with
  | [c] =>
      do (s, q) <- from_option (mix (sops_of A) size s input 2 Speakers);
      do (lefts, rights) <- stereo_mut q;
      do ps <- frame_params p l (length lefts);
      Ok (new_pair s (write_pairs apply_mono ps lefts rights lefts rights))
  | [c; d] =>
      do output <- from_option (set_number_of_channels output 2);
      do (lefts, rights) <- stereo_mut output;
      do ps <- frame_params p l (length lefts);
      Ok (new_pair s (write_pairs apply_stereo ps lefts rights (c_val c) (c_val d)))
  | _ => Panic
  end.

(** impulse responses: the convolution (244-277: samples, gain and direction to pairs of samples) and its length *)
Context {H : Type}.
Variable hrtf_process : H -> list V -> V -> vec -> H * list (V * V).
Variable hrtf_length : H -> nat.
(** 797-806: the direction *)
Definition projected_source (az el : V) : vec :=
  let rad x := v_div A (v_mul A x (v_PI A)) (lit 180) in
  let x := v_mul A (v_sin A (rad az)) (v_cos A (rad el)) in
  let z := v_mul A (v_cos A (rad az)) (v_cos A (rad el)) in
  let y := v_sin A (rad el) in
  let small c := v_le A (v_abs A c) (v_frac A 1 1000000) in
  if small x && small y && small z then (lit 0, lit 0, lit 1) else (x, y, z).
(** 782-829 *)
Definition hrtf (p : settings) (s : nat) (h : H) (input : quantum) (l : positions) : res (H * quantum) :=
  do q <- spatial_at p l 0;
  let gain := v_mul A (sp_cone q) (sp_dist q) in
  let direction := projected_source (sp_azimuth q) (sp_elevation q) in
  do (s, out, correction) <- if length input =? 2
    then do (s, out) <- from_option (mix (sops_of A) size s input 1 Speakers); Ok (s, out, v_mul A (lit 1) (lit 2))
    else Ok (s, input, lit 1);
  do c <- index out 0;
  let '(h, pairs) := hrtf_process h (c_val c) gain direction in
  do out <- from_option (set_number_of_channels out 2);
  do (lefts, rights) <- stereo_mut out;
  Ok (h, new_pair s (zip_mut (fun _ x => v_mul A correction (fst x)) lefts pairs, zip_mut (fun _ x => v_mul A correction (snd x)) rights pairs)).

Record panner := mk_panner { n_settings : settings; n_hrtf : option H; n_tail : nat }.
(** 686-903: the new state, the output and whether there is more to come *)
Definition panner_quantum (n : panner) (s : nat) (input output : quantum) (l : positions) : res (panner * quantum * bool) :=
  let tail := match n_hrtf n with None => false | Some h => n_tail n <? hrtf_length h end in
  if is_silent input && negb tail then do o <- from_option (make_silent (sops_of A) size output); Ok (n, o, false)
  else
    let counter := if is_silent input then n_tail n + size else n_tail n in
    match n_hrtf n with
    | Some h => do (h, o) <- hrtf (n_settings n) s h input l; Ok (mk_panner (n_settings n) (Some h) counter, o, true)
    | None => do o <- equal_power (n_settings n) s input output l; Ok (mk_panner (n_settings n) None counter, o, false)
    end.
(** one quantum after the other: the number for new buffers, the input, the output before, the parameters *)
Fixpoint panner_run (n : panner) (calls : list (nat * quantum * quantum * positions)) : res (panner * list (quantum * bool)) :=
  match calls with
  | [] => Ok (n, [])
  | (s, input, output, l) :: calls' =>
      do (n, o, b) <- panner_quantum n s input output l;
      do (n, os) <- panner_run n calls'; Ok (n, (o, b) :: os)
  end.
End Pan.
Arguments mk_settings {T}. Arguments p_model {T}. Arguments p_ref {T}. Arguments p_max {T}. Arguments p_rolloff {T}. Arguments p_inner {T}. Arguments p_outer {T}. Arguments p_outer_gain {T}.
Arguments mk_spatial {V}. Arguments sp_dist {V}. Arguments sp_cone {V}. Arguments sp_azimuth {V}. Arguments sp_elevation {V}.
Arguments mk_positions {V}. Arguments l_source {V}. Arguments l_orientation {V}. Arguments l_listener {V}. Arguments l_forward {V}. Arguments l_up {V}.
Arguments mk_panner {T H}. Arguments n_settings {T H}. Arguments n_hrtf {T H}. Arguments n_tail {T H}.
