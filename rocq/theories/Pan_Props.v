(** Panning: theorems.

    C36 Panning preserves power and is symmetric; the ends and the middle are exact.
    C37 Distance and cone gains are numbers between 0 and 1; the distance gain does not grow with the distance.
    C45 Azimuth and elevation are directions within their ranges.
    C51 A source that points at the listener is not attenuated by its cone.
    C52 Position automation of a panner is applied frame by frame.
    C53 A panner with impulse responses plays its tail after every sound. *)
From Coq Require Import List Arith Bool ZArith Reals Lra Lia.
From Flocq Require Import BinarySingleNaN.
From Verif Require Import Source_Props Common_Model Float_Model Arith_Model Arith_Real Quantum_Model Route_Spec Pan_Model Pan_Spec Pan_Proofs Pan_NodeProofs Pan_IeeeProofs Pan_HrtfProofs.
Import ListNotations.
Local Open Scope R_scope.

(** ** C36 *)

(** The stereo panner applies the panning law frame by frame, with the value of the parameter at that frame;
    its output has two channels, or one silent one for a silent input. *)
Theorem C36_stereo_panner : forall size s input output pan, (0 < size)%nat -> sized size input -> (length input <= 2)%nat -> silent_zero (sops_of exact) size input -> sized size output ->
  length pan = 1%nat \/ length pan = size ->
  exists out, stereo_panner exact size s input output pan = Ok out /\ length out = (if is_silent input then 1 else 2)%nat /\
    forall t, (t < size)%nat -> (sample 0 out 0 t, sample 0 out 1 t) = panned (value_at pan t) (frame_of input t).
Proof. exact stereo_panner_ok. Qed.
Print Assumptions C36_stereo_panner.
Example C36_stereo_panner_case : sized 2 [mk_chan 3 [1; 0]; mk_chan 4 [0; 1]] /\ silent_zero (sops_of exact) 2 [mk_chan 3 [1; 0]; mk_chan 4 [0; 1]] /\ sized 2 [mk_chan 0 [0; 0]].
Proof. split; [split; [discriminate|repeat constructor]|]. split; [|split; [discriminate|repeat constructor]]. repeat constructor; cbn; discriminate. Qed.

(** The law itself: each input channel is distributed with gains between 0 and 1 whose squares add up to 1;
    mirror symmetry; at the ends everything is on one side, in the middle stereo is unchanged. *)
Theorem C36_gains :
  (forall pan x, -1 <= pan <= 1 -> exists gl gr, panned pan [x] = (x * gl, x * gr) /\ gl * gl + gr * gr = 1 /\ 0 <= gl <= 1 /\ 0 <= gr <= 1) /\
  (forall pan, -1 <= pan <= 1 -> exists ll lr rl rr, (forall l r, panned pan [l; r] = (l * ll + r * rl, l * lr + r * rr)) /\
     ll * ll + lr * lr = 1 /\ rl * rl + rr * rr = 1 /\ 0 <= ll <= 1 /\ 0 <= lr <= 1 /\ 0 <= rl <= 1 /\ 0 <= rr <= 1) /\
  (forall x, panned (-1) [x] = (x, 0) /\ panned 1 [x] = (0, x) /\ fst (panned 0 [x]) = snd (panned 0 [x])) /\
  (forall l r, panned (-1) [l; r] = (l + r, 0) /\ panned 1 [l; r] = (0, r + l) /\ panned 0 [l; r] = (l, r)) /\
  (forall pan x, panned (- pan) [x] = (snd (panned pan [x]), fst (panned pan [x]))).
Proof. split; [exact pan_mono_gains|]. split; [exact pan_stereo_gains|]. exact pan_ends. Qed.
Print Assumptions C36_gains.

(** The panner node without impulse responses: the same law for the pan that belongs to the azimuth,
    scaled by the gains for distance and cone.  [used l t] is the frame whose parameters are used: see C52. *)
Theorem C36_panner : forall H hp hl size (n : panner (T := R) (H := H)) s input output l, n_hrtf n = None -> (0 < size)%nat -> accepted (n_settings n) -> given l ->
  sized size input -> (length input <= 2)%nat -> silent_zero (sops_of exact) size input -> sized size output ->
  exists out, panner_quantum exact size hp hl n s input output l = Ok (n, out, false) /\ length out = (if is_silent input then 1 else 2)%nat /\
    forall t, (t < size)%nat -> let u := if single_valued l then 0%nat else t in
      (sample 0 out 0 t, sample 0 out 1 t) = scaled (dist_at (n_settings n) l u * cone_at (n_settings n) l u) (panned (pan_of (azimuth_at l u)) (frame_of input t)) /\
      -1 <= pan_of (azimuth_at l u) <= 1.
Proof.
  intros H hp hl size n s input output l Hn Hs Ha Hg Si Li Zi So. destruct (panner_ok hp hl size n s input output l Hn Hs Ha Hg Si Li Zi So) as (out & E & L & P).
  exists out. split; [exact E|]. split; [exact L|]. intros t Ht u. split; [exact (P t Ht)|]. apply fold_pan. apply azimuth_range.
Qed.
Print Assumptions C36_panner.

(** Floating point: with a sine that is exact at 0 and at pi/2, the ends and the middle are exact: [same x y] says
    that x is a number with the value of y. *)
Theorem C36_float_partial : forall M,
  B2R (m32_sin M (f32_div (f32_mul (f32_of_Z 0) f32_PI) (f32_of_Z 2))) = 0 /\ is_finite (m32_sin M (f32_div (f32_mul (f32_of_Z 0) f32_PI) (f32_of_Z 2))) = true ->
  m32_sin M (f32_div (f32_mul (f32_of_Z 1) f32_PI) (f32_of_Z 2)) = f32_of_Z 1 ->
  (forall pan l r, is_finite pan = true -> B2R pan = 0 -> is_finite l = true -> is_finite r = true ->
     let o := stereo_pan_stereo (ieee M) pan l r in same (fst o) l /\ same (snd o) r) /\
  (forall x, is_finite x = true -> let o := stereo_pan_mono (ieee M) (f32_of_Z (-1)) x x in same (fst o) x /\ same (snd o) (f32_of_Z 0)) /\
  (forall x, is_finite x = true -> let o := stereo_pan_mono (ieee M) (f32_of_Z 1) x x in same (fst o) (f32_of_Z 0) /\ same (snd o) x).
Proof. intros M S0 S1. split; [exact (pan_centre M S0 S1)|]. split; [exact (pan_left M S0 S1)|exact (pan_right M S0 S1)]. Qed.
Print Assumptions C36_float_partial.

(** ** C37 *)
(** For accepted settings the computation does not fail and gives the attenuation of the specification;
    where that is meaningful it is between 0 and 1 and does not grow with the distance. *)
Theorem C37_distance : forall p, accepted p ->
  (forall d, gain_at exact p d = Ok (attenuation p d)) /\
  (meaningful p -> (forall d, 0 <= d -> 0 <= attenuation p d <= 1) /\ forall d e, 0 <= d <= e -> attenuation p e <= attenuation p d).
Proof.
  intros p H. split; [intros; apply gain_ok; exact H|]. intros M. split; [intros; apply attenuation_range; assumption|intros; apply attenuation_monotone; assumption].
Qed.
Print Assumptions C37_distance.
Example C37_distance_case : accepted (mk_settings Inverse 1 10000 1 360 360 0) /\ meaningful (mk_settings Inverse 1 10000 1 360 360 0).
Proof. unfold accepted, meaningful; cbn; repeat split; try lra. Qed.

(** What the setters accept stays accepted: a constructed panner has accepted settings at every time. *)
Theorem C37_setters : forall p os, accepted p -> match fold_res (set exact) p os with Ok q => accepted q | _ => True end.
Proof.
  intros p os. revert p. induction os as [|o os IH]; intros p H; [exact H|]. cbn [fold_res].
  assert (S : match set exact p o with Ok q => accepted q | _ => True end).
  { destruct H as (H1 & H2 & H3 & H4). destruct o; unfold set, accepted, t_zero, t_one; cbn [exact t_le t_lt t_of_Z]; unfold R_le, R_lt.
    - cbn. lra.
    - destruct (Rle_dec 0 x); cbn; [lra|exact I].
    - destruct (Rlt_dec 0 x); cbn; [lra|exact I].
    - destruct (Rle_dec 0 x); cbn; [lra|exact I].
    - cbn. lra.
    - cbn. lra.
    - destruct (Rle_dec 0 x), (Rle_dec x 1); cbn; try exact I. lra. }
  destruct (set exact p o) as [q| |]; cbn [bind]; try exact I. apply IH. exact S.
Qed.
Print Assumptions C37_setters.

(** The gain of the cone is between the outer gain and 1. *)
Theorem C37_cone : forall p source orientation listener, 0 <= p_outer_gain p <= 1 -> p_outer_gain p <= cone_gain exact p source orientation listener <= 1.
Proof.
  intros p source orientation listener H. rewrite cone_ok. pose proof (cone_range p (angle exact source orientation listener) H). destruct (Rle_dec _ _); [destruct (Rle_dec _ _)|]; try assumption. lra.
Qed.
Print Assumptions C37_cone.

(** Floating point, linear and inverse model: a number between 0 and 1 that does not grow with the distance. *)
Theorem C37_distance_float_partial : forall M (p : settings (T := f64)), is_finite (p_ref p) = true /\ is_finite (p_max p) = true /\ is_finite (p_rolloff p) = true -> settings_valid (ieee M) p = true ->
  match p_model p with Linear => B2R (p_ref p) <> B2R (p_max p) | Inverse => 0 < B2R (p_ref p) | Exponential => False end ->
  (forall source listener, is_finite (distance (ieee M) source listener) = true -> exists g, dist_gain (ieee M) p source listener = Ok g /\ is_finite g = true /\ 0 <= B2R g <= 1) /\
  (forall s1 l1 s2 l2 g1 g2, is_finite (distance (ieee M) s1 l1) = true -> is_finite (distance (ieee M) s2 l2) = true -> B2R (distance (ieee M) s1 l1) <= B2R (distance (ieee M) s2 l2) ->
     dist_gain (ieee M) p s1 l1 = Ok g1 -> dist_gain (ieee M) p s2 l2 = Ok g2 -> B2R g2 <= B2R g1).
Proof. intros M p F V D. split; intros; [apply dist_gain_ieee; assumption|]. eapply (dist_gain_mono_ieee M p s1 l1 s2 l2); eassumption. Qed.
Print Assumptions C37_distance_float_partial.
Definition default_panner : settings (T := f64) := mk_settings Inverse (f64_of_Z 1) (f64_of_Z 10000) (f64_of_Z 1) (f64_of_Z 360) (f64_of_Z 360) (f64_of_Z 0).
Example C37_distance_float_case : is_finite (p_ref default_panner) = true /\ is_finite (p_max default_panner) = true /\ is_finite (p_rolloff default_panner) = true /\ settings_valid (ieee libm_one) default_panner = true.
Proof. repeat split; vm_compute; reflexivity. Qed.

(** Floating point: a cone gain is a number between 0 and 1 if the angle is a number at all. *)
Theorem C37_cone_float_partial : forall M (p : settings (T := f64)) source orientation listener,
  is_finite (p_inner p) = true -> Rabs (B2R (p_inner p)) <= Raux.bpow Zaux.radix2 100 -> is_finite (p_outer p) = true -> Rabs (B2R (p_outer p)) <= Raux.bpow Zaux.radix2 100 ->
  is_finite (p_outer_gain p) = true -> 0 <= B2R (p_outer_gain p) <= 1 -> is_nan (angle (ieee M) source orientation listener) = false ->
  is_finite (cone_gain (ieee M) p source orientation listener) = true /\ 0 <= B2R (cone_gain (ieee M) p source orientation listener) <= 1.
Proof. exact cone_ieee. Qed.
Print Assumptions C37_cone_float_partial.

(** Full statement (refuted): every accepted setting gives a gain that is a number.  Equal reference and maximal
    distance in the linear model; reference distance and rolloff zero in the inverse model; reference distance zero
    in the exponential model for a source at the listener. *)
Definition nan_gain (r : res f64) : bool := match r with Ok g => is_nan g | _ => false end.
Theorem C37_nan_refuted : forall M, (forall y, f64_eq y (f64_of_Z 0) = false -> is_nan (m64_pow M B754_nan y) = true) ->
  let one := f64_of_Z 1 in let zero := f64_of_Z 0 in
  let linear := mk_settings Linear one one one (f64_of_Z 360) (f64_of_Z 360) zero in
  let inverse := mk_settings Inverse zero (f64_of_Z 10000) zero (f64_of_Z 360) (f64_of_Z 360) zero in
  let exponential := mk_settings Exponential zero (f64_of_Z 10000) one (f64_of_Z 360) (f64_of_Z 360) zero in
  (settings_valid (ieee M) linear = true /\ nan_gain (gain_at (ieee M) linear (f64_of_Z 2)) = true) /\
  (settings_valid (ieee M) inverse = true /\ nan_gain (gain_at (ieee M) inverse one) = true) /\
  (settings_valid (ieee M) exponential = true /\ nan_gain (gain_at (ieee M) exponential zero) = true).
Proof.
  intros M P one zero linear inverse exponential. split; [split; vm_compute; reflexivity|]. split; [split; vm_compute; reflexivity|]. split; [vm_compute; reflexivity|].
  unfold gain_at. cbn [p_model exponential nan_gain]. cbn [ieee t_pow].
  replace (t_div (ieee M) (t_max (ieee M) zero (p_ref exponential)) (p_ref exponential)) with (B754_nan : f64) by (apply B2SF_inj; vm_compute; reflexivity).
  apply P. vm_compute. reflexivity.
Qed.
Print Assumptions C37_nan_refuted.

(** Full statement (refuted): the angle for the cone is a number for all positions.  A normalised vector times itself
    may round to more than 1, and then the arc cosine is not a number; so for a source at (0, 1, 4) and the
    orientation (0, 1, 4), seen from the origin. *)
Definition int_point (x y z : Z) : f32 * f32 * f32 := (f32_of_Z x, f32_of_Z y, f32_of_Z z).
Theorem C37_cone_nan_refuted : forall M, (forall x, f32_lt (f32_of_Z 1) x = true -> is_nan (m32_acos M x) = true) ->
  let cone := mk_settings Inverse (f64_of_Z 1) (f64_of_Z 10000) (f64_of_Z 1) (f64_of_Z 90) (f64_of_Z 180) (f64_of_Z 0) in
  settings_valid (ieee M) cone = true /\ is_nan (cone_gain (ieee M) cone (int_point 0 1 4) (int_point 0 1 4) (int_point 0 0 0)) = true.
Proof.
  intros M P cone. split; [vm_compute; reflexivity|].
  assert (N : angle (ieee M) (int_point 0 1 4) (int_point 0 1 4) (int_point 0 0 0) = B754_nan).
  { unfold angle. replace (v_eq (ieee M) (vec_square_len (ieee M) (int_point 0 1 4)) (v_of_Z (ieee M) 0)) with false by (vm_compute; reflexivity). cbv zeta.
    match goal with |- context [if ?b then _ else _] => replace b with false by (vm_compute; reflexivity) end. unfold degrees_acos.
    match goal with |- context [v_acos (ieee M) ?x] => assert (E : v_acos (ieee M) x = B754_nan) by (apply nan_is; apply P; vm_compute; reflexivity) end. rewrite E. vm_compute. reflexivity. }
  unfold cone_gain. cbv zeta. rewrite N. match goal with |- context [if ?b then _ else _] => replace b with false by (vm_compute; reflexivity) end. vm_compute. reflexivity.
Qed.
Print Assumptions C37_cone_nan_refuted.

(** ** C45 *)
(** The angles describe the direction of the source: in the frame of the listener (right, forward, up), with
    ranges -180..180 and -90..90. *)
Theorem C45_direction : forall source listener forward up,
  let d := minus source listener in let r := unit_vector (cross forward up) in let f := unit_vector forward in
  tiny < dot d d -> dot (cross forward up) (cross forward up) <> 0 ->
  exists az el, azimuth_and_elevation exact source listener forward up = (az, el) /\ -180 <= az <= 180 /\ -90 <= el <= 90 /\
    unit_vector d = plus (times (cos (radians el)) (plus (times (sin (radians az)) r) (times (cos (radians az)) f))) (times (sin (radians el)) (cross r f)).
Proof. exact azimuth_ok. Qed.
Print Assumptions C45_direction.
Example C45_direction_case : tiny < dot (minus (1, 2, 3) (0, 0, 0)) (minus (1, 2, 3) (0, 0, 0)) /\ dot (cross (0, 0, -1) (0, 1, 0)) (cross (0, 0, -1) (0, 1, 0)) <> 0.
Proof.
  split; [|unfold dot, cross; lra]. unfold tiny, dot, minus. apply Rmult_lt_reg_r with (IZR (2 ^ 126)); [apply (IZR_lt 0); reflexivity|]. unfold Rdiv. rewrite Rmult_assoc, Rinv_l by (apply not_0_IZR; discriminate).
  assert (1 <= IZR (2 ^ 126)) by (apply (IZR_le 1); discriminate). lra.
Qed.
(** A source at the listener, or a listener whose up direction is along the front: straight ahead. *)
Theorem C45_degenerate : forall source listener forward up, dot (minus source listener) (minus source listener) <= tiny \/ dot (cross forward up) (cross forward up) = 0 ->
  azimuth_and_elevation exact source listener forward up = (0, 0).
Proof. exact azimuth_same. Qed.
Print Assumptions C45_degenerate.
(** Floating point: in range, or not a number ([within n x]). *)
Theorem C45_range_float_partial : forall M, (forall x, is_nan (m32_acos M x) = true \/ (is_finite (m32_acos M x) = true /\ 0 <= B2R (m32_acos M x) <= B2R f32_PI)) ->
  forall source listener forward up, let r := azimuth_and_elevation (ieee M) source listener forward up in
  (is_nan (fst r) = true \/ (is_finite (fst r) = true /\ -180 <= B2R (fst r) <= 180)) /\ (is_nan (snd r) = true \/ (is_finite (snd r) = true /\ -90 <= B2R (snd r) <= 90)).
Proof. intros M S source listener forward up. exact (direction_ieee M source listener forward up S). Qed.
Print Assumptions C45_range_float_partial.

(** Full statement (refuted): the angles are numbers for every configuration of numbers. *)
Theorem C45_nan_refuted : forall M, (forall x, f32_lt (f32_of_Z 1) x = true -> is_nan (m32_acos M x) = true) ->
  is_nan (fst (azimuth_and_elevation (ieee M) (int_point 1 0 (-2)) (int_point 0 0 0) (int_point (-2) 0 (-1)) (int_point 0 1 0))) = true /\
  is_nan (snd (azimuth_and_elevation (ieee M) (int_point (-4) 16 0) (int_point 0 0 0) (int_point (-4) (-1) 0) (int_point 0 1 0))) = true.
Proof.
  intros M P. split; unfold azimuth_and_elevation; cbv zeta;
  (match goal with |- context [if v_le (ieee M) ?b ?c then _ else _] => replace (v_le (ieee M) b c) with false by (vm_compute; reflexivity) end);
  (match goal with |- context [if v_eq (ieee M) ?b ?c then _ else _] => replace (v_eq (ieee M) b c) with false by (vm_compute; reflexivity) end);
  (match goal with |- context [if v_eq (ieee M) ?b ?c then _ else _] => replace (v_eq (ieee M) b c) with false by (vm_compute; reflexivity) end); cbn [fst snd]; unfold degrees_acos.
  - match goal with |- context [v_acos (ieee M) ?x] => assert (E : v_acos (ieee M) x = B754_nan) by (apply nan_is; apply P; vm_compute; reflexivity) end. rewrite E. vm_compute. reflexivity.
  - match goal with |- context [v_acos (ieee M) ?x] => assert (E : v_acos (ieee M) x = B754_nan) by (apply nan_is; apply P; vm_compute; reflexivity) end. rewrite E. vm_compute. reflexivity.
Qed.
Print Assumptions C45_nan_refuted.

(** ** C51 *)
Lemma unit_along a k : 0 < dot a a -> k <> 0 -> dot (unit_vector a) (unit_vector (times k a)) = if Rlt_dec 0 k then 1 else -1.
Proof.
  intros H K. unfold unit_vector. rewrite dot_times_l, !dot_times_r. assert (N : norm (times k a) = Rabs k * norm a).
  { unfold norm. rewrite dot_times_l, dot_times_r. replace (k * (k * dot a a)) with (Rsqr k * dot a a) by (unfold Rsqr; ring). rewrite sqrt_mult_alt by apply Rle_0_sqr. rewrite sqrt_Rsqr_abs. reflexivity. }
  rewrite N, <- norm_sq. pose proof (norm_pos a H). destruct (Rlt_dec 0 k); [rewrite Rabs_pos_eq by lra|rewrite Rabs_left by lra]; field; lra.
Qed.
Lemma between_along a k : 0 < dot a a -> k <> 0 -> between a (times k a) = if Rlt_dec 0 k then 0 else 180.
Proof.
  intros H K. unfold between. rewrite unit_along by assumption. pose proof PI_RGT_0. destruct (Rlt_dec 0 k); [rewrite acos_1; ring|]. 
  replace (-1) with (- (1)) by lra. rewrite acos_opp, acos_1. field. lra.
Qed.
(** Full statement (refuted): a source that points at the listener has cone gain 1.  It is the other way round: the
    angle is taken with the vector from the listener to the source.  Every source that points at the
    listener gets the outer gain (for an outer angle below 360 degrees), and one that points away is not attenuated. *)
Theorem C51_cone_direction_refuted : forall p source listener k, accepted p -> Rabs (p_inner p) <= Rabs (p_outer p) < 360 -> tiny < dot (minus source listener) (minus source listener) -> 0 < k ->
  cone_gain exact p source (times k (minus listener source)) listener = p_outer_gain p /\
  (p_inner p <> 0 -> cone_gain exact p source (times k (minus source listener)) listener = 1).
Proof.
  intros p source listener k _ H D K. pose proof tiny_pos. set (d := minus source listener) in *.
  assert (E : times k (minus listener source) = times (- k) d). { unfold d. destruct source as [[? ?] ?], listener as [[? ?] ?]. unfold times, minus. f_equal; [f_equal|]; ring. }
  assert (N : forall j, j <> 0 -> angle exact source (times j d) listener = between d (times j d)).
  { intros j J. rewrite angle_ok. cbv zeta. fold d. rewrite dot_times_l, dot_times_r. destruct (Req_EM_T _ 0) as [Z|Z]; [exfalso; apply Rmult_integral in Z; destruct Z as [Z|Z]; [contradiction|apply Rmult_integral in Z; destruct Z; lra]|]. destruct (Rle_dec _ tiny); [lra|reflexivity]. }
  assert (Ih : ~ 180 <= Rabs (p_inner p) / 2) by lra.
  split; [|intros I]; rewrite cone_ok; (destruct (Rle_dec 180 (Rabs (p_inner p) / 2)); [contradiction|]).
  - rewrite E, N by lra. rewrite between_along by lra. destruct (Rlt_dec 0 (- k)); [lra|]. unfold cone. destruct (Rlt_dec 180 _); [lra|]. destruct (Rle_dec _ 180); [reflexivity|lra].
  - rewrite N by lra. rewrite between_along by lra. destruct (Rlt_dec 0 k); [|lra]. unfold cone. destruct (Rlt_dec 0 _) as [|L]; [reflexivity|]. exfalso. apply L. pose proof (Rabs_pos_lt _ I). lra.
Qed.
Print Assumptions C51_cone_direction_refuted.
Example C51_case : accepted (mk_settings Inverse 1 10000 1 60 90 0) /\ Rabs 60 <= Rabs 90 < 360.
Proof. split; [unfold accepted; cbn; lra|]. rewrite !Rabs_pos_eq by lra. lra. Qed.

(** ** C52 *)
(** What a frame should be: the panning law with the positions of that frame. *)
Definition expected (p : settings (T := R)) (l : positions (V := R)) (input : list (chan R)) (t : nat) : R * R :=
  let source := point_at (l_source l) t in let listener := point_at (l_listener l) t in
  let az := fst (azimuth_and_elevation exact source listener (point_at (l_forward l) t) (point_at (l_up l) t)) in
  scaled (attenuation p (norm (minus source listener)) * cone_gain exact p source (point_at (l_orientation l) t) listener) (panned (pan_of az) (frame_of input t)).
(** If a listener parameter is automated in this quantum, or no parameter at all is, every frame is as expected. *)
Theorem C52_automation_partial : forall H hp hl size (n : panner (T := R) (H := H)) s input output l, n_hrtf n = None -> (0 < size)%nat -> accepted (n_settings n) -> given l ->
  sized size input -> (length input <= 2)%nat -> silent_zero (sops_of exact) size input -> sized size output ->
  constant l \/ ~ (single (l_listener l) = true /\ single (l_forward l) = true /\ single (l_up l) = true) ->
  exists out, panner_quantum exact size hp hl n s input output l = Ok (n, out, false) /\
    forall t, (t < size)%nat -> (sample 0 out 0 t, sample 0 out 1 t) = expected (n_settings n) l input t.
Proof.
  intros H hp hl size n s input output l Hn Hs Ha Hg Si Li Zi So C. destruct (panner_ok hp hl size n s input output l Hn Hs Ha Hg Si Li Zi So) as (out & E & _ & P).
  exists out. split; [exact E|]. intros t Ht. rewrite (P t Ht). unfold used, expected, dist_at, cone_at, azimuth_at. destruct (single_valued l) eqn:S; [|reflexivity].
  destruct C as [C|C]; [|exfalso; apply C; unfold single_valued in S; apply andb_prop in S; destruct S as [S S3]; apply andb_prop in S; destruct S as [S1 S2]; auto].
  destruct (constant_used l 0 Hg C t) as (-> & -> & -> & -> & ->). reflexivity.
Qed.
Print Assumptions C52_automation_partial.

(** Full statement (refuted): for automated source positions too.  Only the listener's parameters are looked at
    to decide that one value is enough; then every frame uses the source position of the first frame. *)
Definition moving : positions (V := R) := mk_positions ([0], [0], [-1; -2]) ([1], [0], [0]) ([0], [0], [0]) ([0], [0], [-1]) ([0], [1], [0]).
Definition inverse_panner : settings (T := R) := mk_settings Inverse 1 10000 1 360 360 0.
Theorem C52_automation_refuted : let n := mk_panner inverse_panner (@None unit) 0 in let input := [mk_chan 1 [1; 1]] in let output := [mk_chan 0 [0; 0]] in
  accepted inverse_panner /\ given moving /\ sized 2 input /\ sized 2 output /\
  exists out, panner_quantum exact 2 (fun h _ _ _ => (h, [])) (fun _ => 0%nat) n 2 input output moving = Ok (n, out, false) /\
    (sample 0 out 0 1, sample 0 out 1 1) <> expected inverse_panner moving input 1.
Proof.
  intros n input output. assert (Ha : accepted inverse_panner) by (unfold accepted; cbn; lra). split; [exact Ha|].
  assert (Hg : given moving) by (unfold given; cbn; repeat split; discriminate). split; [exact Hg|].
  assert (Hi : sized 2 input) by (split; [discriminate|repeat constructor]). split; [exact Hi|].
  assert (Ho : sized 2 output) by (split; [discriminate|repeat constructor]). split; [exact Ho|].
  destruct (panner_ok (H := unit) (fun h _ _ _ => (h, [])) (fun _ => 0%nat) 2 n 2 input output moving eq_refl ltac:(lia) Ha Hg Hi ltac:(cbn; lia)) as (out & E & _ & P); [repeat constructor; cbn; discriminate|exact Ho|].
  exists out. split; [exact E|]. rewrite (P 1%nat ltac:(lia)). change (used moving 1) with 0%nat. change (n_settings n) with inverse_panner. unfold expected.
  assert (C : forall s o l, cone_gain exact inverse_panner s o l = 1). { intros. rewrite cone_ok. cbn [inverse_panner p_inner p_outer]. rewrite Rabs_pos_eq by lra. destruct (Rle_dec 180 _); lra. }
  unfold cone_at. rewrite !C. 
  assert (N : forall z, norm (minus (0, 0, z) (0, 0, 0)) = Rabs z). { intros z. unfold norm, minus, dot. rewrite <- sqrt_Rsqr_abs. f_equal. unfold Rsqr. ring. }
  unfold dist_at, moving. cbn [l_source l_listener point_at value_at nth length Nat.modulo Nat.divmod fst snd Nat.sub]. rewrite !N.
  assert (D1 : attenuation inverse_panner (Rabs (-1)) = 1). { rewrite Rabs_left by lra. unfold attenuation, inverse_panner. cbn [p_model p_ref p_rolloff]. destruct (Rlt_dec 0 _); [|lra]. rewrite Rmax_left by lra. field. }
  assert (D2 : attenuation inverse_panner (Rabs (-2)) = / 2). { rewrite Rabs_left by lra. unfold attenuation, inverse_panner. cbn [p_model p_ref p_rolloff]. destruct (Rlt_dec 0 _); [|lra]. rewrite Rmax_left by lra. field. }
  rewrite D1, D2. change (frame_of input 1) with [1]. unfold azimuth_at.
  match goal with |- scaled _ (panned ?a _) <> scaled _ (panned ?b _) => set (p := a); set (q := b);
    assert (Hp : -1 <= p <= 1) by (apply fold_pan; apply azimuth_range); assert (Hq : -1 <= q <= 1) by (apply fold_pan; apply azimuth_range) end.
  destruct (pan_mono_gains p 1 Hp) as (a & b & -> & S1 & _). destruct (pan_mono_gains q 1 Hq) as (c & d & -> & S2 & _). unfold scaled. cbn [fst snd].
  intros Q. injection Q as Q1 Q2. assert (A : a = c / 2) by lra. assert (B : b = d / 2) by lra. rewrite A, B in S1. lra.
Qed.
Print Assumptions C52_automation_refuted.

(** ** C53 *)
(** What a panner with impulse responses plays in one quantum: the impulse responses are applied to the input (to the
    average of the channels of a stereo input) with the gain of the cone and of the distance, in the direction of the
    source (a unit vector) at the first frame; the result is doubled for a stereo input. *)
Theorem C53_hrtf_output : forall H (hp : H -> list R -> R -> vec (V := R) -> H * list (R * R)) hl size p n s h input output l h' pairs,
  (0 < size)%nat -> accepted p -> given l -> sized size input -> (length input <= 2)%nat ->
  is_silent input = false \/ (n < hl h)%nat ->
  hp h (heard size input) (cone_at p l 0 * dist_at p l 0) (direction (azimuth_at l 0) (elevation_at l 0)) = (h', pairs) -> length pairs = size ->
  exists out, panner_quantum exact size hp hl (mk_panner p (Some h) n) s input output l =
      Ok (mk_panner p (Some h') (if is_silent input then n + size else n)%nat, out, true) /\ length out = 2%nat /\
    forall t, (t < size)%nat -> (sample 0 out 0 t, sample 0 out 1 t) = scaled (INR (length input)) (nth t pairs (0, 0)).
Proof. intros H. exact hrtf_panner. Qed.
Print Assumptions C53_hrtf_output.
Theorem C53_direction : forall az el, norm (direction az el) = 1.
Proof. exact direction_unit. Qed.
Print Assumptions C53_direction.
Example C53_hrtf_case : heard 2 [mk_chan 1 [1; 0]; mk_chan 2 [0; 1]] = [1 / 2; 1 / 2] /\ sized 2 [mk_chan 1 [1; 0]; mk_chan 2 [0; 1]] /\
  accepted inverse_panner /\ given moving /\ is_silent [mk_chan 1 [1; 0]; mk_chan 2 [0; 1]] = false.
Proof.
  split; [unfold heard, frame_of; cbn [seq map fold_right nth c_val length INR]; f_equal; [field|f_equal; field]|].
  split; [split; [discriminate|repeat constructor]|]. split; [unfold accepted; cbn; lra|]. split; [unfold given; cbn; repeat split; discriminate|reflexivity].
Qed.

(** As long as the silent quanta so far, all of them, are fewer than the length of the impulse responses, a panner
    renders what the impulse responses give, with nothing left out. *)
Theorem C53_tail_partial : forall T V (A : arith T V) H hp hl size p (h : H) calls, (0 < size)%nat -> (forall h x g d, hl (fst (hp h x g d)) = hl h) ->
  let silences := length (filter (fun c => is_silent (snd (fst (fst c)))) calls) in
  ((silences - 1) * size < hl h \/ silences = 0)%nat ->
  panner_run A size hp hl (mk_panner p (Some h) 0) calls = do (h', os) <- hrtf_all A size hp p h calls; Ok (mk_panner p (Some h') (silences * size), map (fun o => (o, true)) os).
Proof. intros T V A H hp hl size p h calls Hs Hl silences Hn. exact (tail_run A size hp hl Hs Hl p calls h 0 Hn). Qed.
Print Assumptions C53_tail_partial.

(** Full statement (refuted): after every sound.  The silent quanta are counted from the beginning, and the count is
    never set back: with impulse responses of one quantum (a delay by one quantum), the tail of the second sound is lost. *)
Definition delay_block (h x : list f32) (g : f32) (d : f32 * f32 * f32) : list f32 * list (f32 * f32) := (x, map (fun v => (v, v)) h).
Definition still : positions (V := f32) :=
  let z := f32_of_Z 0 in let o := f32_of_Z 1 in mk_positions ([z], [z], [f32_of_Z (-1)]) ([o], [z], [z]) ([z], [z], [z]) ([z], [z], [f32_of_Z (-1)]) ([z], [o], [z]).
Definition two_sounds : list (nat * list (chan f32) * list (chan f32) * positions (V := f32)) :=
  let z := f32_of_Z 0 in let o := f32_of_Z 1 in
  let sound := (5%nat, [mk_chan 1%nat [o; o]], [mk_chan 0%nat [z; z]], still) in let silence := (5%nat, [mk_chan 0%nat [z; z]], [mk_chan 0%nat [z; z]], still) in
  [sound; silence; sound; silence].
Definition left_samples (os : list (list (chan f32))) : list bool := map (fun q => f32_eq (sample (f32_of_Z 0) q 0 0) (f32_of_Z 0)) os.
Theorem C53_tail_refuted : let h := [f32_of_Z 0; f32_of_Z 0] in let A := ieee libm_one in
  match panner_run A 2 delay_block (@length f32) (mk_panner default_panner (Some h) 0) two_sounds, hrtf_all A 2 delay_block default_panner h two_sounds with
  | Ok (_, os), Ok (_, os') => left_samples (map fst os) = [true; false; true; true] /\ left_samples os' = [true; false; true; false]
  | _, _ => False
  end.
Proof. vm_compute. split; reflexivity. Qed.
Print Assumptions C53_tail_refuted.
