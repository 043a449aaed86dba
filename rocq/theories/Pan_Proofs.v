(** Panning: exact arithmetic. *)
From Coq Require Import List Arith Bool ZArith Reals Lra Lia.
From Verif Require Import Arith_Model Arith_Real Absn_ExactProofs Quantum_Model Route_Spec Route_Proofs Pan_Model Pan_Spec.
Import ListNotations.
Local Open Scope R_scope.

(** ** Equal power *)
Lemma sin_co a : sin (PI / 2 - a) = cos a.
Proof. rewrite sin_shift. reflexivity. Qed.
Lemma mono_panned pan x y : stereo_pan_mono exact pan x y = panned pan [x].
Proof.
  unfold stereo_pan_mono, get_stereo_gains, quarter_turn, panned. cbn [exact v_add v_sub v_mul v_div v_of_Z v_PI v_sin v_frac].
  f_equal; f_equal.
  - replace ((1 - (pan + 1) * (1 / 2)) * PI / 2) with (PI / 2 - (pan + 1) / 2 * (PI / 2)) by field. apply sin_co.
  - f_equal. field.
Qed.
Lemma stereo_panned pan l r : stereo_pan_stereo exact pan l r = panned pan [l; r].
Proof.
  unfold stereo_pan_stereo, get_stereo_gains, quarter_turn, panned. cbn [exact v_add v_sub v_mul v_div v_of_Z v_PI v_sin v_frac v_le v_fma].
  unfold R_le. destruct (Rle_dec pan 0) as [H|H].
  - replace ((1 - (pan + 1)) * PI / 2) with (PI / 2 - (pan + 1) * (PI / 2)) by field. rewrite sin_co.
    replace ((pan + 1) * PI / 2) with ((pan + 1) * (PI / 2)) by field. f_equal; ring.
  - replace ((1 - pan) * PI / 2) with (PI / 2 - pan * (PI / 2)) by field. rewrite sin_co.
    replace (pan * PI / 2) with (pan * (PI / 2)) by field. f_equal; ring.
Qed.
Lemma write_pairs_nth {P} (f : P -> R -> R -> R * R) d : forall ps ls rs a b t, (t < length ps)%nat -> length ls = length ps -> length rs = length ps -> length a = length ps -> length b = length ps ->
  (nth t (fst (write_pairs f ps ls rs a b)) 0, nth t (snd (write_pairs f ps ls rs a b)) 0) = f (nth t ps d) (nth t a 0) (nth t b 0).
Proof.
  induction ps as [|p ps IH]; intros ls rs a b t Ht Ll Lr La Lb; [cbn in Ht; lia|].
  destruct ls, rs, a as [|x a], b as [|y b]; try discriminate. cbn [write_pairs]. destruct (f p x y) as [u v] eqn:E.
  destruct (write_pairs f ps ls rs a b) as [us vs] eqn:W.
  destruct t as [|t]; cbn [nth fst snd]; [symmetry; exact E|].
  specialize (IH ls rs a b t). rewrite W in IH. cbn [fst snd] in IH. apply IH; cbn in *; lia.
Qed.
Lemma write_pairs_length {P} (f : P -> R -> R -> R * R) : forall ps ls rs a b,
  length (fst (write_pairs f ps ls rs a b)) = length ls /\ length (snd (write_pairs f ps ls rs a b)) = length rs.
Proof.
  induction ps as [|p ps IH]; intros ls rs a b; [split; reflexivity|].
  destruct ls as [|l ls]; [split; reflexivity|]. destruct rs as [|r rs]; [split; reflexivity|]. destruct a as [|x a]; [split; reflexivity|]. destruct b as [|y b]; [split; reflexivity|].
  cbn [write_pairs]. destruct (f p x y). specialize (IH ls rs a b). destruct (write_pairs f ps ls rs a b). cbn [fst snd length] in *. lia.
Qed.
Lemma set_two size (output : list (chan R)) : sized size output -> exists a b, set_number_of_channels output 2 = Some [a; b] /\ length (c_val a) = size /\ length (c_val b) = size.
Proof.
  intros [N F]. destruct output as [|a [|b o]]; [congruence| |]; inversion F as [|? ? F1 F2]; subst.
  - exists a, a. repeat split.
  - inversion F2 as [|? ? F3 _]; subst. exists a, b. split; [|split; [reflexivity|assumption]]. unfold set_number_of_channels. cbn [Nat.ltb Nat.leb andb max_channels]. f_equal.
Qed.
Lemma panned_zero pan n : (n <= 2)%nat -> panned pan (repeat 0 n) = (0, 0).
Proof.
  intros H. destruct n as [|[|[|n]]]; [reflexivity| | |lia]; unfold panned; cbn [repeat].
  - f_equal; ring.
  - destruct (Rle_dec pan 0); f_equal; ring.
Qed.
Lemma silent_frame size (q : list (chan R)) t : (t < size)%nat -> silent_zero (sops_of exact) size q -> is_silent q = true -> frame_of q t = repeat 0 (length q).
Proof.
  intros Ht Z S. unfold is_silent in S. apply negb_true_iff in S. unfold frame_of. induction q as [|c q IH]; [reflexivity|].
  cbn [existsb] in S. apply orb_false_iff in S. destruct S as [S1 S2]. inversion Z as [|? ? Z1 Z2]; subst. cbn [map length repeat]. rewrite IH by assumption. f_equal.
  apply negb_false_iff in S1. apply Nat.eqb_eq in S1. rewrite (Z1 S1). apply nth_repeat.
Qed.
Lemma nth_repeat_lt {X} (x d : X) n t : (t < n)%nat -> nth t (repeat x n) d = x.
Proof. intros H. rewrite nth_indep with (d' := x) by (rewrite repeat_length; exact H). apply nth_repeat. Qed.

Lemma stereo_panner_ok size s input output pan : (0 < size)%nat -> sized size input -> (length input <= 2)%nat -> silent_zero (sops_of exact) size input -> sized size output ->
  length pan = 1%nat \/ length pan = size ->
  exists out, stereo_panner exact size s input output pan = Ok out /\ length out = (if is_silent input then 1 else 2)%nat /\
    forall t, (t < size)%nat -> (sample 0 out 0 t, sample 0 out 1 t) = panned (value_at pan t) (frame_of input t).
Proof.
  intros Hs [Ni Fi] Li Zi So Lp. unfold stereo_panner. destruct (is_silent input) eqn:S.
  - destruct output as [|o os]; [destruct So; congruence|]. eexists. split; [reflexivity|]. split; [reflexivity|]. intros t Ht.
    rewrite (silent_frame size) by assumption. rewrite panned_zero by exact Li.
    unfold sample. cbn [nth c_val silence_chan]. change (s_zero (sops_of exact)) with 0. rewrite nth_repeat. destruct t; reflexivity.
  - destruct (set_two size output So) as (a & b & E & La & Lb). rewrite E. cbn [from_option bind stereo_mut].
    set (pans := match pan with [p] => repeat p (length (c_val a)) | _ => pan end).
    assert (Lps : length pans = size).
    { unfold pans. destruct pan as [|p [|p' pan]]; cbn [length] in *; [lia|rewrite repeat_length; exact La|lia]. }
    assert (Pv : forall t, (t < size)%nat -> nth t pans 0 = value_at pan t).
    { intros t Ht. unfold pans, value_at. destruct pan as [|p [|p' pan]].
      - cbn in Lp. lia.
      - cbn [length]. rewrite Nat.mod_1_r. apply nth_repeat_lt. lia.
      - rewrite Nat.mod_small; [reflexivity|]. cbn [length] in *. lia. }
    destruct input as [|c [|d [|e input]]]; [congruence| | |cbn in Li; lia]; inversion Fi as [|? ? F1 F2]; subst.
    + eexists. split; [reflexivity|]. split; [reflexivity|]. intros t Ht. unfold sample, new_pair. cbn [nth c_val].
      rewrite (write_pairs_nth _ 0) by lia. rewrite mono_panned, Pv by exact Ht. reflexivity.
    + inversion F2 as [|? ? F3 _]; subst. eexists. split; [reflexivity|]. split; [reflexivity|]. intros t Ht. unfold sample, new_pair. cbn [nth c_val].
      rewrite (write_pairs_nth _ 0) by lia. rewrite stereo_panned, Pv by exact Ht. reflexivity.
Qed.

(** gains of a panned frame *)
Lemma quarter a : 0 <= a <= PI / 2 -> 0 <= cos a <= 1 /\ 0 <= sin a <= 1.
Proof.
  intros H. pose proof PI_RGT_0. pose proof (COS_bound a). pose proof (SIN_bound a).
  assert (0 <= cos a) by (apply cos_ge_0; lra). assert (0 <= sin a) by (apply sin_ge_0; lra). lra.
Qed.
Lemma power a : cos a * cos a + sin a * sin a = 1.
Proof. pose proof (sin2_cos2 a) as H. unfold Rsqr in H. lra. Qed.
Lemma pan_mono_gains pan x : -1 <= pan <= 1 -> exists gl gr, panned pan [x] = (x * gl, x * gr) /\ gl * gl + gr * gr = 1 /\ 0 <= gl <= 1 /\ 0 <= gr <= 1.
Proof.
  intros H. pose proof PI_RGT_0. exists (cos ((pan + 1) / 2 * (PI / 2))), (sin ((pan + 1) / 2 * (PI / 2))). split; [reflexivity|]. split; [apply power|].
  apply quarter. split; [apply Rmult_le_pos; lra|]. rewrite <- (Rmult_1_l (PI / 2)) at 2. apply Rmult_le_compat_r; lra.
Qed.
Lemma pan_stereo_gains pan : -1 <= pan <= 1 -> exists ll lr rl rr, (forall l r, panned pan [l; r] = (l * ll + r * rl, l * lr + r * rr)) /\
  ll * ll + lr * lr = 1 /\ rl * rl + rr * rr = 1 /\ 0 <= ll <= 1 /\ 0 <= lr <= 1 /\ 0 <= rl <= 1 /\ 0 <= rr <= 1.
Proof.
  intros H. pose proof PI_RGT_0. unfold panned. destruct (Rle_dec pan 0) as [L|L].
  - exists 1, 0, (cos ((pan + 1) * (PI / 2))), (sin ((pan + 1) * (PI / 2))). split; [intros; f_equal; ring|]. split; [ring|]. split; [apply power|].
    split; [lra|]. split; [lra|]. apply quarter. split; [apply Rmult_le_pos; lra|]. rewrite <- (Rmult_1_l (PI / 2)) at 2. apply Rmult_le_compat_r; lra.
  - exists (cos (pan * (PI / 2))), (sin (pan * (PI / 2))), 0, 1. split; [intros; f_equal; ring|]. split; [apply power|]. split; [ring|].
    assert (Q : 0 <= cos (pan * (PI / 2)) <= 1 /\ 0 <= sin (pan * (PI / 2)) <= 1).
    { apply quarter. split; [apply Rmult_le_pos; lra|]. rewrite <- (Rmult_1_l (PI / 2)) at 2. apply Rmult_le_compat_r; lra. }
    destruct Q. split; [assumption|]. split; [assumption|]. lra.
Qed.
Lemma pan_ends : (forall x, panned (-1) [x] = (x, 0) /\ panned 1 [x] = (0, x) /\ fst (panned 0 [x]) = snd (panned 0 [x])) /\
  (forall l r, panned (-1) [l; r] = (l + r, 0) /\ panned 1 [l; r] = (0, r + l) /\ panned 0 [l; r] = (l, r)) /\
  (forall pan x, panned (- pan) [x] = (snd (panned pan [x]), fst (panned pan [x]))) .
Proof.
  split; [|split].
  - intros x. unfold panned. cbn [fst snd]. replace ((-1 + 1) / 2 * (PI / 2)) with 0 by field. replace ((1 + 1) / 2 * (PI / 2)) with (PI / 2) by field. replace ((0 + 1) / 2 * (PI / 2)) with (PI / 4) by field.
    rewrite cos_0, sin_0, cos_PI2, sin_PI2, sin_cos_PI4. split; [|split]; try f_equal; ring.
  - intros l r. unfold panned. destruct (Rle_dec (-1) 0) as [_|H]; [|lra]. destruct (Rle_dec 1 0) as [H|_]; [lra|]. destruct (Rle_dec 0 0) as [_|H]; [|lra].
    replace ((-1 + 1) * (PI / 2)) with 0 by field. replace (1 * (PI / 2)) with (PI / 2) by field. replace ((0 + 1) * (PI / 2)) with (PI / 2) by field.
    rewrite cos_0, sin_0, cos_PI2, sin_PI2. split; [|split]; f_equal; ring.
  - intros pan x. unfold panned. cbn [fst snd]. replace ((- pan + 1) / 2 * (PI / 2)) with (PI / 2 - (pan + 1) / 2 * (PI / 2)) by field.
    rewrite sin_shift, cos_shift. reflexivity.
Qed.

(** ** Geometry *)
Lemma pos_nonzero x : 0 < x -> x <> 0. Proof. lra. Qed.
Lemma dot_nonneg a : 0 <= dot a a.
Proof. destruct a as [[x y] z]. unfold dot. pose proof (Rle_0_sqr x). pose proof (Rle_0_sqr y). pose proof (Rle_0_sqr z). unfold Rsqr in *. lra. Qed.
Lemma dot_times_l k a b : dot (times k a) b = k * dot a b.
Proof. destruct a as [[x y] z], b as [[u v] w]. unfold dot, times. ring. Qed.
Lemma dot_comm a b : dot a b = dot b a.
Proof. destruct a as [[x y] z], b as [[u v] w]. unfold dot. ring. Qed.
Lemma dot_times_r k a b : dot a (times k b) = k * dot a b.
Proof. rewrite dot_comm, dot_times_l, dot_comm. reflexivity. Qed.
Lemma norm_pos a : 0 < dot a a -> 0 < norm a.
Proof. apply sqrt_lt_R0. Qed.
Lemma norm_sq a : norm a * norm a = dot a a.
Proof. apply sqrt_sqrt, dot_nonneg. Qed.
Lemma unit_dot a : 0 < dot a a -> dot (unit_vector a) (unit_vector a) = 1.
Proof. intros H. unfold unit_vector. rewrite dot_times_l, dot_times_r, <- norm_sq. pose proof (norm_pos a H). field. lra. Qed.
Lemma lagrange a b : dot a a * dot b b = dot a b * dot a b + dot (cross a b) (cross a b).
Proof. destruct a as [[x y] z], b as [[u v] w]. unfold dot, cross. ring. Qed.
Lemma dot_unit_range a b : dot a a = 1 -> dot b b = 1 -> -1 <= dot a b <= 1.
Proof.
  intros Ha Hb. pose proof (lagrange a b) as L. rewrite Ha, Hb in L. pose proof (dot_nonneg (cross a b)).
  split; [apply Rnot_lt_le; intro; assert (1 < (- dot a b) * (- dot a b)) by (rewrite <- (Rmult_1_l 1); apply Rmult_gt_0_lt_compat; lra); lra|].
  apply Rnot_lt_le; intro. assert (1 < dot a b * dot a b) by (rewrite <- (Rmult_1_l 1); apply Rmult_gt_0_lt_compat; lra). lra.
Qed.
Lemma cross_orth a b : dot (cross a b) a = 0 /\ dot (cross a b) b = 0.
Proof. destruct a as [[x y] z], b as [[u v] w]. unfold dot, cross. split; ring. Qed.

Lemma exact_sub a b : vec_sub exact a b = minus a b.
Proof. destruct a as [[? ?] ?], b as [[? ?] ?]. reflexivity. Qed.
Lemma exact_dot a b : vec_dot exact a b = dot a b.
Proof. destruct a as [[? ?] ?], b as [[? ?] ?]. reflexivity. Qed.
Lemma exact_cross a b : vec_cross exact a b = cross a b.
Proof. destruct a as [[? ?] ?], b as [[? ?] ?]. reflexivity. Qed.
Lemma exact_scale a k : vec_scale exact a k = times k a.
Proof. destruct a as [[? ?] ?]. unfold vec_scale, times. cbn [exact v_mul]. f_equal; [f_equal|]; ring. Qed.
Lemma exact_unit a : vec_normalized exact a = unit_vector a.
Proof. unfold vec_normalized, vec_len, vec_square_len. rewrite exact_dot, exact_scale. unfold unit_vector, norm. cbn [exact v_div v_sqrt v_of_Z]. f_equal. unfold Rdiv. ring. Qed.
Lemma exact_degrees x : degrees_acos exact x = 180 * acos x / PI.
Proof. reflexivity. Qed.
Definition tiny : R := 1 / IZR (2 ^ 126).
Lemma tiny_pos : 0 < tiny.
Proof. unfold tiny. apply Rdiv_lt_0_compat; [lra|]. apply (IZR_lt 0). reflexivity. Qed.

(** an orthonormal frame *)
Record frame3 (r f u : point) : Prop := { f_rr : dot r r = 1; f_ff : dot f f = 1; f_rf : dot r f = 0; f_u : u = cross r f }.
Lemma frame_u r f u : frame3 r f u -> dot u u = 1 /\ dot r u = 0 /\ dot f u = 0.
Proof.
  intros [Hr Hf Hrf ->]. pose proof (lagrange r f) as L. destruct (cross_orth r f) as [O1 O2]. rewrite (dot_comm r), (dot_comm f). rewrite Hr, Hf, Hrf in L. lra.
Qed.
Lemma frame_span r f u d : frame3 r f u -> d = plus (plus (times (dot d r) r) (times (dot d f) f)) (times (dot d u) u).
Proof.
  intros F. destruct (frame_u _ _ _ F) as (Uu & Ru & Fu). destruct F as [Hr Hf Hrf Eu].
  set (e := minus d (plus (plus (times (dot d r) r) (times (dot d f) f)) (times (dot d u) u))).
  assert (Er : dot e r = 0). { unfold e. transitivity (dot d r - (dot d r * dot r r + dot d f * dot r f + dot d u * dot r u)); [|rewrite Hr, Hrf, Ru; ring]. destruct d as [[? ?] ?], r as [[? ?] ?], f as [[? ?] ?], u as [[? ?] ?]. unfold dot, minus, plus, times. ring. }
  assert (Ef : dot e f = 0). { unfold e. transitivity (dot d f - (dot d r * dot r f + dot d f * dot f f + dot d u * dot f u)); [|rewrite Hf, Hrf, Fu; ring]. destruct d as [[? ?] ?], r as [[? ?] ?], f as [[? ?] ?], u as [[? ?] ?]. unfold dot, minus, plus, times. ring. }
  assert (Eu0 : dot e u = 0). { unfold e. transitivity (dot d u - (dot d r * dot r u + dot d f * dot f u + dot d u * dot u u)); [|rewrite Uu, Ru, Fu; ring]. destruct d as [[? ?] ?], r as [[? ?] ?], f as [[? ?] ?], u as [[? ?] ?]. unfold dot, minus, plus, times. ring. }
  (* |e|^2 |u|^2 = (e.u)^2 + |e x u|^2, with u = r x f, and e x (r x f) = r (e.f) - f (e.r) = 0 *)
  assert (Ex : cross e u = minus (times (dot e f) r) (times (dot e r) f)). { rewrite Eu. clear. destruct e as [[? ?] ?], r as [[? ?] ?], f as [[? ?] ?]. unfold dot, minus, times, cross. f_equal; [f_equal|]; ring. }
  rewrite Er, Ef in Ex. pose proof (lagrange e u) as L. rewrite Eu0, Uu, Ex in L.
  assert (E0 : dot e e = 0). { replace (dot e e) with (dot e e * 1) by ring. rewrite L. clear. destruct r as [[? ?] ?], f as [[? ?] ?]. unfold dot, minus, times. ring. }
  clear - E0. unfold e in E0. clear e. set (p := plus _ _) in *. clearbody p. destruct d as [[x y] z], p as [[u' v] w]. unfold dot, minus in E0.
  pose proof (Rle_0_sqr (x - u')) as H1. pose proof (Rle_0_sqr (y - v)) as H2. pose proof (Rle_0_sqr (z - w)) as H3. unfold Rsqr in *.
  assert (x - u' = 0) by (apply Rsqr_0_uniq; unfold Rsqr; lra). assert (y - v = 0) by (apply Rsqr_0_uniq; unfold Rsqr; lra). assert (z - w = 0) by (apply Rsqr_0_uniq; unfold Rsqr; lra).
  f_equal; [f_equal|]; lra.
Qed.
Lemma frame_sq r f u d : frame3 r f u -> dot d d = dot d r * dot d r + dot d f * dot d f + dot d u * dot d u.
Proof.
  intros F. pose proof (frame_span r f u d F) as E. set (a := dot d r) in *. set (b := dot d f) in *. set (c := dot d u) in *.
  destruct (frame_u _ _ _ F) as (Uu & Ru & Fu). destruct F as [Hr Hf Hrf _]. rewrite E. clearbody a b c. clear E.
  transitivity (a * a * dot r r + b * b * dot f f + c * c * dot u u + 2 * a * b * dot r f + 2 * a * c * dot r u + 2 * b * c * dot f u).
  - destruct r as [[? ?] ?], f as [[? ?] ?], u as [[? ?] ?]. unfold dot, plus, times. ring.
  - rewrite Hr, Hf, Uu, Hrf, Ru, Fu. ring.
Qed.

Lemma sqrt_pos_sq x : 0 < x -> sqrt x * sqrt x = x. Proof. intros. apply sqrt_sqrt. lra. Qed.
Lemma acos_degrees x : -1 <= x <= 1 -> 0 <= 180 * acos x / PI <= 180.
Proof.
  intros H. pose proof PI_RGT_0. pose proof (acos_bound x). split.
  - apply Rmult_le_pos; [lra|]. left. apply Rinv_0_lt_compat. assumption.
  - apply Rmult_le_reg_r with PI; [assumption|]. unfold Rdiv. rewrite Rmult_assoc, Rinv_l by lra. lra.
Qed.
Lemma azimuth_ok source listener forward up :
  let d := minus source listener in let r := unit_vector (cross forward up) in let f := unit_vector forward in
  tiny < dot d d -> dot (cross forward up) (cross forward up) <> 0 ->
  exists az el, azimuth_and_elevation exact source listener forward up = (az, el) /\ -180 <= az <= 180 /\ -90 <= el <= 90 /\
    unit_vector d = plus (times (cos (radians el)) (plus (times (sin (radians az)) r) (times (cos (radians az)) f))) (times (sin (radians el)) (cross r f)).
Proof.
  intros d r f Hd Hr. pose proof PI_RGT_0 as PI0. pose proof tiny_pos as T0.
  unfold azimuth_and_elevation. cbv zeta. rewrite exact_sub. fold d. unfold vec_square_len. rewrite (exact_dot d d).
  change (v_le exact (dot d d) (min_positive exact)) with (R_le (dot d d) tiny). rewrite (R_le_false (dot d d) tiny) by exact Hd.
  rewrite (exact_cross forward up), (exact_dot (cross forward up) (cross forward up)). change (v_eq exact ?x (v_of_Z exact 0)) with (R_eq x 0).
  assert (Eq0 : R_eq (dot (cross forward up) (cross forward up)) 0 = false) by (unfold R_eq; destruct (Req_EM_T _ _); [contradiction|reflexivity]).
  rewrite Eq0. rewrite (exact_unit d), (exact_unit forward), (exact_unit (cross forward up)). fold r f. rewrite (exact_cross r f). set (u := cross r f). set (e := unit_vector d). rewrite (exact_dot e u).
  assert (Cp : 0 < dot (cross forward up) (cross forward up)) by (pose proof (dot_nonneg (cross forward up)); lra).
  assert (Fp : 0 < dot forward forward).
  { pose proof (dot_nonneg forward) as [P|P]; [exact P|]. exfalso. apply Hr. pose proof (lagrange forward up) as L. rewrite <- P, Rmult_0_l in L. pose proof (dot_nonneg (cross forward up)). pose proof (Rle_0_sqr (dot forward up)) as Q. unfold Rsqr in Q. lra. }
  assert (Fr : frame3 r f u).
  { constructor; [apply unit_dot; exact Cp|apply unit_dot; exact Fp| |reflexivity]. unfold r, f, unit_vector. rewrite dot_times_l, dot_times_r. destruct (cross_orth forward up) as [O _]. rewrite O. ring. }
  assert (Ee : dot e e = 1) by (apply unit_dot; lra).
  destruct (frame_u _ _ _ Fr) as (Uu & Ru & Fu).
  set (s := dot e u). assert (Hs : -1 <= s <= 1) by (apply dot_unit_range; assumption).
  fold s. rewrite (exact_degrees s). pose proof (acos_degrees s Hs) as Ad. set (ad := 180 * acos s / PI) in *.
  cbn [exact v_sub v_lt v_le v_of_Z]. rewrite (R_lt_false 90 (90 - ad)) by lra. rewrite (R_lt_false (90 - ad) (-90)) by lra.
  rewrite (exact_scale u s), (exact_sub e (times s u)). set (p := minus e (times s u)). rewrite (exact_dot p p).
  pose proof (frame_sq r f u e Fr) as Sq. rewrite Ee in Sq. fold s in Sq. pose proof (frame_span r f u e Fr) as Sp. fold s in Sp.
  set (a := dot e r) in *. set (b := dot e f) in *.
  assert (Pr : dot p r = a). { unfold p. transitivity (dot e r - s * dot r u); [|rewrite Ru; unfold a; ring]. destruct e as [[? ?] ?], r as [[? ?] ?], u as [[? ?] ?]. unfold dot, minus, times. ring. }
  assert (Pf : dot p f = b). { unfold p. transitivity (dot e f - s * dot f u); [|rewrite Fu; unfold b; ring]. destruct e as [[? ?] ?], f as [[? ?] ?], u as [[? ?] ?]. unfold dot, minus, times. ring. }
  assert (Pu : dot p u = 0). { unfold p. transitivity (dot e u - s * dot u u); [|rewrite Uu; unfold s; ring]. destruct e as [[? ?] ?], u as [[? ?] ?]. unfold dot, minus, times. ring. }
  pose proof (frame_sq r f u p Fr) as Pp. rewrite Pr, Pf, Pu in Pp.
  assert (El : radians (90 - ad) = PI / 2 - acos s) by (unfold radians, ad; field; lra).
  assert (Es : sin (radians (90 - ad)) = s) by (rewrite El, sin_shift; apply cos_acos; exact Hs).
  assert (Ec : cos (radians (90 - ad)) = sqrt (dot p p)).
  { rewrite El, cos_shift, sin_acos by exact Hs. f_equal. unfold Rsqr. lra. }
  destruct (R_eq (dot p p) 0) eqn:E0.
  - unfold R_eq in E0. destruct (Req_EM_T (dot p p) 0) as [Z|]; [|discriminate]. exists 0, (90 - ad). split; [reflexivity|]. split; [lra|]. split; [lra|].
    rewrite Es, Ec, Z, sqrt_0. pose proof (Rle_0_sqr a) as Qa. pose proof (Rle_0_sqr b) as Qb. unfold Rsqr in Qa, Qb.
    assert (a = 0) as A0 by (apply Rsqr_0_uniq; unfold Rsqr; lra). assert (b = 0) as B0 by (apply Rsqr_0_uniq; unfold Rsqr; lra).
    rewrite Sp at 1. rewrite A0, B0. clear. destruct r as [[? ?] ?], f as [[? ?] ?], u as [[? ?] ?]. unfold plus, times. f_equal; [f_equal|]; ring.
  - unfold R_eq in E0. destruct (Req_EM_T (dot p p) 0) as [|NZ]; [discriminate|]. clear E0.
    assert (P0 : 0 < dot p p) by (pose proof (dot_nonneg p); lra).
    rewrite (exact_unit p), (exact_dot (unit_vector p) r), (exact_dot (unit_vector p) f), exact_degrees. assert (Ur : dot (unit_vector p) r = / norm p * a) by (unfold unit_vector; rewrite dot_times_l, Pr; reflexivity). assert (Uf : dot (unit_vector p) f = / norm p * b) by (unfold unit_vector; rewrite dot_times_l, Pf; reflexivity). rewrite Ur, Uf. clear Ur Uf.
    pose proof (norm_pos p P0) as N0. set (n := norm p) in *. assert (Nn : n * n = dot p p) by apply norm_sq.
    set (c := / n * a). set (g := / n * b).
    assert (Cg : c * c + g * g = 1). { unfold c, g. transitivity ((a * a + b * b) / (n * n)); [field; lra|]. rewrite Nn. rewrite Pp. field. lra. }
    assert (Hc : -1 <= c <= 1).
    { pose proof (Rle_0_sqr g) as Q. unfold Rsqr in Q. split; apply Rnot_lt_le; intro H.
      - assert (1 < (- c) * (- c)) by (rewrite <- (Rmult_1_l 1); apply Rmult_gt_0_lt_compat; lra). lra.
      - assert (1 < c * c) by (rewrite <- (Rmult_1_l 1); apply Rmult_gt_0_lt_compat; lra). lra. }
    pose proof (acos_degrees c Hc) as Bd. set (bd := 180 * acos c / PI) in *.
    assert (Sc : sin (acos c) = Rabs g). { rewrite sin_acos by exact Hc. replace (1 - Rsqr c) with (Rsqr g) by (unfold Rsqr; lra). apply sqrt_Rsqr_abs. }
    assert (Az : forall a1, 0 <= a1 <= 360 -> cos (radians a1) = c -> sin (radians a1) = g ->
      exists az el, ((if R_le 0 a1 && R_le a1 270 then 90 - a1 else 450 - a1, 90 - ad) : R * R) = (az, el) /\ -180 <= az <= 180 /\ -90 <= el <= 90 /\
        e = plus (times (cos (radians el)) (plus (times (sin (radians az)) r) (times (cos (radians az)) f))) (times (sin (radians el)) u)).
    { intros a1 H1 C1 S1. eexists _, _. split; [reflexivity|].
      rewrite (R_le_true 0 a1) by lra. cbn [andb].
      assert (Q : -180 <= (if R_le a1 270 then 90 - a1 else 450 - a1) <= 180 /\ sin (radians (if R_le a1 270 then 90 - a1 else 450 - a1)) = c /\ cos (radians (if R_le a1 270 then 90 - a1 else 450 - a1)) = g).
      { unfold R_le. destruct (Rle_dec a1 270) as [L|L].
        - split; [lra|]. assert (radians (90 - a1) = PI / 2 - radians a1) as -> by (unfold radians; field). rewrite sin_shift, cos_shift. split; assumption.
        - split; [lra|]. assert (radians (450 - a1) = (PI / 2 - radians a1) + 2 * PI) as -> by (unfold radians; field).
          rewrite sin_plus, cos_plus, sin_2PI, cos_2PI, sin_shift, cos_shift. rewrite C1, S1. split; ring. }
      destruct Q as (Q1 & Q2 & Q3). split; [exact Q1|]. split; [lra|]. rewrite Es, Ec, Q2, Q3. change (sqrt (dot p p)) with n.
      rewrite Sp at 1. replace a with (n * c) by (unfold c; field; lra). replace b with (n * g) by (unfold g; field; lra).
      clear. destruct r as [[? ?] ?], f as [[? ?] ?], u as [[? ?] ?]. unfold plus, times. f_equal; [f_equal|]; ring. }
    destruct (R_lt g 0) eqn:Lg; unfold R_lt in Lg; destruct (Rlt_dec g 0) as [L|L]; try discriminate.
    + apply Az; [lra| |].
      * assert (radians (360 - bd) = - acos c + 2 * PI) as -> by (unfold radians, bd; field; lra). rewrite cos_plus, sin_2PI, cos_2PI, cos_neg, cos_acos by exact Hc. ring.
      * assert (radians (360 - bd) = - acos c + 2 * PI) as -> by (unfold radians, bd; field; lra). rewrite sin_plus, sin_2PI, cos_2PI, sin_neg, Sc, Rabs_left by exact L. ring.
    + apply Az; [lra| |].
      * assert (radians bd = acos c) as -> by (unfold radians, bd; field; lra). apply cos_acos. exact Hc.
      * assert (radians bd = acos c) as -> by (unfold radians, bd; field; lra). rewrite Sc. apply Rabs_right. lra.
Qed.
Lemma azimuth_same source listener forward up : dot (minus source listener) (minus source listener) <= tiny \/ dot (cross forward up) (cross forward up) = 0 ->
  azimuth_and_elevation exact source listener forward up = (0, 0).
Proof.
  intros H. unfold azimuth_and_elevation. rewrite exact_sub. unfold vec_square_len. rewrite exact_dot.
  change (v_le exact ?x (min_positive exact)) with (R_le x tiny). unfold R_le. destruct (Rle_dec _ tiny) as [L|L]; [reflexivity|].
  destruct H as [H|H]; [contradiction|]. rewrite exact_cross, exact_dot. change (v_eq exact ?x (v_of_Z exact 0)) with (R_eq x 0).
  rewrite H. unfold R_eq. destruct (Req_EM_T 0 0) as [_|N]; [reflexivity|congruence].
Qed.

(** ** Gains *)
Lemma angle_ok source orientation listener : let d := minus source listener in
  angle exact source orientation listener =
    if Req_EM_T (dot orientation orientation) 0 then 0 else if Rle_dec (dot d d) tiny then 0 else between d orientation.
Proof.
  intros d. unfold angle, vec_square_len. cbv zeta. rewrite exact_sub. fold d. rewrite (exact_unit d), (exact_unit orientation), (exact_dot orientation orientation), (exact_dot d d), (exact_dot (unit_vector d)). change (v_eq exact ?x (v_of_Z exact 0)) with (R_eq x 0). change (v_le exact ?x (min_positive exact)) with (R_le x tiny).
  unfold R_eq. destruct (Req_EM_T (dot orientation orientation) 0) as [|N]; [reflexivity|]. unfold R_le. destruct (Rle_dec (dot d d) tiny) as [|L]; [reflexivity|].
  rewrite exact_degrees. cbn [exact v_abs]. unfold between.
  assert (R1 : -1 <= dot (unit_vector d) (unit_vector orientation) <= 1).
  { apply dot_unit_range; apply unit_dot; [pose proof tiny_pos; lra|pose proof (dot_nonneg orientation); lra]. }
  pose proof (acos_degrees _ R1). rewrite Rabs_right by lra. unfold Rdiv. ring.
Qed.
Lemma angle_range source orientation listener : 0 <= angle exact source orientation listener <= 180.
Proof.
  rewrite angle_ok. cbv zeta. destruct (Req_EM_T _ 0); [lra|]. destruct (Rle_dec _ tiny) as [|L]; [lra|]. unfold between.
  pose proof (acos_degrees (dot (unit_vector (minus source listener)) (unit_vector orientation))) as Q.
  assert (R1 : -1 <= dot (unit_vector (minus source listener)) (unit_vector orientation) <= 1).
  { apply dot_unit_range; apply unit_dot; [pose proof tiny_pos; lra|pose proof (dot_nonneg orientation); lra]. }
  specialize (Q R1). unfold Rdiv in *. rewrite Rmult_assoc, (Rmult_comm (/ PI)), <- Rmult_assoc. exact Q.
Qed.
Lemma cone_ok p source orientation listener : 
  cone_gain exact p source orientation listener = if Rle_dec 180 (Rabs (p_inner p) / 2) then if Rle_dec 180 (Rabs (p_outer p) / 2) then 1 else cone p (angle exact source orientation listener) else cone p (angle exact source orientation listener).
Proof.
  unfold cone_gain. cbn [exact v_div v_of_t t_abs v_of_Z v_le v_lt v_sub v_add v_mul]. unfold R_le, R_lt, cone.
  destruct (Rle_dec 180 (Rabs (p_inner p) / 2)); [destruct (Rle_dec 180 (Rabs (p_outer p) / 2))|]; cbn [andb]; [reflexivity| |];
    (destruct (Rlt_dec _ _); [reflexivity|]; destruct (Rle_dec _ (angle exact source orientation listener)); reflexivity).
Qed.
Lemma cone_range p a : 0 <= p_outer_gain p <= 1 -> p_outer_gain p <= cone p a <= 1.
Proof.
  intros H. unfold cone. destruct (Rlt_dec a _) as [|N]; [lra|]. destruct (Rle_dec _ a) as [|M]; [lra|].
  set (i := Rabs (p_inner p) / 2) in *. set (o := Rabs (p_outer p) / 2) in *.
  assert (X : 0 <= (a - i) / (o - i) <= 1).
  { split; [apply Rmult_le_pos; [lra|left; apply Rinv_0_lt_compat; lra]|]. apply Rmult_le_reg_r with (o - i); [lra|]. unfold Rdiv. rewrite Rmult_assoc, Rinv_l by lra. lra. }
  set (x := (a - i) / (o - i)) in *. set (g := p_outer_gain p) in *.
  assert (0 <= (1 - g) * x <= 1 - g). { split; [apply Rmult_le_pos; lra|]. rewrite <- (Rmult_1_r (1 - g)) at 2. apply Rmult_le_compat_l; lra. }
  lra.
Qed.
Lemma clamp_ok x lo hi : lo <= hi -> t_clamp exact x lo hi = Ok (Rmax lo (Rmin x hi)).
Proof.
  intros H. unfold t_clamp. cbn [exact t_le t_lt]. rewrite (R_le_true lo hi) by exact H. cbn [check bind]. f_equal. unfold R_lt, Rmax, Rmin.
  destruct (Rlt_dec x lo), (Rlt_dec hi x), (Rle_dec x hi); try lra; destruct (Rle_dec _ _); lra.
Qed.
Lemma gain_ok p d : accepted p -> gain_at exact p d = Ok (attenuation p d).
Proof.
  intros (H1 & H2 & H3 & _). unfold gain_at, attenuation. destruct (p_model p).
  - rewrite (clamp_ok (p_rolloff p)) by (cbn [exact t_zero t_one t_of_Z]; unfold t_zero, t_one; cbn; lra). cbn [bind].
    change (t_min exact) with Rmin. change (t_max exact) with Rmax.
    rewrite clamp_ok by (unfold Rmin, Rmax; destruct (Rle_dec _ _); lra). cbn [bind]. unfold t_one, t_zero. cbn [exact t_sub t_div t_mul t_of_Z].
    f_equal. f_equal. f_equal. f_equal. apply Rmax_right. apply Rmin_glb; lra.
  - unfold t_zero, t_one. cbn [exact t_lt t_of_Z t_div t_add t_mul t_sub t_max]. unfold R_lt. destruct (Rlt_dec 0 d); [|reflexivity]. rewrite (Rmax_left (p_rolloff p) 0), (Rmax_comm (p_ref p)) by exact H3. reflexivity.
  - unfold t_zero. cbn [exact t_of_Z t_div t_pow t_neg t_max]. rewrite (Rmax_left (p_rolloff p) 0) by exact H3. reflexivity.
Qed.
Lemma frac_range a b : 0 <= a <= b -> 0 < b -> 0 <= a / b <= 1.
Proof. intros H Hb. split; [apply Rmult_le_pos; [lra|left; apply Rinv_0_lt_compat; exact Hb]|]. apply Rmult_le_reg_r with b; [exact Hb|]. unfold Rdiv. rewrite Rmult_assoc, Rinv_l by lra. lra. Qed.
Lemma attenuation_range p d : accepted p -> meaningful p -> 0 <= d -> 0 <= attenuation p d <= 1.
Proof.
  intros (H1 & H2 & H3 & _) M Hd. unfold attenuation, meaningful in *. destruct (p_model p).
  - assert (L : Rmin (p_ref p) (p_max p) < Rmax (p_ref p) (p_max p)) by (unfold Rmin, Rmax; destruct (Rle_dec _ _); lra).
    set (lo := Rmin _ (p_max p)) in *. set (hi := Rmax _ (p_max p)) in *.
    assert (C : lo <= Rmax lo (Rmin d hi) <= hi) by (split; [apply Rmax_l|apply Rmax_lub; [lra|apply Rmin_r]]).
    pose proof (frac_range (Rmax lo (Rmin d hi) - lo) (hi - lo) ltac:(lra) ltac:(lra)) as F.
    assert (G : 0 <= Rmin (p_rolloff p) 1 <= 1) by (split; [apply Rmin_glb; lra|apply Rmin_r]).
    replace (Rmin (p_rolloff p) 1 * (Rmax lo (Rmin d hi) - lo) / (hi - lo)) with (Rmin (p_rolloff p) 1 * ((Rmax lo (Rmin d hi) - lo) / (hi - lo))) by (unfold Rdiv; ring).
    set (x := (Rmax lo (Rmin d hi) - lo) / (hi - lo)) in *. set (f := Rmin _ 1) in *.
    assert (0 <= f * x <= 1). { split; [apply Rmult_le_pos; lra|]. rewrite <- (Rmult_1_l 1). apply Rmult_le_compat; lra. } lra.
  - destruct (Rlt_dec 0 d) as [D|D]; [|lra]. set (m := Rmax d (p_ref p)). assert (Hm : p_ref p <= m) by apply Rmax_r. assert (Hm' : d <= m) by apply Rmax_l.
    assert (P : 0 <= p_rolloff p * (m - p_ref p)) by (apply Rmult_le_pos; lra).
    apply frac_range; [lra|]. destruct M as [M|M]; [lra|]. destruct (Rle_lt_or_eq_dec 0 (p_ref p) H1) as [R0|R0]; [lra|]. rewrite <- R0 in *. assert (0 < p_rolloff p * (m - 0)) by (apply Rmult_lt_0_compat; lra). lra.
  - set (m := Rmax d (p_ref p)). assert (Hm : p_ref p <= m) by apply Rmax_r.
    assert (Q : 1 <= m / p_ref p). { apply Rmult_le_reg_r with (p_ref p); [exact M|]. unfold Rdiv. rewrite Rmult_assoc, Rinv_l by lra. lra. }
    unfold Rpower. split; [left; apply exp_pos|]. rewrite <- exp_0. 
    assert (0 <= ln (m / p_ref p)). { rewrite <- ln_1. destruct Q as [Q|Q]; [left; apply ln_increasing; lra|rewrite <- Q; lra]. }
    assert (0 <= p_rolloff p * ln (m / p_ref p)) by (apply Rmult_le_pos; assumption).
    destruct (Rle_lt_or_eq_dec 0 _ H0) as [E|E]; [left; apply exp_increasing; lra|]. right. f_equal. lra.
Qed.
Lemma div_antitone a b c : 0 <= a -> 0 < b -> b <= c -> a / c <= a / b.
Proof. intros. unfold Rdiv. apply Rmult_le_compat_l; [assumption|]. apply Rinv_le_contravar; assumption. Qed.
Lemma attenuation_monotone p d e : accepted p -> meaningful p -> 0 <= d <= e -> attenuation p e <= attenuation p d.
Proof.
  intros Hp M Hd. pose proof (attenuation_range p e Hp M ltac:(lra)) as Re. destruct Hp as (H1 & H2 & H3 & _). unfold attenuation, meaningful in *. destruct (p_model p).
  - assert (L : Rmin (p_ref p) (p_max p) < Rmax (p_ref p) (p_max p)) by (unfold Rmin, Rmax; destruct (Rle_dec _ _); lra).
    set (lo := Rmin _ (p_max p)) in *. set (hi := Rmax _ (p_max p)) in *.
    assert (G : 0 <= Rmin (p_rolloff p) 1) by (apply Rmin_glb; lra).
    apply Rplus_le_compat_l. apply Ropp_le_contravar. unfold Rdiv. apply Rmult_le_compat_r; [left; apply Rinv_0_lt_compat; lra|]. apply Rmult_le_compat_l; [exact G|].
    apply Rplus_le_compat_r. apply Rle_max_compat_l. apply Rle_min_compat_r. lra.
  - destruct (Rlt_dec 0 d) as [D|D]; [|destruct (Rlt_dec 0 e); lra]. destruct (Rlt_dec 0 e) as [_|E]; [|lra].
    assert (Mm : Rmax d (p_ref p) <= Rmax e (p_ref p)) by (apply Rle_max_compat_r; lra).
    assert (Hm : p_ref p <= Rmax d (p_ref p)) by apply Rmax_r. assert (Hm' : d <= Rmax d (p_ref p)) by apply Rmax_l.
    apply div_antitone; [exact H1| |].
    + assert (P : 0 <= p_rolloff p * (Rmax d (p_ref p) - p_ref p)) by (apply Rmult_le_pos; lra). destruct M as [M|M]; [lra|].
      destruct (Rle_lt_or_eq_dec 0 (p_ref p) H1) as [R0|R0]; [lra|]. rewrite <- R0 in *. assert (0 < p_rolloff p * (Rmax d 0 - 0)) by (apply Rmult_lt_0_compat; lra). lra.
    + apply Rplus_le_compat_l. apply Rmult_le_compat_l; lra.
  - assert (Mm : Rmax d (p_ref p) <= Rmax e (p_ref p)) by (apply Rle_max_compat_r; lra). assert (Hm : p_ref p <= Rmax d (p_ref p)) by apply Rmax_r.
    unfold Rpower. assert (Q : ln (Rmax d (p_ref p) / p_ref p) <= ln (Rmax e (p_ref p) / p_ref p)).
    { assert (I : Rmax d (p_ref p) / p_ref p <= Rmax e (p_ref p) / p_ref p) by (unfold Rdiv; apply Rmult_le_compat_r; [left; apply Rinv_0_lt_compat; exact M|exact Mm]).
      assert (I0 : 0 < Rmax d (p_ref p) / p_ref p) by (apply Rdiv_lt_0_compat; lra). destruct I as [I|I]; [left; apply ln_increasing; assumption|rewrite I; lra]. }
    assert (I2 : - p_rolloff p * ln (Rmax e (p_ref p) / p_ref p) <= - p_rolloff p * ln (Rmax d (p_ref p) / p_ref p)).
    { rewrite <- !Ropp_mult_distr_l. apply Ropp_le_contravar. apply Rmult_le_compat_l; assumption. }
    destruct I2 as [I2|I2]; [left; apply exp_increasing; exact I2|rewrite I2; lra].
Qed.
