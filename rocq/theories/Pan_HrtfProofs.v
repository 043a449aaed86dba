(** Panning: a panner with impulse responses, one quantum (real numbers). *)
From Coq Require Import List Arith Bool ZArith Reals Lra Lia.
From Verif Require Import Common_Model Arith_Model Arith_Real Quantum_Model Route_Spec Pan_Model Pan_Spec Pan_Proofs Pan_NodeProofs.
Import ListNotations.
Local Open Scope R_scope.

(** what the impulse responses are applied to: the channel, or the average of the two channels *)
Definition heard (size : nat) (q : list (chan R)) : list R :=
  map (fun t => fold_right Rplus 0 (frame_of q t) / INR (length q)) (seq 0 size).
(** the unit vector with this azimuth and elevation (degrees) *)
Definition direction (az el : R) : point :=
  (sin (radians az) * cos (radians el), sin (radians el), cos (radians az) * cos (radians el)).
Definition elevation_at (l : positions (V := R)) (t : nat) : R :=
  snd (azimuth_and_elevation exact (point_at (l_source l) t) (point_at (l_listener l) t) (point_at (l_forward l) t) (point_at (l_up l) t)).

Lemma direction_unit az el : norm (direction az el) = 1.
Proof.
  unfold norm, direction, dot. set (a := radians az). set (e := radians el). rewrite <- sqrt_1. f_equal.
  pose proof (sin2_cos2 a) as Ha. pose proof (sin2_cos2 e) as He. unfold Rsqr in *.
  replace (_ + _ + _) with ((sin a * sin a + cos a * cos a) * (cos e * cos e) + sin e * sin e) by ring. rewrite Ha. lra.
Qed.
Lemma projected_ok az el : projected_source exact az el = direction az el.
Proof.
  unfold projected_source. cbn [exact v_div v_mul v_PI v_of_Z v_sin v_cos v_le v_abs v_frac]. 
  change (az * PI / 180) with (radians az). change (el * PI / 180) with (radians el).
  pose proof (direction_unit az el) as U. unfold direction in *. set (a := radians az) in *. set (e := radians el) in *. clearbody a e.
  match goal with |- (if ?b then _ else _) = _ => destruct b eqn:E end; [exfalso|reflexivity].
  apply andb_prop in E. destruct E as [E E3]. apply andb_prop in E. destruct E as [E1 E2].
  assert (G : forall x, Arith_Real.R_le (Rabs x) (1 / 1000000) = true -> x * x <= 1 / 9).
  { intros x Hx. unfold Arith_Real.R_le in Hx. destruct (Rle_dec (Rabs x) (1 / 1000000)) as [L|]; [|discriminate].
    apply Rabs_le_inv in L || apply Rabs_def2b in L || idtac. assert (-1/3 <= x <= 1/3) by (revert L; unfold Rabs; destruct (Rcase_abs x); lra). nra. }
  apply G in E1, E2, E3. unfold norm, dot in U.
  assert (Q : sqrt (sin a * cos e * (sin a * cos e) + sin e * sin e + cos a * cos e * (cos a * cos e)) <= sqrt (1/3)) by (apply sqrt_le_1_alt; lra).
  assert (sqrt (1/3) < 1) by (rewrite <- sqrt_1 at 2; apply sqrt_lt_1_alt; lra). lra.
Qed.

Lemma heard_one size c : length (c_val c) = size -> heard size [c] = c_val c.
Proof.
  intros <-. unfold heard, frame_of. cbn [map fold_right length INR]. apply nth_ext with (d := 0) (d' := 0); [rewrite map_length, seq_length; reflexivity|].
  intros n Hn. rewrite map_length, seq_length in Hn. 
  rewrite nth_indep with (d' := (fun t : nat => (nth t (c_val c) 0 + 0) / 1) 0%nat) by (rewrite map_length, seq_length; exact Hn).
  rewrite map_nth with (f := fun t : nat => (nth t (c_val c) 0 + 0) / 1). rewrite seq_nth by exact Hn. cbn [Nat.add]. field.
Qed.
Lemma spatial_ok' p l t : accepted p -> given l -> spatial_at exact p l t = Ok (mk_spatial (dist_at p l t) (cone_at p l t) (azimuth_at l t) (elevation_at l t)).
Proof.
  intros Ha Hg. destruct (spatial_ok p l t Ha Hg) as [el E]. rewrite E.
  destruct Hg as (G1 & G2 & G3 & G4 & G5). unfold spatial_at in E. rewrite !vec_at_ok in E by assumption. cbn [bind] in E.
  destruct (dist_gain _ _ _ _) as [d| |] in E; cbn [bind] in E; try discriminate. unfold elevation_at.
  destruct (azimuth_and_elevation exact _ _ _ _) as [a e] in *. cbn in E |- *. congruence.
Qed.
Lemma zip_nth (k : R) (f : R * R -> R) : forall (ps : list (R * R)) xs t, length ps = length xs -> (t < length xs)%nat -> nth t (zip_mut (fun _ x => k * f x) xs ps) 0 = k * f (nth t ps (0, 0)).
Proof.
  induction ps as [|p ps IH]; intros [|x xs] [|t] L H; cbn in *; try lia; [reflexivity|]. apply IH; lia.
Qed.

Section Hrtf.
Context {H : Type}.
Variable hp : H -> list R -> R -> vec (V := R) -> H * list (R * R).
Variable hl : H -> nat.
Lemma hrtf_ok size p s (h : H) input l h' pairs : (0 < size)%nat -> accepted p -> given l -> sized size input -> (length input <= 2)%nat ->
  hp h (heard size input) (cone_at p l 0 * dist_at p l 0) (direction (azimuth_at l 0) (elevation_at l 0)) = (h', pairs) -> length pairs = size ->
  exists out, hrtf exact size hp p s h input l = Ok (h', out) /\ length out = 2%nat /\
    forall t, (t < size)%nat -> (sample 0 out 0 t, sample 0 out 1 t) = scaled (INR (length input)) (nth t pairs (0, 0)).
Proof.
  intros Hs Ha Hg [Ni Fi] Li E L. unfold hrtf. rewrite spatial_ok' by assumption. cbn [bind sp_cone sp_dist sp_azimuth sp_elevation]. rewrite projected_ok.
  change (v_mul exact (cone_at p l 0) (dist_at p l 0)) with (cone_at p l 0 * dist_at p l 0).
  destruct input as [|c [|d [|e input]]]; [congruence| | |cbn in Li; lia]; pose proof (Forall_inv Fi) as F1; cbv beta in F1; pose proof (Forall_inv_tail Fi) as F2.
  - cbn [length Nat.eqb bind index nth_error]. rewrite heard_one in E by exact F1. change (index [c] 0) with (Ok c). cbn [bind]. rewrite E. destruct c as [cn cv]. cbn [c_val] in *.
    cbn [set_number_of_channels from_option bind stereo_mut length Nat.eqb Nat.ltb Nat.leb max_channels firstn app repeat Nat.sub nth hd c_val andb].
    eexists. split; [reflexivity|]. split; [reflexivity|]. intros t Ht. unfold sample, new_pair. cbn [nth c_val fst snd]. cbn [exact v_mul v_of_Z].
    rewrite !zip_nth by lia. unfold scaled. cbn [INR length]. reflexivity.
  - pose proof (Forall_inv F2) as F3; cbv beta in F3. cbn [length Nat.eqb]. destruct c as [cn cv], d as [dn dv]. cbn [c_val] in *.
    change (mix (sops_of exact) size s [mk_chan cn cv; mk_chan dn dv] 1 Speakers) with (Some (S s, [mk_chan s (zip_mut (fun l r : R => 1 / 2 * (l + r)) cv dv)])).
    cbn [from_option bind]. match goal with |- context [index [?x] 0] => change (index [x] 0) with (Ok x) end. cbn [bind c_val].
    replace (zip_mut _ cv dv) with (heard size [mk_chan cn cv; mk_chan dn dv]).
    2: { unfold heard, frame_of. cbn [map fold_right length INR c_val]. clear - F1 F3. revert size F1 dv F3. induction cv as [|x cv IH]; intros size <- [|y dv] L; cbn in L; try discriminate; [reflexivity|].
         cbn [length seq map nth zip_mut]. f_equal; [field|].
         rewrite <- seq_shift, map_map. cbn [nth]. apply IH; [reflexivity|lia]. }
    rewrite E. cbn [set_number_of_channels from_option bind stereo_mut length Nat.eqb Nat.ltb Nat.leb max_channels firstn app repeat Nat.sub nth hd c_val andb].
    assert (L2 : length (heard size [mk_chan cn cv; mk_chan dn dv]) = size) by (unfold heard; rewrite map_length, seq_length; reflexivity).
    eexists. split; [reflexivity|]. split; [reflexivity|]. intros t Ht. unfold sample, new_pair. cbn [nth c_val fst snd]. cbn [exact v_mul v_of_Z].
    rewrite !zip_nth by lia. unfold scaled. cbn [INR length]. f_equal; ring.
Qed.
Lemma hrtf_panner size p n s (h : H) input output l h' pairs : (0 < size)%nat -> accepted p -> given l -> sized size input -> (length input <= 2)%nat ->
  is_silent input = false \/ (n < hl h)%nat ->
  hp h (heard size input) (cone_at p l 0 * dist_at p l 0) (direction (azimuth_at l 0) (elevation_at l 0)) = (h', pairs) -> length pairs = size ->
  exists out, panner_quantum exact size hp hl (mk_panner p (Some h) n) s input output l =
      Ok (mk_panner p (Some h') (if is_silent input then n + size else n)%nat, out, true) /\ length out = 2%nat /\
    forall t, (t < size)%nat -> (sample 0 out 0 t, sample 0 out 1 t) = scaled (INR (length input)) (nth t pairs (0, 0)).
Proof.
  intros Hs Ha Hg Si Li Ht E L. destruct (hrtf_ok size p s h input l h' pairs Hs Ha Hg Si Li E L) as (out & Eo & Lo & P).
  exists out. split; [|split; assumption]. unfold panner_quantum. cbn [n_hrtf n_tail n_settings].
  replace (is_silent input && negb (n <? hl h)%nat) with false.
  - rewrite Eo. reflexivity.
  - destruct Ht as [-> | Ht]; [reflexivity|]. replace (n <? hl h)%nat with true by (symmetry; apply Nat.ltb_lt; exact Ht). symmetry. apply andb_false_r.
Qed.
End Hrtf.
