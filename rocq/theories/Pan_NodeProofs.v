(** The panner on quanta: exact arithmetic. *)
From Coq Require Import List Arith Bool ZArith Reals Lra Lia.
From Verif Require Import Arith_Model Arith_Real Absn_ExactProofs Quantum_Model Route_Spec Route_Proofs Pan_Model Pan_Spec Pan_Proofs Delay_Proofs.
Import ListNotations.
Local Open Scope R_scope.

Lemma fold_pan az : -180 <= az <= 180 -> fold_azimuth exact az = 90 * pan_of az /\ -1 <= pan_of az <= 1.
Proof.
  intros H. unfold fold_azimuth, pan_of. cbn [exact v_lt v_of_Z v_sub]. rewrite (R_lt_false az (-180)), (R_lt_false 180 az) by lra. unfold R_lt.
  destruct (Rlt_dec az (-90)); [split; [field|lra]|]. destruct (Rlt_dec 90 az); split; try field; lra.
Qed.
Lemma apply_mono_ok q x : -180 <= sp_azimuth q <= 180 -> apply_mono exact q x x = scaled (sp_dist q * sp_cone q) (panned (pan_of (sp_azimuth q)) [x]).
Proof.
  intros H. destruct (fold_pan _ H) as [E _]. unfold apply_mono, quarter_turn. rewrite E. set (p := pan_of (sp_azimuth q)). unfold panned, scaled. cbn [fst snd exact v_mul v_div v_add v_cos v_sin v_of_Z v_PI].
  replace ((90 * p + 90) / 180 * PI / 2) with ((p + 1) / 2 * (PI / 2)) by field. f_equal; ring.
Qed.
Lemma apply_stereo_ok q l r : -180 <= sp_azimuth q <= 180 -> apply_stereo exact q l r = scaled (sp_dist q * sp_cone q) (panned (pan_of (sp_azimuth q)) [l; r]).
Proof.
  intros H. destruct (fold_pan _ H) as [E _]. unfold apply_stereo, quarter_turn. rewrite E. set (p := pan_of (sp_azimuth q)). unfold panned, scaled. cbn [fst snd exact v_mul v_div v_add v_cos v_sin v_of_Z v_PI v_le].
  unfold R_le. destruct (Rle_dec (90 * p) 0) as [L|L], (Rle_dec p 0) as [L'|L']; try lra; cbn [fst snd].
  - replace ((90 * p + 90) / 90 * PI / 2) with ((p + 1) * (PI / 2)) by field. f_equal; ring.
  - replace (90 * p / 90 * PI / 2) with (p * (PI / 2)) by field. f_equal; ring.
Qed.
Lemma scaled_zero k : scaled k (0, 0) = (0, 0).
Proof. unfold scaled. cbn [fst snd]. f_equal; ring. Qed.

(** the place of source and listener at frame [t] *)
Lemma at_frame_ok l t : l <> [] -> at_frame l t = Ok (value_at l t).
Proof.
  intros H. unfold at_frame, index, value_at. rewrite (nth_error_nth' l 0); [reflexivity|]. apply Nat.mod_upper_bound. destruct l; [congruence|discriminate].
Qed.
Lemma vec_at_ok (l : lists (V := R)) t : (let '(x, y, z) := l in x <> [] /\ y <> [] /\ z <> []) -> vec_at l t = Ok (point_at l t).
Proof. destruct l as [[x y] z]. intros (H1 & H2 & H3). unfold vec_at, point_at. rewrite (at_frame_ok x t H1), (at_frame_ok y t H2), (at_frame_ok z t H3). reflexivity. Qed.
Definition dist_at (p : settings) (l : positions) (t : nat) : R := attenuation p (norm (minus (point_at (l_source l) t) (point_at (l_listener l) t))).
Definition cone_at (p : settings) (l : positions) (t : nat) : R := cone_gain exact p (point_at (l_source l) t) (point_at (l_orientation l) t) (point_at (l_listener l) t).
Definition azimuth_at (l : positions) (t : nat) : R := fst (azimuth_and_elevation exact (point_at (l_source l) t) (point_at (l_listener l) t) (point_at (l_forward l) t) (point_at (l_up l) t)).
Lemma spatial_ok p l t : accepted p -> given l -> exists el, spatial_at exact p l t = Ok (mk_spatial (dist_at p l t) (cone_at p l t) (azimuth_at l t) el).
Proof.
  intros Ha (G1 & G2 & G3 & G4 & G5). unfold spatial_at. rewrite !vec_at_ok by assumption. cbn [bind]. unfold dist_gain. rewrite gain_ok by exact Ha. cbn [bind].
  unfold distance, vec_len, vec_square_len. rewrite exact_sub, exact_dot. 
  exists (snd (azimuth_and_elevation exact (point_at (l_source l) t) (point_at (l_listener l) t) (point_at (l_forward l) t) (point_at (l_up l) t))).
  unfold azimuth_at, dist_at, cone_at. destruct (azimuth_and_elevation exact _ _ _ _). reflexivity.
Qed.
Lemma azimuth_range source listener forward up : -180 <= fst (azimuth_and_elevation exact source listener forward up) <= 180.
Proof.
  destruct (Rle_dec (dot (minus source listener) (minus source listener)) tiny) as [L|L]; [rewrite azimuth_same by (left; exact L); cbn; lra|].
  destruct (Req_EM_T (dot (cross forward up) (cross forward up)) 0) as [E|E]; [rewrite azimuth_same by (right; exact E); cbn; lra|].
  destruct (azimuth_ok source listener forward up ltac:(lra) E) as (az & el & -> & H & _). exact H.
Qed.
Lemma elevation_range source listener forward up : -90 <= snd (azimuth_and_elevation exact source listener forward up) <= 90.
Proof.
  destruct (Rle_dec (dot (minus source listener) (minus source listener)) tiny) as [L|L]; [rewrite azimuth_same by (left; exact L); cbn; lra|].
  destruct (Req_EM_T (dot (cross forward up) (cross forward up)) 0) as [E|E]; [rewrite azimuth_same by (right; exact E); cbn; lra|].
  destruct (azimuth_ok source listener forward up ltac:(lra) E) as (az & el & -> & _ & H & _). exact H.
Qed.

(** which frame's parameters are used *)
Definition used (l : positions (V := R)) (t : nat) : nat := if single_valued l then 0%nat else t.
Definition fallback : spatial (V := R) := mk_spatial 0 0 0 0.
Lemma frame_params_ok p l n : accepted p -> given l -> exists ps, frame_params exact p l n = Ok ps /\ length ps = n /\
  forall t, (t < n)%nat -> exists el, nth t ps fallback = mk_spatial (dist_at p l (used l t)) (cone_at p l (used l t)) (azimuth_at l (used l t)) el.
Proof.
  intros Ha Hg. unfold frame_params, used. destruct (single_valued l).
  - destruct (spatial_ok p l 0 Ha Hg) as [el E]. rewrite E. cbn [bind]. eexists. split; [reflexivity|]. split; [apply repeat_length|].
    intros t Ht. exists el. apply nth_repeat_lt. exact Ht.
  - assert (G : forall m k, exists ps, map_res (spatial_at exact p l) (seq k m) = Ok ps /\ length ps = m /\ forall t, (t < m)%nat -> exists el, nth t ps fallback = mk_spatial (dist_at p l (k + t)) (cone_at p l (k + t)) (azimuth_at l (k + t)) el).
    { induction m as [|m IH]; intros k; [exists []; split; [reflexivity|]; split; [reflexivity|]; intros; lia|].
      destruct (spatial_ok p l k Ha Hg) as [el E]. destruct (IH (S k)) as (ps & E2 & L & P). cbn [seq map_res]. rewrite E. cbn [bind]. rewrite E2. cbn [bind]. eexists. split; [reflexivity|]. split; [cbn; lia|].
      intros [|t] Ht; [exists el; rewrite Nat.add_0_r; reflexivity|]. cbn [nth]. rewrite Nat.add_succ_r. apply (P t). lia. }
    destruct (G n 0%nat) as (ps & E & L & P). exists ps. split; [exact E|]. split; [exact L|]. exact P.
Qed.

Section Node.
Context {H : Type}.
Variable hp : H -> list R -> R -> vec (V := R) -> H * list (R * R).
Variable hl : H -> nat.
Lemma equal_power_ok size p s input output l : (0 < size)%nat -> accepted p -> given l -> sized size input -> (length input <= 2)%nat -> sized size output ->
  exists out, equal_power exact size p s input output l = Ok out /\ length out = 2%nat /\
    forall t, (t < size)%nat -> (sample 0 out 0 t, sample 0 out 1 t) = scaled (dist_at p l (used l t) * cone_at p l (used l t)) (panned (pan_of (azimuth_at l (used l t))) (frame_of input t)).
Proof.
  intros Hs Ha Hg [Ni Fi] Li So. unfold equal_power.
  assert (Az : forall t, -180 <= azimuth_at l t <= 180) by (intros; apply azimuth_range).
  destruct input as [|c [|d [|e input]]]; [congruence| | |cbn in Li; lia]; inversion Fi as [|? ? F1 F2]; subst.
  - destruct c as [cn cv]. cbn [mix length Nat.eqb mix_inner Nat.ltb Nat.leb andb negb orb max_channels from_option bind stereo_mut c_val] in *. 
    destruct (frame_params_ok p l (length cv) Ha Hg) as (ps & E & L & P). rewrite E. cbn [bind]. eexists. split; [reflexivity|]. split; [reflexivity|].
    intros t Ht. unfold sample, new_pair. cbn [nth c_val]. rewrite (write_pairs_nth _ fallback) by lia. destruct (P t Ht) as [el Ep]. rewrite Ep.
    rewrite apply_mono_ok by apply Az. reflexivity.
  - inversion F2 as [|? ? F3 _]; subst. destruct (set_two _ output So) as (a & b & E & La & Lb). rewrite E. cbn [from_option bind stereo_mut].
    destruct (frame_params_ok p l (length (c_val a)) Ha Hg) as (ps & E2 & L & P). rewrite E2. cbn [bind]. eexists. split; [reflexivity|]. split; [reflexivity|].
    intros t Ht. unfold sample, new_pair. cbn [nth c_val]. rewrite (write_pairs_nth _ fallback) by lia. destruct (P t) as [el Ep]; [lia|]. rewrite Ep.
    rewrite apply_stereo_ok by apply Az. reflexivity.
Qed.
Lemma panner_ok size (n : panner (H := H)) s input output l : n_hrtf n = None -> (0 < size)%nat -> accepted (n_settings n) -> given l -> sized size input -> (length input <= 2)%nat -> silent_zero (sops_of exact) size input -> sized size output ->
  exists out, panner_quantum exact size hp hl n s input output l = Ok (n, out, false) /\ length out = (if is_silent input then 1 else 2)%nat /\
    forall t, (t < size)%nat -> (sample 0 out 0 t, sample 0 out 1 t) = scaled (dist_at (n_settings n) l (used l t) * cone_at (n_settings n) l (used l t)) (panned (pan_of (azimuth_at l (used l t))) (frame_of input t)).
Proof.
  intros Hn Hs Ha Hg Si Li Zi So. unfold panner_quantum. rewrite Hn. destruct (is_silent input) eqn:S; cbn [andb negb].
  - destruct output as [|o os]; [destruct So; congruence|]. cbn [make_silent from_option bind]. eexists. split; [reflexivity|]. split; [reflexivity|].
    intros t Ht. rewrite (silent_frame size) by assumption. rewrite panned_zero, scaled_zero by exact Li. unfold sample. cbn [nth c_val silence_chan]. change (s_zero (sops_of exact)) with 0. rewrite nth_repeat. destruct t; reflexivity.
  - destruct (equal_power_ok size (n_settings n) s input output l Hs Ha Hg Si Li So) as (out & E & L & P). rewrite E. cbn [bind]. exists out. split; [|split; assumption]. destruct n; cbn in *; subst; reflexivity.
Qed.
End Node.
Lemma constant_used l t : given l -> constant l -> forall t', point_at (l_source l) t = point_at (l_source l) t' /\ point_at (l_orientation l) t = point_at (l_orientation l) t' /\ point_at (l_listener l) t = point_at (l_listener l) t' /\ point_at (l_forward l) t = point_at (l_forward l) t' /\ point_at (l_up l) t = point_at (l_up l) t'.
Proof.
  intros _ (C1 & C2 & C3 & C4 & C5) t'.
  assert (G : forall v : lists (V := R), single v = true -> point_at v t = point_at v t').
  { intros [[x y] z] S. unfold single in S. apply andb_prop in S. destruct S as [S S3]. apply andb_prop in S. destruct S as [S1 S2]. apply Nat.eqb_eq in S1, S2, S3. unfold point_at, value_at. rewrite S1, S2, S3, !Nat.mod_1_r. reflexivity. }
  repeat split; apply G; assumption.
Qed.
(** the tail of the impulse responses *)
Section Tail.
Context {T V H : Type}.
Variable A : arith T V.
Variable size : nat.
Variable hp : H -> list V -> V -> vec (V := V) -> H * list (V * V).
Variable hl : H -> nat.
Hypothesis size_pos : (0 < size)%nat.
Hypothesis same_length : forall h x g d, hl (fst (hp h x g d)) = hl h.
Lemma hrtf_length p s h input l h' out : hrtf A size hp p s h input l = Ok (h', out) -> hl h' = hl h.
Proof.
  unfold hrtf. destruct (spatial_at A p l 0) as [q| |]; cbn [bind]; try discriminate.
  match goal with |- context [bind ?x _] => destruct x as [[[s' o] c]| |] end; cbn [bind]; try discriminate.
  destruct (index o 0) as [ch| |]; cbn [bind]; try discriminate.
  pose proof (same_length h (c_val ch) (v_mul A (sp_cone q) (sp_dist q)) (projected_source A (sp_azimuth q) (sp_elevation q))) as L.
  destruct (hp h _ _ _) as [h2 pairs]. cbn [fst] in L.
  destruct (from_option (set_number_of_channels o 2)) as [o2| |]; cbn [bind]; try discriminate.
  destruct (stereo_mut o2) as [[a b]| |]; cbn [bind]; try discriminate. intros E. injection E as <- _. exact L.
Qed.
(** every quantum goes through the impulse responses *)
Fixpoint hrtf_all (p : settings) (h : H) (calls : list (nat * list (chan V) * list (chan V) * positions)) : res (H * list (list (chan V))) :=
  match calls with
  | [] => Ok (h, [])
  | (s, input, _, l) :: calls' => do (h, o) <- hrtf A size hp p s h input l; do (h, os) <- hrtf_all p h calls'; Ok (h, o :: os)
  end.
Lemma tail_run p : forall calls h n, 
  let silences := length (filter (fun c => is_silent (snd (fst (fst c)))) calls) in
  (n + (silences - 1) * size < hl h \/ silences = 0)%nat ->
  panner_run A size hp hl (mk_panner p (Some h) n) calls = do (h', os) <- hrtf_all p h calls; Ok (mk_panner p (Some h') (n + silences * size), map (fun o => (o, true)) os).
Proof.
  induction calls as [|[[[s input] output] l] calls IH]; intros h n silences Hn.
  - cbn. subst silences. cbn. rewrite Nat.add_0_r. reflexivity.
  - subst silences. cbn [filter fst snd] in Hn |- *. cbn [panner_run hrtf_all]. unfold panner_quantum. cbn [n_hrtf n_tail n_settings].
    destruct (is_silent input) eqn:S.
    + cbn [length] in Hn. rewrite (proj2 (Nat.ltb_lt n (hl h))) by (destruct Hn as [Hn|Hn]; [lia|discriminate]). cbn [andb negb].
      destruct (hrtf A size hp p s h input l) as [[h' o]| |] eqn:E; cbn [bind]; try reflexivity.
      rewrite IH. 2: { pose proof (hrtf_length _ _ _ _ _ _ _ E) as L. destruct Hn as [Hn|Hn]; [|discriminate]. cbn [length Nat.sub] in Hn. rewrite Nat.sub_0_r in Hn. rewrite L.
        destruct (length (filter _ calls)) as [|m]; [right; reflexivity|left; cbn [Nat.sub]; rewrite Nat.sub_0_r; lia]. }
      destruct (hrtf_all p h' calls) as [[h2 os]| |]; cbn [bind]; try reflexivity. cbn [length map]. do 3 f_equal. lia.
    + cbn [andb]. destruct (hrtf A size hp p s h input l) as [[h' o]| |] eqn:E; cbn [bind]; try reflexivity.
      rewrite IH. 2: { rewrite (hrtf_length _ _ _ _ _ _ _ E). exact Hn. }
      destruct (hrtf_all p h' calls) as [[h2 os]| |]; reflexivity.
Qed.
End Tail.
