(** The panners on quanta of floating point numbers. *)
From Coq Require Import List Arith Bool ZArith Reals Lra Lia.
From Flocq Require Import Core BinarySingleNaN.
From Verif Require Import Common_Model Float_Model Arith_Model Arith_Real Quantum_Model Route_Spec Pan_Model Pan_Spec Pan_Proofs Pan_NodeProofs Pan_IeeeProofs Pan_FloatSpec Pan_FloatProofs.
Import ListNotations.
Local Open Scope R_scope.
Notation zero := (f32_of_Z 0).

Lemma write_nth {P V} (f : P -> V -> V -> V * V) (dp : P) (d : V) : forall ps ls rs a b t, (t < length ps)%nat -> length ls = length ps -> length rs = length ps -> length a = length ps -> length b = length ps ->
  (nth t (fst (write_pairs f ps ls rs a b)) d, nth t (snd (write_pairs f ps ls rs a b)) d) = f (nth t ps dp) (nth t a d) (nth t b d).
Proof.
  induction ps as [|p ps IH]; intros ls rs a b t Ht Ll Lr La Lb; [cbn in Ht; lia|].
  destruct ls, rs, a as [|x a], b as [|y b]; try discriminate. cbn [write_pairs]. destruct (f p x y) as [u1 u2] eqn:E.
  destruct (write_pairs f ps ls rs a b) as [us1 us2] eqn:W.
  destruct t as [|t]; cbn [nth fst snd]; [symmetry; exact E|].
  specialize (IH ls rs a b t). rewrite W in IH. cbn [fst snd] in IH. apply IH; cbn in *; lia.
Qed.
Lemma two_channels {V} size (output : list (chan V)) : output <> [] -> Forall (fun c => length (c_val c) = size) output -> exists a b, set_number_of_channels output 2 = Some [a; b] /\ length (c_val a) = size /\ length (c_val b) = size.
Proof.
  intros N F. destruct output as [|a [|b o]]; [congruence| |]; inversion F as [|? ? F1 F2]; subst.
  - exists a, a. repeat split.
  - inversion F2 as [|? ? F3 _]; subst. exists a, b. split; [|split; [reflexivity|assumption]]. unfold set_number_of_channels. cbn [Nat.ltb Nat.leb andb max_channels]. f_equal.
Qed.
Section Node.
Variable M : libm.
Variable eps : R.
Hypothesis acc : accurate M eps.
Variable k : Z.
Hypothesis k_range : (-125 <= k <= 125)%Z.
Variable size : nat.
Notation A := (ieee M).
Notation near := (is_near (bpow radix2 k * (eps + / 524288))).
Lemma sinc : forall x : f32, is_finite x = true -> 0 <= B2R x <= 2 -> is_finite (m32_sin M x) = true /\ Rabs (B2R (m32_sin M x) - sin (B2R x)) <= eps.
Proof. intros x F H. apply acc; assumption. Qed.
Lemma cosc : forall x : f32, is_finite x = true -> 0 <= B2R x <= 2 -> is_finite (m32_cos M x) = true /\ Rabs (B2R (m32_cos M x) - cos (B2R x)) <= eps.
Proof. intros x F H. apply acc; assumption. Qed.
Lemma frame_values (q : list (chan f32)) t : frame_of (values q) t = map (fun c => B2R (nth t (c_val c) zero)) q.
Proof.
  unfold frame_of, values. rewrite map_map. apply map_ext. intros c. cbn [c_val]. destruct zero32v as [E _]. rewrite <- E at 1. apply map_nth.
Qed.
Lemma bounded_nth (c : chan f32) t : (t < size)%nat -> length (c_val c) = size /\ Forall (fun x => is_finite x = true /\ Rabs (B2R x) <= bpow radix2 k) (c_val c) -> limited k (nth t (c_val c) zero).
Proof. intros Ht [L F]. rewrite Forall_forall in F. apply F. apply nth_In. lia. Qed.
Lemma zero_near : near zero 0.
Proof. destruct zero32v as [E F]. split; [exact F|]. rewrite E, Rminus_0_r, Rabs_R0. destruct acc as [H _]. pose proof (bpow_gt_0 radix2 k). nra. Qed.
Lemma near_pair (o : f32 * f32) (u v : f32) (e : R * R) : (u, v) = o -> near (fst o) (fst e) /\ near (snd o) (snd e) -> near u (fst e) /\ near v (snd e).
Proof. intros <- H. exact H. Qed.
Lemma silent_zeros (q : list (chan f32)) t : (t < size)%nat -> silent_zero (sops_of A) size q -> is_silent q = true -> frame_of (values q) t = repeat 0 (length q).
Proof.
  intros Ht Z S. rewrite frame_values. unfold is_silent in S. apply negb_true_iff in S. induction q as [|c q IH]; [reflexivity|].
  cbn [existsb] in S. apply orb_false_iff in S. destruct S as [S1 S2]. inversion Z as [|? ? Z1 Z2]; subst. cbn [map length repeat]. rewrite IH by assumption. f_equal.
  apply negb_false_iff in S1. apply Nat.eqb_eq in S1. rewrite (Z1 S1). rewrite nth_repeat_lt by exact Ht. apply zero32v.
Qed.
Lemma silence_sample ch t c : (t < size)%nat -> sample zero (silence_chan (sops_of A) size :: ch) 0 t = zero /\ (ch = [] -> sample zero [silence_chan (sops_of A) size] (S c) t = zero).
Proof.
  intros Ht. unfold sample. cbn [nth c_val silence_chan]. split; [apply nth_repeat|]. intros _. destruct c; destruct t; reflexivity.
Qed.

Lemma stereo_panner_near s input output pan : (0 < size)%nat -> bounded k size input -> (length input <= 2)%nat -> silent_zero (sops_of A) size input ->
  output <> [] -> Forall (fun c => length (c_val c) = size) output -> length pan = 1%nat \/ length pan = size -> Forall (fun p => is_finite p = true /\ -1 <= B2R p <= 1) pan ->
  exists out, stereo_panner A size s input output pan = Ok out /\ length out = (if is_silent input then 1 else 2)%nat /\
    forall t, (t < size)%nat -> let e := panned (value_at (map B2R pan) t) (frame_of (values input) t) in
      near (sample zero out 0 t) (fst e) /\ near (sample zero out 1 t) (snd e).
Proof.
  intros Hs [Ni Fi] Li Zi No Fo Lp Rp. unfold stereo_panner. destruct (is_silent input) eqn:S.
  - destruct output as [|o os]; [congruence|]. eexists. split; [reflexivity|]. split; [reflexivity|]. intros t Ht.
    rewrite silent_zeros by assumption. rewrite panned_zero by exact Li. cbn [fst snd]. destruct (silence_sample [] t 0 Ht) as [E0 E1]. rewrite E0, (E1 eq_refl). split; apply zero_near.
  - destruct (two_channels size output No Fo) as (a & b & E & La & Lb). rewrite E. cbn [from_option bind stereo_mut].
    set (pans := match pan with [p] => repeat p (length (c_val a)) | _ => pan end).
    assert (Lps : length pans = size).
    { unfold pans. destruct pan as [|p [|p' pan]]; cbn [length] in *; [lia|rewrite repeat_length; exact La|lia]. }
    assert (Pv : forall t, (t < size)%nat -> (is_finite (nth t pans zero) = true /\ -1 <= B2R (nth t pans zero) <= 1) /\ B2R (nth t pans zero) = value_at (map B2R pan) t).
    { intros t Ht. split.
      - assert (Fp : Forall (fun p => is_finite p = true /\ -1 <= B2R p <= 1) pans) by (unfold pans; destruct pan as [|p [|p' pan]]; try assumption; apply Forall_forall; intros x Hx; apply repeat_spec in Hx; subst x; inversion Rp; assumption).
        rewrite Forall_forall in Fp. apply Fp. apply nth_In. lia.
      - unfold pans, value_at. rewrite map_length. destruct zero32v as [Ez _]. destruct pan as [|p [|p' pan]].
        + cbn in Lp. lia.
        + cbn [length]. rewrite Nat.mod_1_r. rewrite nth_repeat_lt by lia. reflexivity.
        + rewrite Nat.mod_small by (cbn [length] in *; lia). rewrite <- Ez. symmetry. apply map_nth. }
    destruct acc as [He _].
    destruct input as [|c [|d [|e input]]]; [congruence| | |cbn in Li; lia]; apply Forall_cons_iff in Fi; destruct Fi as [F1 F2].
    + eexists. split; [reflexivity|]. split; [reflexivity|]. intros t Ht. destruct (Pv t Ht) as [[Fp Rpt] Ep]. rewrite frame_values. cbn [map].
      pose proof (write_nth (stereo_pan_mono A) zero zero pans (c_val a) (c_val b) (c_val c) (c_val c) t) as W. 
      unfold sample, new_pair. cbn [nth c_val]. destruct F1 as [L1 F1]. specialize (W (eq_ind_r (fun n => (t < n)%nat) Ht Lps) (eq_trans La (eq_sym Lps)) (eq_trans Lb (eq_sym Lps)) (eq_trans L1 (eq_sym Lps)) (eq_trans L1 (eq_sym Lps))).
      apply (near_pair _ _ _ _ W). rewrite <- Ep.
      apply (mono_near M eps sinc He k k_range _ _ _ Fp Rpt). apply bounded_nth; [exact Ht|split; assumption].
    + apply Forall_cons_iff in F2; destruct F2 as [F3 _]. eexists. split; [reflexivity|]. split; [reflexivity|]. intros t Ht. destruct (Pv t Ht) as [[Fp Rpt] Ep]. rewrite frame_values. cbn [map].
      pose proof (write_nth (stereo_pan_stereo A) zero zero pans (c_val a) (c_val b) (c_val c) (c_val d) t) as W. 
      unfold sample, new_pair. cbn [nth c_val]. destruct F1 as [L1 F1]. destruct F3 as [L3 F3]. specialize (W (eq_ind_r (fun n => (t < n)%nat) Ht Lps) (eq_trans La (eq_sym Lps)) (eq_trans Lb (eq_sym Lps)) (eq_trans L1 (eq_sym Lps)) (eq_trans L3 (eq_sym Lps))).
      apply (near_pair _ _ _ _ W). rewrite <- Ep.
      apply (stereo_near M eps sinc He k k_range _ _ _ Fp Rpt); apply bounded_nth; try exact Ht; split; assumption.
Qed.

Lemma map_res_all {X Y} (f : X -> res Y) (g : X -> Y) l : (forall x, In x l -> f x = Ok (g x)) -> map_res f l = Ok (map g l).
Proof. induction l as [|x l IH]; intros H; [reflexivity|]. cbn [map_res]. rewrite (H x) by (left; reflexivity). cbn [bind]. rewrite IH by (intros y Hy; apply H; right; exact Hy). reflexivity. Qed.
Definition nowhere : spatial (V := f32) := mk_spatial zero zero zero zero.
Lemma params_near p l place : (0 < size)%nat -> (forall t, (t < size)%nat -> spatial_at A p l (if single_valued l then 0%nat else t) = Ok (place t)) ->
  exists ps, frame_params A p l size = Ok ps /\ length ps = size /\ forall t, (t < size)%nat -> nth t ps nowhere = place t.
Proof.
  intros Hs Hp. unfold frame_params. destruct (single_valued l).
  - rewrite (Hp 0%nat Hs). cbn [bind]. eexists. split; [reflexivity|]. split; [apply repeat_length|]. intros t Ht. rewrite nth_repeat_lt by exact Ht. pose proof (Hp t Ht) as E. rewrite (Hp 0%nat Hs) in E. congruence.
  - rewrite (map_res_all _ place) by (intros t Ht; apply Hp; apply in_seq in Ht; lia). eexists. split; [reflexivity|]. split; [rewrite map_length; apply seq_length|].
    intros t Ht. rewrite (nth_indep _ _ (place 0%nat)) by (rewrite map_length, seq_length; exact Ht). rewrite map_nth, seq_nth by exact Ht. reflexivity.
Qed.
Lemma located_in_place q : in_place q -> located q. Proof. intros H. exact H. Qed.
Lemma equal_power_near p s input output l place : (0 < size)%nat -> bounded k size input -> (length input <= 2)%nat -> output <> [] -> Forall (fun c => length (c_val c) = size) output ->
  (forall t, (t < size)%nat -> spatial_at A p l (if single_valued l then 0%nat else t) = Ok (place t) /\ in_place (place t)) ->
  exists out, equal_power A size p s input output l = Ok out /\ length out = 2%nat /\
    forall t, (t < size)%nat -> let e := scaled (B2R (sp_dist (place t)) * B2R (sp_cone (place t))) (panned (pan_of (B2R (sp_azimuth (place t)))) (frame_of (values input) t)) in
      near (sample zero out 0 t) (fst e) /\ near (sample zero out 1 t) (snd e).
Proof.
  intros Hs [Ni Fi] Li No Fo Hp. unfold equal_power. destruct (params_near p l place Hs (fun t Ht => proj1 (Hp t Ht))) as (ps & Eps & Lps & Nps). destruct acc as [He _].
  destruct input as [|c [|d [|e input]]]; [congruence| | |cbn in Li; lia]; apply Forall_cons_iff in Fi; destruct Fi as [F1 F2].
  - destruct c as [cn cv]. cbn [mix length Nat.eqb mix_inner Nat.ltb Nat.leb andb negb orb max_channels from_option bind stereo_mut c_val] in *. 
    pose proof (proj1 F1) as L1. match goal with |- context [frame_params A p l ?n] => replace n with size by (symmetry; exact L1) end. rewrite Eps. cbn [bind]. eexists. split; [reflexivity|]. split; [reflexivity|].
    intros t Ht. rewrite frame_values. cbn [map c_val]. 
    pose proof (write_nth (apply_mono A) nowhere zero ps cv cv cv cv t (eq_ind_r (fun n => (t < n)%nat) Ht Lps) (eq_trans L1 (eq_sym Lps)) (eq_trans L1 (eq_sym Lps)) (eq_trans L1 (eq_sym Lps)) (eq_trans L1 (eq_sym Lps))) as W.
    unfold sample, new_pair. cbn [nth c_val]. apply (near_pair _ _ _ _ W). rewrite (Nps t Ht).
    apply (apply_mono_near M eps sinc He k k_range cosc _ _ (located_in_place _ (proj2 (Hp t Ht)))). apply (bounded_nth (mk_chan cn cv) t Ht F1).
  - apply Forall_cons_iff in F2; destruct F2 as [F3 _]. destruct (two_channels size output No Fo) as (a & b & E & La & Lb). rewrite E. cbn [from_option bind stereo_mut].
    match goal with |- context [frame_params A p l ?n] => replace n with size by (symmetry; exact La) end. rewrite Eps. cbn [bind]. eexists. split; [reflexivity|]. split; [reflexivity|].
    intros t Ht. rewrite frame_values. cbn [map].
    pose proof (write_nth (apply_stereo A) nowhere zero ps (c_val a) (c_val b) (c_val c) (c_val d) t (eq_ind_r (fun n => (t < n)%nat) Ht Lps) (eq_trans La (eq_sym Lps)) (eq_trans Lb (eq_sym Lps)) (eq_trans (proj1 F1) (eq_sym Lps)) (eq_trans (proj1 F3) (eq_sym Lps))) as W.
    unfold sample, new_pair. cbn [nth c_val]. apply (near_pair _ _ _ _ W). rewrite (Nps t Ht).
    apply (apply_stereo_near M eps sinc He k k_range cosc _ _ _ (located_in_place _ (proj2 (Hp t Ht)))); apply bounded_nth; assumption.
Qed.
Lemma panner_near {H} hp hl (n : panner (T := f64) (H := H)) s input output l place : n_hrtf n = None -> (0 < size)%nat -> bounded k size input -> (length input <= 2)%nat -> silent_zero (sops_of A) size input ->
  output <> [] -> Forall (fun c => length (c_val c) = size) output ->
  (forall t, (t < size)%nat -> spatial_at A (n_settings n) l (if single_valued l then 0%nat else t) = Ok (place t) /\ in_place (place t)) ->
  exists out, panner_quantum A size hp hl n s input output l = Ok (n, out, false) /\ length out = (if is_silent input then 1 else 2)%nat /\
    forall t, (t < size)%nat -> let e := scaled (B2R (sp_dist (place t)) * B2R (sp_cone (place t))) (panned (pan_of (B2R (sp_azimuth (place t)))) (frame_of (values input) t)) in
      near (sample zero out 0 t) (fst e) /\ near (sample zero out 1 t) (snd e).
Proof.
  intros Hn Hs Bi Li Zi No Fo Hp. unfold panner_quantum. rewrite Hn. destruct (is_silent input) eqn:S; cbn [andb negb].
  - destruct output as [|o os]; [congruence|]. cbn [make_silent from_option bind]. eexists. split; [reflexivity|]. split; [reflexivity|].
    intros t Ht. rewrite silent_zeros by assumption. rewrite panned_zero, scaled_zero by exact Li. cbn [fst snd]. destruct (silence_sample [] t 0 Ht) as [E0 E1]. rewrite E0, (E1 eq_refl). split; apply zero_near.
  - destruct (equal_power_near (n_settings n) s input output l place Hs Bi Li No Fo Hp) as (out & E & L & P). rewrite E. cbn [bind]. exists out. split; [|split; assumption]. destruct n; cbn in *; subst; reflexivity.
Qed.
End Node.

(** the power of a sample that was panned nearly as it should *)
Lemma power_near amp d a x l r : 0 <= d <= 1 -> 0 <= amp -> Rabs x <= amp -> Rabs (l - x * cos a) <= amp * d -> Rabs (r - x * sin a) <= amp * d -> Rabs (l * l + r * r - x * x) <= 6 * d * (amp * amp).
Proof.
  intros D P X L R. pose proof (power a) as S. set (c := cos a) in *. set (s := sin a) in *.
  assert (Bc : -1 <= c <= 1) by apply COS_bound. assert (Bs : -1 <= s <= 1) by apply SIN_bound.
  set (u := l - x * c) in *. set (v := r - x * s) in *. replace (l * l + r * r - x * x) with (2 * (x * c) * u + 2 * (x * s) * v + (u * u + v * v)).
  2: { unfold u, v. replace (x * x) with (x * x * (c * c + s * s)) by (rewrite S; ring). ring. }
  assert (G : forall y, -1 <= y <= 1 -> Rabs (x * y) <= amp) by (intros y Hy; rewrite Rabs_mult; assert (Rabs y <= 1) by (apply Rabs_le; exact Hy); pose proof (Rabs_pos x); pose proof (Rabs_pos y); nra).
  pose proof (G c Bc) as Gc. pose proof (G s Bs) as Gs. set (p := x * c) in *. set (q := x * s) in *.
  apply Rabs_le_inv in Gc, Gs, L, R.
  assert (H1 : - (amp * (amp * d)) <= p * u <= amp * (amp * d)) by (split; nra). assert (H2 : - (amp * (amp * d)) <= q * v <= amp * (amp * d)) by (split; nra).
  assert (H3 : 0 <= u * u <= amp * d * (amp * d)) by nra. assert (H4 : 0 <= v * v <= amp * d * (amp * d)) by nra.
  assert (H5 : amp * d * (amp * d) <= amp * amp * d) by nra. apply Rabs_le. lra.
Qed.
