(** Equal power panning in floating point: theorems.

    C36 Panning preserves power and is symmetric; the ends and the middle are exact. *)
From Coq Require Import List Arith Bool ZArith Reals Lra Lia.
From Flocq Require Import Core BinarySingleNaN.
From Verif Require Import Common_Model Float_Model Float_BoundProofs Arith_Model Arith_Real Quantum_Model Route_Spec Pan_Model Pan_Spec Pan_IeeeProofs Pan_FloatSpec Pan_FloatProofs Pan_FloatNodeProofs.
Import ListNotations.
Local Open Scope R_scope.

(** The stereo panner in the arithmetic of the code: every sample is a number within [eps + 2^-19] of the amplitude
    from the panning law, where [eps] is the error of the library's sine and cosine. *)
Theorem C36_stereo_float : forall M eps, accurate M eps -> forall k size s input output pan, (-125 <= k <= 125)%Z -> (0 < size)%nat -> bounded k size input -> (length input <= 2)%nat ->
  silent_zero (sops_of (ieee M)) size input -> output <> [] -> Forall (fun c => length (c_val c) = size) output ->
  length pan = 1%nat \/ length pan = size -> Forall (fun p => is_finite p = true /\ -1 <= B2R p <= 1) pan ->
  exists out, stereo_panner (ieee M) size s input output pan = Ok out /\ length out = (if is_silent input then 1 else 2)%nat /\
    forall t, (t < size)%nat -> let e := panned (value_at (map B2R pan) t) (frame_of (values input) t) in let d := bpow radix2 k * (eps + / 524288) in
      is_near d (sample (f32_of_Z 0) out 0 t) (fst e) /\ is_near d (sample (f32_of_Z 0) out 1 t) (snd e).
Proof. intros M eps Ac k size s input output pan Hk. exact (stereo_panner_near M eps Ac k Hk size s input output pan). Qed.
Print Assumptions C36_stereo_float.

(** Mono input: the power of every frame is kept up to six times that share. *)
Theorem C36_power_float : forall M eps, accurate M eps -> forall k size s c output pan, (-125 <= k <= 125)%Z -> (0 < size)%nat -> bounded k size [c] ->
  silent_zero (sops_of (ieee M)) size [c] -> output <> [] -> Forall (fun c => length (c_val c) = size) output ->
  length pan = 1%nat \/ length pan = size -> Forall (fun p => is_finite p = true /\ -1 <= B2R p <= 1) pan ->
  exists out, stereo_panner (ieee M) size s [c] output pan = Ok out /\
    forall t, (t < size)%nat -> let x := B2R (nth t (c_val c) (f32_of_Z 0)) in let l := B2R (sample (f32_of_Z 0) out 0 t) in let r := B2R (sample (f32_of_Z 0) out 1 t) in
      Rabs (l * l + r * r - x * x) <= 6 * (eps + / 524288) * (bpow radix2 k * bpow radix2 k).
Proof.
  intros M eps Ac k size s c output pan Hk Hs Bi Zi No Fo Lp Rp. destruct (stereo_panner_near M eps Ac k Hk size s [c] output pan Hs Bi ltac:(cbn; lia) Zi No Fo Lp Rp) as (out & E & _ & N).
  exists out. split; [exact E|]. intros t Ht x l r. destruct (N t Ht) as [[_ Nl] [_ Nr]]. rewrite frame_values in Nl, Nr. cbn [map panned] in Nl, Nr. unfold panned in Nl, Nr. cbn [fst snd] in Nl, Nr.
  destruct Bi as [_ Bi]. apply Forall_cons_iff in Bi. destruct Bi as [Bc _]. destruct (bounded_nth k size c t Ht Bc) as [_ Bx]. destruct Ac as [He _].
  eapply (power_near (bpow radix2 k) (eps + / 524288) _ x l r); [lra|apply bpow_ge_0|exact Bx|exact Nl|exact Nr].
Qed.
Print Assumptions C36_power_float.

(** The panner without impulse responses, for the azimuth and gains it computes (their ranges: C37, C45). *)
Theorem C36_panner_float : forall M eps, accurate M eps -> forall k size H hp hl (n : panner (T := f64) (H := H)) s input output l place, (-125 <= k <= 125)%Z -> n_hrtf n = None -> (0 < size)%nat ->
  bounded k size input -> (length input <= 2)%nat -> silent_zero (sops_of (ieee M)) size input -> output <> [] -> Forall (fun c => length (c_val c) = size) output ->
  (forall t, (t < size)%nat -> spatial_at (ieee M) (n_settings n) l (if single_valued l then 0%nat else t) = Ok (place t) /\ in_place (place t)) ->
  exists out, panner_quantum (ieee M) size hp hl n s input output l = Ok (n, out, false) /\ length out = (if is_silent input then 1 else 2)%nat /\
    forall t, (t < size)%nat -> let q := place t in let e := scaled (B2R (sp_dist q) * B2R (sp_cone q)) (panned (pan_of (B2R (sp_azimuth q))) (frame_of (values input) t)) in let d := bpow radix2 k * (eps + / 524288) in
      is_near d (sample (f32_of_Z 0) out 0 t) (fst e) /\ is_near d (sample (f32_of_Z 0) out 1 t) (snd e).
Proof. intros M eps Ac k size H hp hl n s input output l place Hk. exact (panner_near M eps Ac k Hk size hp hl n s input output l place). Qed.
Print Assumptions C36_panner_float.

(** A library as accurate as required: values rounded down to multiples of 2^-24. *)
Definition rounded (y : R) : f32 := binary_normalize 24 128 f32_prec f32_emax mode_NE (Zfloor (y * 16777216)) (-24) false.
Lemma rounded_ok y : -1 <= y <= 1 -> is_finite (rounded y) = true /\ Rabs (B2R (rounded y) - y) <= / 16777216.
Proof.
  intros H. set (m := Zfloor (y * 16777216)). assert (Lm : IZR m <= y * 16777216 < IZR m + 1) by (split; [apply Zfloor_lb|apply Zfloor_ub]).
  assert (Hm : (- 16777216 <= m <= 16777216)%Z).
  { split; [apply le_IZR|apply le_IZR]; [|lra]. apply IZR_le. unfold m. apply Zfloor_lub. lra. }
  assert (V : F2R (Float radix2 m (-24)) = IZR m * / 16777216) by reflexivity.
  pose proof (binary_normalize_correct 24 128 f32_prec f32_emax mode_NE m (-24) false) as C. rewrite V in C. cbn [round_mode] in C.
  assert (G : generic_format radix2 (SpecFloat.fexp 24 128) (IZR m * / 16777216)).
  { destruct (Z.eq_dec (Z.abs m) 16777216) as [E|E].
    - assert (D : IZR m * / 16777216 = 1 \/ IZR m * / 16777216 = -1) by (assert (m = 16777216 \/ m = -16777216)%Z as [-> | ->] by lia; [left|right]; field).
      destruct D as [-> | ->]; [apply (format_int 24 128 f32_prec f32_emax 1)|apply (format_int 24 128 f32_prec f32_emax (-1))]; cbn; lia.
    - rewrite <- V. apply generic_format_F2R. intros N. unfold cexp. unfold SpecFloat.fexp, SpecFloat.emin. apply Z.max_lub; [|lia].
      assert (mag radix2 (F2R (Float radix2 m (-24))) <= 0)%Z; [|lia]. apply mag_le_bpow; [rewrite V; apply Rmult_integral_contrapositive; split; [apply IZR_neq; exact N|lra]|].
      rewrite V. change (bpow radix2 0) with 1. assert (Rabs (IZR m) < 16777216) by (rewrite <- abs_IZR; apply IZR_lt; lia). rewrite Rabs_mult, (Rabs_pos_eq (/ 16777216)) by lra. lra. }
  rewrite round_generic in C by (exact G || apply valid_rnd_N). 
  assert (Bd : -1 <= IZR m * / 16777216 <= 1) by (split; [assert (IZR (-16777216) <= IZR m) by (apply IZR_le; lia)|assert (IZR m <= IZR 16777216) by (apply IZR_le; lia)]; lra).
  rewrite Rlt_bool_true in C. 2: { apply Rle_lt_trans with 1; [apply Rabs_le; lra|]. change 1 with (bpow radix2 0). apply bpow_lt. lia. }
  destruct C as (C1 & C2 & _). fold (rounded y) in C1, C2. unfold rounded. fold m. split; [exact C2|]. unfold rounded in C1. fold m in C1. rewrite C1. apply Rabs_le. lra.
Qed.
Example C36_accurate_case : exists M, accurate M (/ 16777216).
Proof.
  exists (mk_libm (fun x => x) (fun x => x) (fun x => x) (fun x => x) (fun x _ => x) (fun x => x) (fun x _ => x) (fun x _ => x)
    (fun x => x) (fun x => x) (fun x => rounded (sin (B2R x))) (fun x => rounded (cos (B2R x))) (fun x => x) (fun x _ => x) (fun x => x) (fun x _ => x)).
  split; [lra|]. intros x F H. cbn [m32_sin m32_cos]. split; apply rounded_ok; [apply SIN_bound|apply COS_bound].
Qed.
(** inputs the theorems speak about *)
Example C36_bounded_case : bounded 0 2 [mk_chan 3 [f32_of_Z 1; f32_of_Z 0]; mk_chan 4 [f32_of_Z 0; f32_of_Z (-1)]] /\
  in_place (mk_spatial (f32_of_Z 1) (f32_of_Z 1) (f32_of_Z (-150)) (f32_of_Z 0)).
Proof.
  assert (G : forall n, (-1 <= n <= 1)%Z -> is_finite (f32_of_Z n) = true /\ Rabs (B2R (f32_of_Z n)) <= bpow radix2 0).
  { intros n Hn. destruct (int32 n ltac:(lia)) as [E F]. split; [exact F|]. rewrite E. change (bpow radix2 0) with 1. apply Rabs_le. split; [apply (IZR_le (-1))|apply (IZR_le _ 1)]; lia. }
  split.
  - split; [discriminate|]. repeat (apply Forall_cons; [split; [reflexivity|]; repeat (apply Forall_cons; [apply G; lia|]); apply Forall_nil|]). apply Forall_nil.
  - unfold in_place. cbn [sp_azimuth sp_dist sp_cone]. destruct (int32 1 ltac:(lia)) as [E1 F1]. destruct (int32 (-150) ltac:(lia)) as [E2 F2]. rewrite E1, E2. split; [split; [exact F2|lra]|]. split; split; (exact F1 || lra).
Qed.
