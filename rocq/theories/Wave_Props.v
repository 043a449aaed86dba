(** The periodic wave: theorems.

    C42 A normalised table has peak absolute value one unless it is identically zero, and normalisation keeps its shape.
    C57 Options are rejected exactly as documented. *)
From Coq Require Import List ZArith Bool Lia Reals Lra.
From Flocq Require Import Core BinarySingleNaN.
From Verif Require Import Float_Model Arith_Model Arith_Real Source_Props Wave_Model Wave_Spec Wave_Proofs Wave_IeeeProofs.
Import ListNotations.
Local Open Scope R_scope.

(** ** C42 *)

(** In exact arithmetic the table without normalisation is the Fourier series of the given coefficients, of which the
    first is ignored. *)
Theorem C42_table : forall (reals imags : list R) (size : nat), length reals = length imags -> (2 <= length reals)%nat -> (0 < size)%nat ->
  wave_new exact size (mk_options (Some reals) (Some imags) true) = Ok (map (fun i => series reals imags (2 * PI * INR i / INR size)) (seq 0 size)).
Proof.
  intros reals imags size L N S. unfold wave_new, coefficients. cbn [w_real w_imag w_disable negb]. unfold check. rewrite (proj2 (Nat.eqb_eq _ _) L), (proj2 (Nat.leb_le _ _) N). cbn [bind fst snd].
  rewrite (table_exact reals imags false size L S). reflexivity.
Qed.
Print Assumptions C42_table.
Example C42_table_met : wave_new exact 4 (mk_options (Some [5; 0]) (Some [5; 1]) true) = Ok (map (fun i => series [5; 0] [5; 1] (2 * PI * INR i / INR 4)) (seq 0 4)) /\ series [5; 0] [5; 1] (PI / 2) = 1.
Proof. split; [apply C42_table; cbn; lia|]. unfold series. cbn [tl partials INR]. rewrite !Rmult_1_l, sin_PI2, cos_PI2. lra. Qed.

(** The normalised table is a positive multiple of the one without, and its peak is one, unless the table is zero. *)
Theorem C42_normalized : forall (o : wave_options R) (size : nat) (t : list R),
  wave_new exact size (mk_options (w_real o) (w_imag o) true) = Ok t ->
  exists t', wave_new exact size (mk_options (w_real o) (w_imag o) false) = Ok t' /\
    ((all_zero t /\ t' = t) \/ exists c, 0 < c /\ scaled c t t' /\ peak_one t').
Proof.
  intros o size t. unfold wave_new, generate_wavetable. cbn [w_disable negb]. change (coefficients exact (mk_options (w_real o) (w_imag o) true)) with (coefficients exact o). change (coefficients exact (mk_options (w_real o) (w_imag o) false)) with (coefficients exact o).
  destruct (coefficients exact o) as [c| |]; try discriminate. cbn [bind]. destruct (map_res _ _) as [t0| |]; try discriminate. cbn [bind]. intros E. injection E as ->. exists (normalize exact t). split; [reflexivity|apply normalize_exact].
Qed.
Print Assumptions C42_normalized.
Example C42_normalized_met : exists t, wave_new exact 4 (mk_options (Some [0; 3]) None true) = Ok t /\ ~ all_zero t.
Proof.
  exists (map (fun i => series [0; 3] [0; 0] (2 * PI * INR i / INR 4)) (seq 0 4)). split.
  - unfold wave_new, coefficients. cbn [w_real w_imag w_disable negb length check Nat.leb repeat bind fst snd]. apply (table_exact [0; 3] [0; 0] false 4); cbn; lia.
  - intros Z. assert (H := Z (series [0; 3] [0; 0] (2 * PI * INR 0 / INR 4)) (or_introl eq_refl)). unfold series in H. cbn [tl partials INR] in H. replace (1 * (2 * PI * 0 / (1 + 1 + 1 + 1))) with 0 in H by (field; lra). rewrite cos_0, sin_0 in H. lra.
Qed.

(** In floating point arithmetic: for a table of finite samples whose peak is between 2^-126 and 2^126 the normalised
    samples never exceed one, one of them reaches it up to one unit in the last place, and every sample is within 2^-22
    of the sample divided by the peak.

    Missing: the peak is one only up to rounding, see [C42_peak_refuted], and smaller or infinite tables fail, see
    [C42_small_refuted], [C42_infinite_refuted]. *)
Theorem C42_float_partial : forall (M : libm) (l : list f32), Forall (fun x : f32 => is_finite x = true) l ->
  (exists x, In x l /\ bpow radix2 (-126) <= Rabs (B2R x)) -> (forall x, In x l -> Rabs (B2R x) <= bpow radix2 126) ->
  exists m, (exists x, In x l /\ m = Rabs (B2R x)) /\ (forall x, In x l -> Rabs (B2R x) <= m) /\
    (exists y, In y (normalize (ieee M) l) /\ 1 - bpow radix2 (-24) <= Rabs (B2R y)) /\
    Forall2 (fun x y : f32 => is_finite y = true /\ Rabs (B2R y) <= 1 /\ Rabs (B2R y - B2R x / m) <= bpow radix2 (-22)) l (normalize (ieee M) l).
Proof. exact normalize_ieee. Qed.
Print Assumptions C42_float_partial.
Definition f41 : f32 := f32_div (f32_of_Z 41) (f32_of_Z 64).
Example C42_float_partial_met : Forall (fun x : f32 => is_finite x = true) [f41; f32_of_Z (-2)] /\ (exists x, In x [f41; f32_of_Z (-2)] /\ bpow radix2 (-126) <= Rabs (B2R x)) /\ (forall x, In x [f41; f32_of_Z (-2)] -> Rabs (B2R x) <= bpow radix2 126).
Proof.
  split; [repeat constructor|]. assert (E1 : B2R f41 = 41 / 64). { unfold f41. replace (f32_div (f32_of_Z 41) (f32_of_Z 64)) with (@B754_finite 24 128 false 10747904 (-24) eq_refl : f32) by (apply B2SF_inj; vm_compute; reflexivity). unfold B2R, F2R. cbn. lra. }
  assert (E2 : B2R (f32_of_Z (-2)) = -2). { replace (f32_of_Z (-2)) with (@B754_finite 24 128 true 8388608 (-22) eq_refl : f32) by (apply B2SF_inj; vm_compute; reflexivity). unfold B2R, F2R. cbn. lra. }
  assert (P1 : bpow radix2 (-126) <= 1) by (apply (bpow_le radix2 (-126) 0); lia). assert (P2 : 2 <= bpow radix2 126) by (apply (bpow_le radix2 1 126); lia). split.
  - exists (f32_of_Z (-2)). split; [right; left; reflexivity|]. rewrite E2, Rabs_left; lra.
  - intros x [<-|[<-|[]]]; [rewrite E1, Rabs_pos_eq; lra|rewrite E2, Rabs_left; lra].
Qed.

(** FINDING: the peak is not one: 41/64 times the rounded inverse of 41/64 is one unit below. Dividing would be exact. *)
Theorem C42_peak_refuted : ~ (forall (M : libm) (l : list f32), Forall (fun x : f32 => is_finite x = true) l -> existsb (fun x => negb (f32_eq x (f32_of_Z 0))) l = true ->
  existsb (fun x => f32_eq (f32_abs x) (f32_of_Z 1)) (normalize (ieee M) l) = true).
Proof. intros H. specialize (H libm_one [f41] ltac:(repeat constructor) eq_refl). vm_compute in H. discriminate. Qed.
Print Assumptions C42_peak_refuted.
Example C42_peak_refuted_divide : f32_eq (f32_div f41 f41) (f32_of_Z 1) = true.
Proof. vm_compute. reflexivity. Qed.

(** FINDING: when the peak is below 2^-128 its inverse overflows: the table becomes infinite, and its zeros NaN. *)
Definition tiny32 : f32 := f32_div (f32_div (f32_of_Z 1) (f32_of_Z (2 ^ 65))) (f32_of_Z (2 ^ 65)).
Theorem C42_small_refuted : ~ (forall (M : libm) (l : list f32), Forall (fun x : f32 => is_finite x = true) l -> forallb (fun x => negb (is_nan x)) (normalize (ieee M) l) = true).
Proof. intros H. specialize (H libm_one [tiny32; f32_of_Z 0] ltac:(repeat constructor)). vm_compute in H. discriminate. Qed.
Print Assumptions C42_small_refuted.

(** FINDING: infinite samples, from coefficients that overflow, become NaN, and all others zero. *)
Definition inf32 : f32 := f32_div (f32_of_Z 1) (f32_of_Z 0).
Theorem C42_infinite_refuted : ~ (forall (M : libm) (l : list f32), forallb (fun x => negb (is_nan x)) l = true -> forallb (fun x => negb (is_nan x)) (normalize (ieee M) l) = true).
Proof. intros H. specialize (H libm_one [inf32; f32_of_Z 1] eq_refl). vm_compute in H. discriminate. Qed.
Print Assumptions C42_infinite_refuted.

(** ** C57 *)
Definition lengths {V} (o : wave_options V) : option nat * option nat := (option_map (@length V) (w_real o), option_map (@length V) (w_imag o)).
(** For any arithmetic: the length rules. Accepted options give a table of the full size.

    Missing: the bound of 8192 components, see [C57_too_many_refuted]. *)
Theorem C57_options_partial : forall T V (A : arith T V) (size : nat) (o : wave_options V),
  (rejected_lengths (fst (lengths o)) (snd (lengths o)) -> wave_new A size o = Panic) /\
  (~ rejected_lengths (fst (lengths o)) (snd (lengths o)) -> exists t, wave_new A size o = Ok t /\ length t = size).
Proof.
  intros T V A size o. unfold lengths, rejected_lengths. cbn [fst snd]. destruct o as [[r|] [i|] d]; cbn [w_real w_imag option_map].
  - split.
    + intros H. apply wave_new_panic. unfold coefficients. cbn [w_real w_imag]. unfold check. destruct (Nat.eqb_spec (length r) (length i)) as [E|E]; [|reflexivity]. cbn [bind]. destruct (Nat.leb_spec 2 (length r)); [|reflexivity]. exfalso.
      destruct H as [(n & H & L)|[(n & H & L)|(n & m & H1 & H2 & L)]]; [injection H as <-; lia|injection H as <-; lia|injection H1 as <-; injection H2 as <-; contradiction].
    + intros H. apply (wave_new_ok A size _ r i). unfold coefficients. cbn [w_real w_imag]. unfold check. destruct (Nat.eqb_spec (length r) (length i)) as [E|E]; [|exfalso; apply H; right; right; exists (length r), (length i); auto]. cbn [bind].
      destruct (Nat.leb_spec 2 (length r)); [reflexivity|]. exfalso. apply H. left. exists (length r). auto.
  - split.
    + intros H. apply wave_new_panic. unfold coefficients. cbn [w_real w_imag]. unfold check. destruct (Nat.leb_spec 2 (length r)); [|reflexivity]. exfalso.
      destruct H as [(n & H & L)|[(n & H & L)|(n & m & H1 & H2 & L)]]; [injection H as <-; lia|discriminate|discriminate].
    + intros H. apply (wave_new_ok A size _ r (repeat (v_zero A) (length r))). unfold coefficients. cbn [w_real w_imag]. unfold check. destruct (Nat.leb_spec 2 (length r)); [reflexivity|]. exfalso. apply H. left. exists (length r). auto.
  - split.
    + intros H. apply wave_new_panic. unfold coefficients. cbn [w_real w_imag]. unfold check. destruct (Nat.leb_spec 2 (length i)); [|reflexivity]. exfalso.
      destruct H as [(n & H & L)|[(n & H & L)|(n & m & H1 & H2 & L)]]; [discriminate|injection H as <-; lia|discriminate].
    + intros H. apply (wave_new_ok A size _ (repeat (v_zero A) (length i)) i). unfold coefficients. cbn [w_real w_imag]. unfold check. destruct (Nat.leb_spec 2 (length i)); [reflexivity|]. exfalso. apply H. right. left. exists (length i). auto.
  - split.
    + intros [(n & H & L)|[(n & H & L)|(n & m & H1 & H2 & L)]]; discriminate.
    + intros _. apply (wave_new_ok A size _ [v_zero A; v_zero A] [v_zero A; v_one A]). reflexivity.
Qed.
Print Assumptions C57_options_partial.
Example C57_options_partial_met : rejected_lengths (Some 1%nat) None /\ rejected_lengths (Some 3%nat) (Some 2%nat) /\ ~ rejected_lengths (Some 2%nat) (Some 2%nat) /\ ~ rejected_lengths None None.
Proof.
  split; [left; exists 1%nat; auto|]. split; [right; right; exists 3%nat, 2%nat; auto|]. split; intros [(n & H & L)|[(n & H & L)|(n & m & H1 & H2 & L)]]; try discriminate; [injection H as <-; lia|injection H as <-; lia|]. injection H1 as <-. injection H2 as <-. contradiction.
Qed.
(** Without coefficients the wave is one period of a sine. *)
Theorem C57_default : forall (size : nat), (0 < size)%nat -> wave_new exact size (mk_options None None true) = Ok (map (fun i => sin (2 * PI * INR i / INR size)) (seq 0 size)).
Proof.
  intros size S. unfold wave_new, coefficients. cbn [w_real w_imag w_disable negb bind fst snd]. change (v_zero exact) with 0. change (v_one exact) with 1. rewrite (table_exact [0; 0] [0; 1] false size eq_refl S). f_equal. apply map_ext. intros i. unfold series. cbn [tl partials INR]. rewrite Rmult_1_l. ring.
Qed.
Print Assumptions C57_default.
Example C57_default_met : wave_new exact 1 (mk_options None None true) = Ok [sin (2 * PI * INR 0 / INR 1)].
Proof. apply (C57_default 1). lia. Qed.
(** FINDING: documented to be rejected, but there is no check: more than 8192 components are accepted. *)
Theorem C57_too_many_refuted : ~ (forall T V (A : arith T V) (o : wave_options V), too_many (Z.to_nat 8192) (fst (lengths o)) (snd (lengths o)) -> wave_new A TABLE_LENGTH o = Panic).
Proof.
  intros H. set (o := mk_options (Some (repeat 0 (Z.to_nat 8193))) None true). assert (L : length (repeat 0 (Z.to_nat 8193)) = Z.to_nat 8193) by apply repeat_length.
  destruct (proj2 (C57_options_partial R R exact TABLE_LENGTH o)) as (t & E & _).
  - unfold lengths, o. cbn [fst snd w_real w_imag option_map]. rewrite L. intros [(n & Q & B)|[(n & Q & B)|(n & m & Q & B & _)]]; try discriminate. injection Q as <-. lia.
  - rewrite (H R R exact o) in E; [discriminate|]. unfold lengths, o. cbn [fst snd w_real w_imag option_map]. rewrite L. exists (Z.to_nat 8193). split; [left; reflexivity|lia].
Qed.
Print Assumptions C57_too_many_refuted.
