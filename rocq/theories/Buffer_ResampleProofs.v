(** Resampling stays in bounds and keeps the ends. *)
From Coq Require Import List Arith Bool ZArith Lia Reals Lra.
From Flocq Require Import Core BinarySingleNaN.
From Verif Require Import Float_Model Float_Proofs Float_BoundProofs Buffer_Model Buffer_Spec Buffer_Proofs.
Import ListNotations.
Local Open Scope R_scope.

Lemma f64_of_Z_exact : forall n, (Z.abs n <= 2 ^ 53)%Z -> B2R (f64_of_Z n) = IZR n /\ is_finite (f64_of_Z n) = true.
Proof. intros n H. exact (of_Z_exact 53 1024 f64_prec f64_emax n H). Qed.

Lemma div_le : forall x y b, 0 < y -> x <= b * y -> x / y <= b.
Proof. intros x y b H1 H2. unfold Rdiv. apply Rmult_le_reg_r with y; [exact H1|]. rewrite Rmult_assoc, Rinv_l by lra. lra. Qed.

Definition playhead (data : list f32) (T i : Z) : f64 :=
  f64_mul (f64_div (f64_of_Z i) (f64_of_Z (T - 1))) (f64_of_Z (Z.of_nat (length data) - 1)).

Lemma playhead_range : forall (data : list f32) T i, (0 < length data)%nat -> (Z.of_nat (length data) <= 2 ^ 53)%Z -> (2 <= T <= 2 ^ 53)%Z -> (0 <= i < T)%Z ->
  is_finite (playhead data T i) = true /\ 0 <= B2R (playhead data T i) <= IZR (Z.of_nat (length data) - 1) /\
  (i = 0%Z -> B2R (playhead data T i) = 0) /\ (i = T - 1 -> B2R (playhead data T i) = IZR (Z.of_nat (length data) - 1))%Z.
Proof.
  intros data T i H0 HL HT Hi. set (L := (Z.of_nat (length data) - 1)%Z). assert (BL : (0 <= L < 2 ^ 53)%Z) by (unfold L; lia).
  destruct (f64_of_Z_exact i) as [Ei Fi]; [lia|]. destruct (f64_of_Z_exact (T - 1)) as [Et Ft]; [lia|]. destruct (f64_of_Z_exact L) as [El Fl]; [lia|].
  assert (Pt : 1 <= IZR (T - 1)) by (apply (IZR_le 1); lia). assert (Pi : 0 <= IZR i <= IZR (T - 1)) by (split; apply IZR_le; lia).
  assert (Bq : IZR 0 <= B2R (f64_of_Z i) / B2R (f64_of_Z (T - 1)) <= IZR 1).
  { rewrite Ei, Et. split; [unfold Rdiv; apply Rmult_le_pos; [lra|left; apply Rinv_0_lt_compat; lra]|apply div_le; lra]. }
  destruct (div_between 53 1024 f64_prec f64_emax (f64_of_Z i) (f64_of_Z (T - 1)) 0 1 Fi) as (F1 & E1 & R1); [rewrite Et; lra|lia|lia|exact Bq|].
  set (pos := Bdiv mode_NE (f64_of_Z i) (f64_of_Z (T - 1))) in *.
  assert (PL : 0 <= IZR L) by (apply (IZR_le 0); lia).
  assert (Bp : IZR 0 <= B2R pos * B2R (f64_of_Z L) <= IZR L).
  { rewrite El. split; [apply Rmult_le_pos; lra|]. rewrite <- (Rmult_1_l (IZR L)) at 2. apply Rmult_le_compat_r; lra. }
  destruct (mult_between 53 1024 f64_prec f64_emax pos (f64_of_Z L) 0 L F1 Fl) as (F2 & E2 & R2); [lia|lia|exact Bp|].
  unfold playhead, f64_mul, f64_div. fold pos L. split; [exact F2|]. split; [lra|]. rewrite E2, El. split; intros ->.
  - assert (B2R pos = 0). { rewrite E1, Ei. unfold Rdiv. rewrite Rmult_0_l. apply round_0. apply valid_rnd_N. }
    rewrite H, Rmult_0_l. apply round_0. apply valid_rnd_N.
  - assert (B2R pos = 1). { rewrite E1, Ei. unfold Rdiv. rewrite Rinv_r by lra. apply (rnd_int 53 1024 f64_prec f64_emax 1). lia. }
    rewrite H, Rmult_1_l. apply (rnd_int 53 1024 f64_prec f64_emax L). lia.
Qed.

Lemma nth_index : forall (A : Type) (l : list A) i d, (i < length l)%nat -> index l i = Ok (nth i l d).
Proof. intros A l i d H. unfold index. rewrite (nth_error_nth' l d H). reflexivity. Qed.

Lemma index_of_playhead : forall (data : list f32) T i, (0 < length data)%nat -> (Z.of_nat (length data) <= 2 ^ 53)%Z -> (2 <= T <= 2 ^ 53)%Z -> (0 <= i < T)%Z ->
  f64_to_usize (f64_floor (playhead data T i)) = Zfloor (B2R (playhead data T i)) /\ (0 <= Zfloor (B2R (playhead data T i)) < Z.of_nat (length data))%Z.
Proof.
  intros data T i H0 HL HT Hi. destruct (playhead_range data T i H0 HL HT Hi) as (F & R & _). set (p := playhead data T i) in *.
  destruct (floor_val 53 1024 f64_emax p) as [E1 E2]. assert (B : (0 <= Zfloor (B2R p) < Z.of_nat (length data))%Z).
  { split; [apply Zfloor_lub; lra|]. apply lt_IZR. apply Rle_lt_trans with (B2R p); [apply Zfloor_lb|]. rewrite minus_IZR in R. lra. }
  split; [|exact B]. unfold f64_floor. rewrite f64_to_usize_val by congruence. rewrite E1, Ztrunc_IZR. lia.
Qed.

Lemma resample_sample_ok : forall (data : list f32) T i, (0 < length data)%nat -> (Z.of_nat (length data) <= 2 ^ 53)%Z -> (T <= 2 ^ 53)%Z -> (0 <= i < T)%Z ->
  exists v, resample_sample data T i = Ok v.
Proof.
  intros data T i H0 HL HT Hi. unfold resample_sample. cbv zeta. fold (playhead data T i).
  assert (Q : exists k, f64_to_usize (f64_floor (playhead data T i)) = k /\ (0 <= k < Z.of_nat (length data))%Z).
  { destruct (Z.eq_dec T 1) as [->|N].
    - assert (i = 0%Z) by lia. subst i. exists 0%Z. split; [|lia]. reflexivity.
    - destruct (index_of_playhead data T i H0 HL ltac:(lia) Hi) as [-> B]. exists (Zfloor (B2R (playhead data T i))). split; [reflexivity|exact B]. }
  destruct Q as (k & -> & B). rewrite (nth_index _ data (Z.to_nat k) f32_zero) by lia. cbn [bind].
  rewrite (nth_index _ data (Z.to_nat (Z.min (k + 1) (Z.of_nat (length data) - 1))) f32_zero) by lia. cbn [bind]. eexists. reflexivity.
Qed.

(** at a whole position the sample there is kept *)
Lemma whole_position : forall (data : list f32) T i m, (0 < length data)%nat -> (Z.of_nat (length data) <= 2 ^ 53)%Z -> (2 <= T <= 2 ^ 53)%Z -> (0 <= i < T)%Z ->
  Forall (fun x : f32 => is_finite x = true) data -> B2R (playhead data T i) = IZR (Z.of_nat m) -> (m < length data)%nat ->
  exists v, resample_sample data T i = Ok v /\ is_finite v = true /\ B2R v = B2R (nth m data f32_zero).
Proof.
  intros data T i m H0 HL HT Hi Fin Hm Bm. unfold resample_sample. cbv zeta. fold (playhead data T i).
  destruct (index_of_playhead data T i H0 HL HT Hi) as [-> B]. destruct (playhead_range data T i H0 HL HT Hi) as (F & _). set (p := playhead data T i) in *.
  rewrite Hm, Zfloor_IZR. rewrite Nat2Z.id. rewrite (nth_index _ data m f32_zero) by exact Bm. cbn [bind].
  set (nx := Z.to_nat (Z.min (Z.of_nat m + 1) (Z.of_nat (length data) - 1))). rewrite (nth_index _ data nx f32_zero) by (unfold nx; lia). cbn [bind].
  assert (Fm : forall j, (j < length data)%nat -> is_finite (nth j data f32_zero) = true) by (intros; rewrite Forall_forall in Fin; apply Fin, nth_In; assumption).
  pose proof (Fm m Bm) as F1. pose proof (Fm nx ltac:(unfold nx; lia)) as F2. set (x := nth m data f32_zero) in *. set (y := nth nx data f32_zero) in *.
  (* k = 0 *)
  destruct (floor_val 53 1024 f64_emax p) as [E1 E2]. rewrite Hm, Zfloor_IZR in E1.
  assert (Fk : is_finite (f64_sub p (f64_floor p)) = true /\ B2R (f64_sub p (f64_floor p)) = 0).
  { destruct (minus_between 53 1024 f64_prec f64_emax p (f64_floor p) 0 0 F) as (A1 & A2 & A3); [unfold f64_floor; congruence|lia|lia|unfold f64_floor; rewrite E1, Hm; lra|].
    split; [exact A1|]. unfold f64_sub. lra. }
  destruct Fk as [Fk Ek]. destruct (finite_zero 53 1024 _ Fk Ek) as (s & ->). cbn [f32_of_f64].
  assert (K : f32_sub f32_one (B754_zero s) = f32_one) by (destruct s; reflexivity). rewrite K.
  (* 1 * x = x *)
  assert (E32 : B2R f32_one = 1) by (change f32_one with (binary_normalize 24 128 f32_prec f32_emax mode_NE 1 0 false); apply (of_Z_exact 24 128 f32_prec f32_emax 1); lia).
  pose proof (Bmult_correct 24 128 _ _ mode_NE f32_one x) as C1. cbn [round_mode] in C1. rewrite E32, Rmult_1_l in C1.
  rewrite (round_generic radix2 (SpecFloat.fexp 24 128) ZnearestE (B2R x)) in C1 by apply generic_format_B2R.
  rewrite Rlt_bool_true in C1 by apply abs_B2R_lt_emax. destruct C1 as (C1 & C2 & _). rewrite F1 in C2.
  (* 0 * y = 0 *)
  assert (Z0 : exists s', f32_mul (B754_zero s) y = B754_zero s') by (destruct y as [| | |]; try discriminate; eexists; reflexivity). destruct Z0 as (s' & ->).
  eexists. split; [reflexivity|]. unfold f32_add, f32_mul.
  assert (Fx : is_finite (Bmult mode_NE f32_one x) = true) by (rewrite C2; reflexivity).
  pose proof (Bplus_correct 24 128 _ _ mode_NE (Bmult mode_NE f32_one x) (B754_zero s') Fx eq_refl) as P. cbn [round_mode] in P.
  change (B2R (B754_zero s' : binary_float 24 128)) with 0 in P. rewrite Rplus_0_r, C1 in P.
  rewrite (round_generic radix2 (SpecFloat.fexp 24 128) ZnearestE (B2R x)) in P by apply generic_format_B2R.
  rewrite Rlt_bool_true in P by apply abs_B2R_lt_emax. destruct P as (P1 & P2 & _). split; assumption.
Qed.

Lemma map_res_ok : forall (A B : Type) (f : A -> res B) l, (forall x, In x l -> exists y, f x = Ok y) -> exists l', map_res f l = Ok l'.
Proof.
  induction l as [|x l IH]; intros H; [exists []; reflexivity|]. destruct (H x (or_introl eq_refl)) as (y & Hy). destruct IH as (l' & Hl); [intros z Hz; apply H; right; exact Hz|].
  exists (y :: l'). cbn. rewrite Hy, Hl. reflexivity.
Qed.
Lemma map_res_nth : forall (A B : Type) (f : A -> res B) l l', map_res f l = Ok l' -> forall j x, nth_error l j = Some x -> exists y, nth_error l' j = Some y /\ f x = Ok y.
Proof.
  induction l as [|z l IH]; intros l' H j x Hj; [destruct j; discriminate|]. cbn in H. destruct (f z) as [y| |] eqn:E; try discriminate. cbn in H.
  destruct (map_res f l) as [ys| |] eqn:E2; try discriminate. inversion H; subst. destruct j as [|j]; cbn in *; [inversion Hj; subst; exists y; auto|eapply IH; eauto].
Qed.

(** ** The number of samples *)
Definition rate_ok (sr : f32) : Prop := is_valid_sample_rate sr = true.
Lemma rate_val : forall sr, rate_ok sr -> is_finite (f64_of_f32 sr) = true /\ 3000 <= B2R (f64_of_f32 sr) <= 768000.
Proof.
  intros sr H. unfold rate_ok, is_valid_sample_rate in H. apply andb_true_iff in H. destruct H as [H1 H2].
  destruct (nan_le 24 128 _ _ H1) as [_ N]. apply (le_val 24 128) in H1; [|reflexivity|exact N]. apply (le_val 24 128) in H2; [|exact N|reflexivity].
  destruct (of_Z_exact 24 128 f32_prec f32_emax 3000) as [E1 _]; [lia|]. destruct (of_Z_exact 24 128 f32_prec f32_emax 768000) as [E2 _]; [lia|]. cbv zeta in E1, E2.
  change (val 24 128 MIN_SAMPLE_RATE) with (B2R MIN_SAMPLE_RATE) in H1. change (val 24 128 MAX_SAMPLE_RATE) with (B2R MAX_SAMPLE_RATE) in H2.
  unfold MIN_SAMPLE_RATE, MAX_SAMPLE_RATE, f32_lit in *. rewrite E1 in H1. rewrite E2 in H2.
  assert (F : is_finite sr = true).
  { destruct sr as [|s| |]; try reflexivity; try discriminate. exfalso. cbn [val] in *.
    assert (768000 < bpow radix2 128) by (apply Rlt_le_trans with (bpow radix2 20); [rewrite <- (IZR_Zpower radix2 20) by lia; apply IZR_lt; reflexivity|apply bpow_le; lia]). destruct s; lra. }
  rewrite val_finite in H1, H2 by exact F.
  destruct sr as [s| |  |s m e Hb]; try discriminate; [cbn in H1; lra|]. cbn [f64_of_f32].
  pose proof (binary_normalize_correct 53 1024 f64_prec f64_emax mode_NE (cond_Zopp s (Zpos m)) e s) as C. cbv zeta in C. cbn [round_mode] in C.
  change (F2R (Float radix2 (cond_Zopp s (Zpos m)) e)) with (B2R (B754_finite s m e Hb : binary_float 24 128)) in C.
  set (r := B2R (B754_finite s m e Hb : binary_float 24 128)) in *.
  destruct (rnd_between 53 1024 f64_prec 3000 768000 r) as [R1 R2]; [apply (format_int 53 1024 f64_prec f64_emax 3000); lia|apply (format_int 53 1024 f64_prec f64_emax 768000); lia|lra|].
  rewrite Rlt_bool_true in C. 2:{ apply (between_small 53 1024 f64_prec f64_emax 3000 768000); [lia|lia|lra]. }
  destruct C as (C1 & C2 & _). rewrite C1. split; [exact C2|lra].
Qed.

Lemma resampled_length_bound : forall len s t, (0 < len)%nat -> (Z.of_nat len <= 2 ^ 40)%Z -> rate_ok s -> rate_ok t -> (0 <= resampled_length len s t <= 2 ^ 48)%Z.
Proof.
  intros len s t H0 HL Hs Ht. destruct (rate_val s Hs) as [Fs Rs]. destruct (rate_val t Ht) as [Ft Rt]. unfold resampled_length.
  destruct (f64_of_Z_exact (Z.of_nat len)) as [El Fl]; [lia|].
  assert (Bq : IZR 0 <= B2R (f64_of_f32 t) / B2R (f64_of_f32 s) <= IZR 256).
  { split; [unfold Rdiv; apply Rmult_le_pos; [lra|left; apply Rinv_0_lt_compat; lra]|]. apply div_le; lra. }
  destruct (div_between 53 1024 f64_prec f64_emax (f64_of_f32 t) (f64_of_f32 s) 0 256 Ft) as (F1 & E1 & R1); [lra|lia|lia|exact Bq|].
  unfold f64_div. set (q := Bdiv mode_NE (f64_of_f32 t) (f64_of_f32 s)) in *.
  assert (Pl : 0 <= IZR (Z.of_nat len) <= IZR (2 ^ 40)) by (split; [apply (IZR_le 0)|apply IZR_le]; lia).
  assert (Bp : IZR 0 <= B2R (f64_of_Z (Z.of_nat len)) * B2R q <= IZR (2 ^ 48)).
  { rewrite El. split; [apply Rmult_le_pos; lra|]. replace (2 ^ 48)%Z with (2 ^ 40 * 256)%Z by reflexivity. rewrite mult_IZR. apply Rmult_le_compat; lra. }
  destruct (mult_between 53 1024 f64_prec f64_emax (f64_of_Z (Z.of_nat len)) q 0 (2 ^ 48) Fl F1) as (F2 & E2 & R2); [lia|lia|exact Bp|].
  unfold f64_mul. set (p := Bmult mode_NE (f64_of_Z (Z.of_nat len)) q) in *. destruct (ceil_val 53 1024 f64_emax p) as [C1 C2].
  unfold f64_ceil. rewrite f64_to_usize_val by congruence. rewrite C1, Ztrunc_IZR.
  assert (Zceil (B2R p) <= 2 ^ 48)%Z by (apply Zceil_glb; lra). lia.
Qed.

Lemma resample_ok : forall c sr, content_ok c -> rate_ok (c_rate c) -> rate_ok sr -> (Z.of_nat (c_length c) <= 2 ^ 40)%Z -> exists c', resample c sr = Ok c'.
Proof.
  intros c sr [Ne F] Rc Rs HL. unfold resample. unfold rate_ok in Rs. rewrite Rs. cbn [check bind]. destruct (nearly_equal _ _); [eexists; reflexivity|].
  destruct (c_length c =? 0)%nat eqn:E0; [eexists; reflexivity|]. apply Nat.eqb_neq in E0.
  pose proof (resampled_length_bound (c_length c) (c_rate c) sr ltac:(lia) HL Rc Rs) as B. cbv zeta.
  destruct (map_res_ok _ _ (fun data => resample_channel data (resampled_length (c_length c) (c_rate c) sr)) (c_channels c)) as (l' & ->); [|eexists; reflexivity].
  intros d Hd. rewrite Forall_forall in F. specialize (F d Hd). unfold resample_channel. apply map_res_ok. intros i Hi. apply in_seq in Hi. apply resample_sample_ok; lia.
Qed.

(** the first and the last sample *)
Lemma resample_ends : forall (data : list f32) T, (0 < length data)%nat -> (Z.of_nat (length data) <= 2 ^ 53)%Z -> (2 <= T <= 2 ^ 53)%Z ->
  Forall (fun x : f32 => is_finite x = true) data ->
  exists out, resample_channel data T = Ok out /\ length out = Z.to_nat T /\
    B2R (nth 0 out f32_zero) = B2R (nth 0 data f32_zero) /\
    B2R (nth (Z.to_nat T - 1) out f32_zero) = B2R (nth (length data - 1) data f32_zero).
Proof.
  intros data T H0 HL HT Fin. unfold resample_channel.
  destruct (map_res_ok _ _ (fun i => resample_sample data T (Z.of_nat i)) (seq 0 (Z.to_nat T))) as (out & E).
  { intros i Hi. apply in_seq in Hi. apply resample_sample_ok; lia. }
  exists out. split; [exact E|]. destruct (map_res_forall _ _ _ (fun _ => True) _ _ E ltac:(intros; exact I)) as [_ Hl]. rewrite seq_length in Hl. split; [exact Hl|].
  assert (Nth : forall j v, (j < Z.to_nat T)%nat -> resample_sample data T (Z.of_nat j) = Ok v -> nth j out f32_zero = v).
  { intros j v Hj Hv. destruct (map_res_nth _ _ _ _ _ E j j) as (y & Hy1 & Hy2). { rewrite (nth_error_nth' _ 0%nat) by (rewrite seq_length; exact Hj). rewrite seq_nth by exact Hj. reflexivity. }
    cbn in Hy2. rewrite Hv in Hy2. inversion Hy2; subst. apply nth_error_nth. exact Hy1. }
  destruct (playhead_range data T 0 H0 HL HT ltac:(lia)) as (_ & _ & Z0 & _). destruct (playhead_range data T (T - 1) H0 HL HT ltac:(lia)) as (_ & _ & _ & Z1).
  split.
  - destruct (whole_position data T 0 0 H0 HL HT ltac:(lia) Fin (Z0 eq_refl) H0) as (v & Hv & _ & Ev). rewrite (Nth 0%nat v); [exact Ev|lia|exact Hv].
  - assert (Em : IZR (Z.of_nat (length data) - 1) = IZR (Z.of_nat (length data - 1))) by (f_equal; lia). rewrite Em in Z1.
    destruct (whole_position data T (T - 1) (length data - 1) H0 HL HT ltac:(lia) Fin (Z1 eq_refl) ltac:(lia)) as (v & Hv & _ & Ev).
    rewrite (Nth (Z.to_nat T - 1)%nat v); [exact Ev|lia|]. replace (Z.of_nat (Z.to_nat T - 1)) with (T - 1)%Z by lia. exact Hv.
Qed.
