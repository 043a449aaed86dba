(** Delay in floating point: which samples are read, and with which factor. *)
From Coq Require Import List Arith Bool ZArith Reals Lra Lia.
From Flocq Require Import Core BinarySingleNaN.
From Verif Require Import Float_Model Float_Proofs Float_BoundProofs Float_ErrorProofs Buffer_Model Buffer_ResampleProofs Common_Model Arith_Model Source_Model Source_ClockProofs Osc_IeeeProofs
  Absn_Spec Delay_Model Delay_Spec Delay_Proofs Delay_IeeeProofs.
Import ListNotations.
Local Open Scope R_scope.

Definition delay_at32 (delays : list f32) (i : nat) : f32 := match delays with [d] => d | _ => nth i delays f32_zero end.

Section Run.
Variable M : libm.
Notation A := (ieee M).
Variable sr : f32.
Hypothesis Hsr : rate_ok sr.
Notation S := (B2R (f64_of_f32 sr)).
Variable max : f64.
Hypothesis Hmax : is_finite max = true /\ 0 < B2R max < 180.
Notation N := (ring_size A sr max).
Variable remix : nat -> list (list f32) -> list (list f32).
Hypothesis remix_good : forall C n b, good C b -> (0 < n)%nat -> good n (remix n b).
Hypothesis remix_zeros : forall C n b, good C b -> zeros A b -> (0 < n)%nat -> zeros A (remix n b).

Definition in_limit (d : f32) : Prop := is_finite d = true /\ 0 <= B2R d <= B2R max.
Definition delays_in (delays : list f32) : Prop := (length delays = 1 \/ length delays = 128)%nat /\ Forall in_limit delays.

Lemma in_limit_ok : forall d, in_limit d -> limit_ok max d.
Proof using Hmax.
  intros d [F R]. split; [exact F|]. split; [lra|]. destruct Hmax as [Fm Rm]. destruct (f32_of_f64_err max 8 Fm) as (_ & E & _); [unfold exp_ok; lia|rewrite Rabs_pos_eq by lra; change (bpow radix2 8) with 256; lra|].
  rewrite E. rewrite <- (round_generic radix2 (SpecFloat.fexp 24 128) ZnearestE (B2R d)) by apply generic_format_B2R. apply round_le; [exact (fexp_valid 24 128 f32_prec)|apply valid_rnd_N|lra].
Qed.
Lemma delays_in_ok : forall delays, delays_in delays -> delays_ok32 max delays.
Proof using Hmax. intros delays [H1 H2]. split; [exact H1|]. eapply Forall_impl; [|exact H2]. exact in_limit_ok. Qed.

(** one position *)
Lemma pos_good : forall d i, in_limit d -> (i < 128)%nat -> let p := pos64 sr (f64_of_f32 d) i in let k := f32_of_f64 (f64_sub p (f64_floor p)) in
  (- (128 * (Z.of_nat N - 1)) <= Zfloor (B2R p) <= Z.of_nat i)%Z /\ is_finite k = true /\ 0 <= B2R k <= 1 /\ (Zfloor (B2R p) = Z.of_nat i -> B2R k = 0) /\
  Rabs (IZR (Zfloor (B2R p)) + B2R k - (IZR (Z.of_nat i) - B2R d * S)) <= / 4194304.
Proof using Hsr Hmax.
  intros d i [Fd Rd] Hi p k. destruct Hmax as [Fm Rm]. destruct (f64_of_f32_val d Fd) as [Ed Fd']. assert (Rc : 0 <= B2R (f64_of_f32 d) <= 256) by lra.
  destruct (pos64_val sr Hsr _ i Fd' Rc Hi) as (F & Ab & U & L & Lw). fold p in F, Ab, U, L, Lw. rewrite Ed in Ab. pose proof (S_range sr Hsr) as RS. set (P := Zfloor (B2R p)) in *.
  pose proof (max_frames M sr Hsr N max Hmax eq_refl) as Fr. destruct (num_val sr Hsr (f64_of_f32 d) Fd' Rc) as (_ & En & _ & Rn). destruct (num_val sr Hsr max Fm ltac:(lra)) as (_ & Em & _ & Rmx). rewrite <- Em in Fr.
  assert (Hnum : B2R (f64_mul (f64_of_f32 d) (f64_of_f32 sr)) <= IZR (128 * (Z.of_nat N - 1))).
  { rewrite mult_IZR, minus_IZR. apply Rle_trans with (B2R (f64_mul max (f64_of_f32 sr))); [|lra]. rewrite En, Em, Ed. apply round_le; [exact (fexp_valid 53 1024 f64_prec)|apply valid_rnd_N|]. apply Rmult_le_compat_r; lra. }
  assert (Rp : (- (128 * (Z.of_nat N - 1)) <= P <= Z.of_nat i)%Z).
  { split.
    - destruct (Z.le_gt_cases (128 * (Z.of_nat N - 1)) (2 ^ 28)) as [Lz|Gz].
      + apply Zfloor_lub. rewrite opp_IZR. apply Lw; [pose proof (N_pos M sr Hsr N max Hmax eq_refl); lia|exact Hnum].
      + apply Z.le_trans with (- 2 ^ 28)%Z; [lia|]. apply Zfloor_lub. change (IZR (- 2 ^ 28)) with (-268435456). lra.
    - apply le_IZR. unfold P. pose proof (Zfloor_lb (B2R p)). lra. }
  destruct (floor_val 53 1024 f64_emax p) as [Ef Ff]. change (Bnearbyint mode_DN p) with (f64_floor p) in Ef, Ff. fold P in Ef. rewrite F in Ff. pose proof (Zfloor_lb (B2R p)) as Lb. pose proof (Zfloor_ub (B2R p)) as Ub. fold P in Lb, Ub.
  destruct (f64_sub_err p (f64_floor p) 0 F Ff) as (Fk & Ek & Abk & _); [apply eok; lia|rewrite Ef, Rabs_pos_eq by lra; change (bpow radix2 0) with 1; lra|]. rewrite Ef in *. set (k64 := f64_sub p (f64_floor p)) in *.
  assert (Rk64 : 0 <= B2R k64 <= 1) by (rewrite Ek; apply (rnd_between 53 1024 f64_prec 0 1); [apply generic_format_0|apply (format_int 53 1024 f64_prec f64_emax 1); lia|lra]).
  destruct (f32_of_f64_err k64 0 Fk) as (F32 & E32 & Ab32 & _); [unfold exp_ok; lia|rewrite Rabs_pos_eq by lra; change (bpow radix2 0) with 1; lra|]. fold k in F32, E32, Ab32.
  split; [exact Rp|]. split; [exact F32|]. split; [|split].
  - rewrite E32. apply (rnd_between 24 128 f32_prec 0 1); [apply generic_format_0|apply (format_int 24 128 f32_prec f32_emax 1); lia|lra].
  - intros EP. rewrite EP in *. assert (Z0 : B2R p - IZR (Z.of_nat i) = 0) by lra. rewrite E32, Ek, Z0, round_0 by apply valid_rnd_N. apply round_0, valid_rnd_N.
  - change (bpow radix2 (0 - 53)) with (/ 9007199254740992) in Abk. change (bpow radix2 (0 - 24)) with (/ 16777216) in Ab32. apply Rabs_le_inv in Ab. apply Rabs_le_inv in Abk. apply Rabs_le_inv in Ab32. apply Rabs_le. lra.
Qed.

Lemma read_good : forall delays i, delays_in delays -> (i < 128)%nat -> let r := read_at M sr delays false i in
  (- (128 * (Z.of_nat N - 1)) <= fst r <= Z.of_nat i)%Z /\ is_finite (snd r) = true /\ 0 <= B2R (snd r) <= 1 /\ (fst r = Z.of_nat i -> B2R (snd r) = 0) /\
  Rabs (IZR (fst r) + B2R (snd r) - (IZR (Z.of_nat i) - B2R (delay_at32 delays i) * S)) <= / 4194304.
Proof using Hsr Hmax.
  intros delays i [Hl Hd] Hi. destruct delays as [|d [|d2 ds]]; [cbn [length] in Hl; lia| |].
  - apply Forall_cons_iff in Hd. destruct Hd as [Hd _]. destruct (pos_good d 0 Hd ltac:(lia)) as (R1 & R2 & R3 & R4 & R5). cbv zeta in *. cbn [read_at fst snd clamp delay_at32]. set (p := pos64 sr (f64_of_f32 d) 0) in *. change (Z.of_nat 0) with 0%Z in *.
    split; [lia|]. split; [exact R2|]. split; [exact R3|]. split; [intros E; apply R4; lia|]. rewrite plus_IZR. match goal with |- Rabs ?x <= _ => replace x with (IZR (Zfloor (B2R p)) + B2R (f32_of_f64 (f64_sub p (f64_floor p))) - (0 - B2R d * S)) by ring end. exact R5.
  - set (ds' := d :: d2 :: ds) in *. assert (Hn : in_limit (nth i ds' f32_zero)). { rewrite Forall_forall in Hd. apply Hd. apply nth_In. change (length ds') with (Datatypes.S (Datatypes.S (length ds))) in *. lia. }
    exact (pos_good _ i Hn Hi).
Qed.

Record sync32 (s : @delay f32) (hist : list (list (list f32))) : Prop := {
  z_inv : inv A N s hist; z_rindex : d_rindex s = (length hist mod N)%nat; z_cyc : d_in_cycle s = false; z_live : d_last s = None /\ d_checked s = None
}.
(** the sample computed *)
Definition weighted (h : list (list (list f32))) (c : nat) (t : Z) (k : f32) : f32 := f32_fma (f32_sub (f32_of_Z 1) k) (ghost (f32_of_Z 0) N h c t) (f32_mul k (ghost (f32_of_Z 0) N h c (t + 1))).

Lemma both_ieee : forall s hist input delays, sync32 s hist -> input_ok input -> delays_in delays -> let hist' := record remix hist input in let Q := length hist in
  exists s' out, delay_step A sr remix s (128 * Z.of_nat Q) (D_both input false delays) = Ok (s', [(out, true)]) /\ sync32 s' hist' /\
    forall c i, (c < channels hist')%nat -> (i < 128)%nat -> let v := weighted hist' c (128 * Z.of_nat Q + fst (read_at M sr delays false i)) (snd (read_at M sr delays false i)) in
      sample_at f32_zero out c i = v \/ (out = silent_block A /\ f32_is_normal v = false).
Proof.
  intros s hist input delays [I Yr Yc [Yl Yk]] (C & HC & [Gi1 Gi2]) Hd hist' Q. cbn [delay_step]. pose proof (N_pos M sr Hsr N max Hmax eq_refl) as HN.
  destruct (writer_inv A remix remix_good remix_zeros N ltac:(lia) s hist input (128 * Z.of_nat Q) I ltac:(lia) Gi2) as (s1 & E1 & I1 & L1 & R1 & C1 & D1 & K1). rewrite E1. cbn [bind].
  assert (Ec : d_in_cycle s1 || negb (match d_latest s1 with Some f => (f =? 128 * Z.of_nat Q)%Z | None => false end) = false). { rewrite L1, C1, Yc, Z.eqb_refl. reflexivity. }
  pose proof (infos_nth_ieee M sr Hsr N HN max Hmax eq_refl delays false Q (delays_in_ok delays Hd)) as [Li Ni]. cbv zeta in Li, Ni.
  destruct (reader_seen A sr N ltac:(lia) s1 hist' delays (128 * Z.of_nat Q) (fun i => ((128 * Z.of_nat Q + fst (read_at M sr delays false i))%Z, snd (read_at M sr delays false i))) I1) as (s2 & E2 & I2 & L2 & R2 & C2 & D2 & K2).
  - rewrite Ec, R1, Yr. exact Li.
  - intros i Hi. rewrite Ec, R1, Yr. cbn [fst snd]. split; [exact (Ni i Hi)|]. destruct (read_good delays i Hd Hi) as (Rr & _). cbv zeta in Rr. unfold hist'. rewrite record_length. fold Q. split; [apply Z.div_le_lower_bound; lia|apply Z.div_lt_upper_bound; lia].
  - rewrite K1, Yk, D1, Yl, Ec in *. cbv iota in *. rewrite E2. cbn [bind fst snd]. do 2 eexists. split; [reflexivity|]. split.
    + split; [exact I2| | |].
      * unfold hist'. rewrite record_length, R2, R1, Yr. fold Q. replace (Datatypes.S Q) with (Q + 1)%nat by lia. symmetry. apply mod_S. lia.
      * exact C2.
      * rewrite D2, K2. auto.
    + intros c i Hc Hi. cbv zeta. set (w := fun c i => weighted hist' c (128 * Z.of_nat Q + fst (read_at M sr delays false i)) (snd (read_at M sr delays false i))).
      change (sample_at f32_zero (if existsb (existsb f32_is_normal) (map (fun c => map (w c) (seq 0 128)) (seq 0 (channels hist'))) then map (fun c => map (w c) (seq 0 128)) (seq 0 (channels hist')) else silent_block A) c i = w c i \/
        (if existsb (existsb f32_is_normal) (map (fun c => map (w c) (seq 0 128)) (seq 0 (channels hist'))) then map (fun c => map (w c) (seq 0 128)) (seq 0 (channels hist')) else silent_block A) = silent_block A /\ f32_is_normal (w c i) = false).
      destruct (existsb (existsb f32_is_normal) (map (fun c => map (w c) (seq 0 128)) (seq 0 (channels hist')))) eqn:Ex.
      * left. unfold sample_at. rewrite (nth_indep _ [] (map (w 0%nat) (seq 0 128))) by (rewrite map_length, seq_length; exact Hc). rewrite (map_nth (fun c => map (w c) (seq 0 128))). rewrite seq_nth by exact Hc. cbn [Nat.add]. rewrite (nth_indep _ f32_zero (w c 0%nat)) by (rewrite map_length, seq_length; exact Hi). rewrite (map_nth (w c)). rewrite seq_nth by exact Hi. reflexivity.
      * right. split; [reflexivity|]. destruct (f32_is_normal (w c i)) eqn:En; [|reflexivity]. exfalso. assert (existsb (existsb f32_is_normal) (map (fun c => map (w c) (seq 0 128)) (seq 0 (channels hist'))) = true); [|rewrite Ex in *; discriminate].
        apply existsb_exists. exists (map (w c) (seq 0 128)). split; [apply (in_map (fun c => map (w c) (seq 0 128))), in_seq; lia|]. apply existsb_exists. exists (w c i). split; [apply in_map, in_seq; lia|exact En].
Qed.

Definition run_ok (x : list (list f32) * list f32) : Prop := input_ok (fst x) /\ delays_in (snd x).
Lemma run_ieee : forall l s hist, sync32 s hist -> Forall run_ok l ->
  exists s' os, delay_run A sr remix s (128 * Z.of_nat (length hist)) (map (fun x => D_both (fst x) false (snd x)) l) = Ok (s', os) /\ length os = length l /\
    forall k x o, nth_error l k = Some x -> nth_error os k = Some o -> snd o = true /\
      let h := fold_left (record remix) (map fst (firstn (Datatypes.S k) l)) hist in
      forall c i, (c < channels h)%nat -> (i < 128)%nat ->
        let v := weighted h c (128 * Z.of_nat (length hist + k) + fst (read_at M sr (snd x) false i)) (snd (read_at M sr (snd x) false i)) in
        sample_at f32_zero (fst o) c i = v \/ (fst o = silent_block A /\ f32_is_normal v = false).
Proof.
  induction l as [|x l IH]; intros s hist Y Hl.
  - do 2 eexists. split; [reflexivity|]. split; [reflexivity|]. intros k x o E. destruct k; discriminate.
  - apply Forall_cons_iff in Hl. destruct Hl as [[Hi Hd] Hl]. destruct (both_ieee s hist (fst x) (snd x) Y Hi Hd) as (s1 & out & E1 & Y1 & P1). cbn [map delay_run]. setoid_rewrite E1. cbn [bind fst snd].
    destruct (IH s1 _ Y1 Hl) as (s2 & os & E2 & L2 & P2). rewrite record_length in E2. replace (128 * Z.of_nat (Datatypes.S (length hist)))%Z with (128 * Z.of_nat (length hist) + Z.of_nat RQ)%Z in E2 by (unfold RQ; lia). setoid_rewrite E2. cbn [bind fst snd].
    do 2 eexists. split; [reflexivity|]. split; [cbn [app length]; lia|]. intros k y o Ey Eo. destruct k as [|k]; cbn [nth_error app] in Ey, Eo.
    + injection Ey as <-. injection Eo as <-. split; [reflexivity|]. cbn [fst snd firstn map fold_left]. rewrite Nat.add_0_r. exact P1.
    + destruct (P2 k y o Ey Eo) as [Pa Pb]. split; [exact Pa|]. rewrite record_length in Pb. replace (length hist + Datatypes.S k)%nat with (Datatypes.S (length hist) + k)%nat by lia. exact Pb.
Qed.
Lemma sync32_new : sync32 (delay_new N) [].
Proof using Hsr Hmax.
  clear remix_good remix_zeros. pose proof (N_pos M sr Hsr N max Hmax eq_refl) as HN. split; cbn [delay_new d_rindex d_in_cycle d_last d_checked length]; auto; [apply inv_new; lia|symmetry; apply Nat.mod_0_l; lia].
Qed.
Lemma run32 : forall l, Forall run_ok l ->
  exists s os, delay_run A sr remix (delay_new N) 0 (map (fun x => D_both (fst x) false (snd x)) l) = Ok (s, os) /\ length os = length l /\
    forall k x o, nth_error l k = Some x -> nth_error os k = Some o -> snd o = true /\
      let h := recorded remix (map fst (firstn (Datatypes.S k) l)) in
      forall c i, (c < channels h)%nat -> (i < 128)%nat -> exists t (w : f32), is_finite w = true /\ 0 <= B2R w <= 1 /\ (t <= 128 * Z.of_nat k + Z.of_nat i)%Z /\ (t = (128 * Z.of_nat k + Z.of_nat i)%Z -> B2R w = 0) /\
        Rabs (IZR t + B2R w - (IZR (128 * Z.of_nat k + Z.of_nat i) - B2R (delay_at32 (snd x) i) * S)) <= / 4194304 /\
        let v := f32_fma (f32_sub (f32_of_Z 1) w) (signal (f32_of_Z 0) h c t) (f32_mul w (ghost (f32_of_Z 0) N h c (t + 1))) in
        sample_at f32_zero (fst o) c i = v \/ (fst o = silent_block A /\ f32_is_normal v = false).
Proof.
  intros l Hl. destruct (run_ieee l (delay_new N) [] sync32_new Hl) as (s & os & E & L & P). exists s, os. split; [exact E|]. split; [exact L|]. intros k x o Ex Eo. destruct (P k x o Ex Eo) as [Pa Pb]. split; [exact Pa|].
  cbv zeta in *. intros c i Hc Hi. rewrite Forall_forall in Hl. destruct (Hl x (nth_error_In _ _ Ex)) as [_ Hd]. destruct (read_good (snd x) i Hd Hi) as (R1 & R2 & R3 & R4 & R5). cbv zeta in *. set (r := read_at M sr (snd x) false i) in *.
  exists (128 * Z.of_nat k + fst r)%Z, (snd r). split; [exact R2|]. split; [exact R3|]. split; [lia|]. split; [intros E1; apply R4; lia|]. split.
  - rewrite !plus_IZR. match goal with |- Rabs ?y <= _ => replace y with (IZR (fst r) + B2R (snd r) - (IZR (Z.of_nat i) - B2R (delay_at32 (snd x) i) * S)) by ring end. exact R5.
  - specialize (Pb c i Hc Hi). fold r in Pb. cbn [length Nat.add] in Pb. unfold weighted in Pb.
    assert (Hlen : length (recorded remix (map fst (firstn (Datatypes.S k) l))) = Datatypes.S k).
    { assert (Fl : forall is h, length (fold_left (record remix) is h) = (length h + length is)%nat). { induction is as [|y is IHl]; intros h; cbn [fold_left length]; [lia|]. rewrite IHl, record_length. lia. }
      unfold recorded. rewrite Fl, map_length, firstn_length. assert (k < length l)%nat by (apply nth_error_Some; congruence). cbn [length]. lia. }
    assert (Eg : ghost (f32_of_Z 0) N (recorded remix (map fst (firstn (Datatypes.S k) l))) c (128 * Z.of_nat k + fst r) = signal (f32_of_Z 0) (recorded remix (map fst (firstn (Datatypes.S k) l))) c (128 * Z.of_nat k + fst r)).
    { unfold ghost. rewrite Hlen. destruct (Z.ltb_spec ((128 * Z.of_nat k + fst r) / 128) (Z.of_nat (Datatypes.S k))) as [_|G]; [reflexivity|]. exfalso. assert ((128 * Z.of_nat k + fst r) / 128 < Z.of_nat (Datatypes.S k))%Z by (apply Z.div_lt_upper_bound; lia). lia. }
    unfold recorded in *. rewrite Eg in Pb. exact Pb.
Qed.
End Run.
