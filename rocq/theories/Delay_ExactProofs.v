(** Delay in exact arithmetic. *)
From Coq Require Import List Arith Bool ZArith Reals Lra Lia.
From Flocq Require Import Core.
From Verif Require Import Common_Model Arith_Model Arith_Real Source_Model Absn_Spec Delay_Model Delay_Spec Delay_Proofs.
Import ListNotations.
Local Open Scope R_scope.

Section Exact.
Notation A := exact.
Variable sr : R.
Hypothesis Hsr : 0 < sr.
Variable remix : nat -> list (list R) -> list (list R).
Hypothesis remix_good : forall C n b, good C b -> (0 < n)%nat -> good n (remix n b).
Hypothesis remix_zeros : forall C n b, good C b -> zeros A b -> (0 < n)%nat -> zeros A (remix n b).
Variable max : R.
Variable N : nat.
Hypothesis HN : (2 <= N)%nat.
Hypothesis Hmax : max * sr <= IZR (128 * (Z.of_nat N - 1)).

Definition delays_ok (delays : list R) : Prop := (length delays = 1 \/ length delays = 128)%nat /\ Forall (fun d => 0 <= d <= max) delays.
(** the position read for sample [i], relative to the quantum *)
Definition position (delays : list R) (cyc : bool) (i : nat) : R := IZR (Z.of_nat i) - frames sr (delay_at delays i) cyc.

Lemma frames_range : forall d (cyc : bool), 0 <= d <= max -> (if cyc then 128 else 0) <= frames sr d cyc <= IZR (128 * (Z.of_nat N - 1)).
Proof using Hsr HN Hmax.
  clear remix_good remix_zeros. intros d cyc Hd. assert (0 <= d * sr) by (apply Rmult_le_pos; lra). assert (d * sr <= max * sr) by (apply Rmult_le_compat_r; lra). assert (128 <= IZR (128 * (Z.of_nat N - 1))) by (apply IZR_le; lia).
  unfold frames. destruct cyc; [|lra]. split; [apply Rmax_r|apply Rmax_lub; lra].
Qed.

Lemma infos_exact : forall d cyc i Q, 0 <= d <= max -> (i < 128)%nat ->
  infos A d cyc (IZR (Z.of_nat i)) (t_mul A (t_of_Z A (Z.of_nat RQ)) (dt A sr)) sr (Z.of_nat N) (Z.of_nat (Q mod N)) =
  (let p := IZR (Z.of_nat i) - frames sr d cyc in (address N (128 * Z.of_nat Q + Zfloor p), p - IZR (Zfloor p))).
Proof using Hsr HN Hmax.
  clear remix_good remix_zeros. intros d cyc i Q Hd Hi. cbv zeta. set (p := IZR (Z.of_nat i) - frames sr d cyc). unfold infos. cbv zeta. cbn [exact t_mul t_of_Z t_max t_sub t_floor t_div t_to_i32 v_of_t].
  assert (Ep : IZR (Z.of_nat i) - (if cyc then Rmax d (IZR (Z.of_nat RQ) * dt A sr) else d) * sr = p).
  { unfold p, frames. destruct cyc; [|reflexivity]. rewrite (Rmult_comm (Rmax _ _)), <- RmaxRmult by lra. f_equal. f_equal; [ring|]. unfold dt. cbn [exact t_div t_of_v t_one t_of_Z]. unfold t_one. cbn [exact t_of_Z]. change (IZR (Z.of_nat RQ)) with 128. field. lra. }
  rewrite Ep. rewrite Zfloor_div by lia. rewrite !Ztrunc_IZR. set (P := Zfloor p).
  assert (R1 : (P < 128)%Z). { apply lt_IZR. unfold P. pose proof (Zfloor_lb p). pose proof (frames_range d cyc Hd). assert (IZR (Z.of_nat i) < 128) by (apply (IZR_lt _ 128); lia). assert (0 <= frames sr d cyc) by (destruct cyc; lra). unfold p in *. lra. }
  assert (R2 : (- (128 * (Z.of_nat N - 1)) <= P)%Z). { apply Zfloor_lub. rewrite opp_IZR. pose proof (frames_range d cyc Hd). assert (0 <= IZR (Z.of_nat i)) by (apply (IZR_le 0); lia). unfold p. lra. }
  assert (R3 : (- (Z.of_nat N - 1) <= P / 128)%Z) by (apply Z.div_le_lower_bound; lia).
  pose proof (address_of N ltac:(lia) Q P ltac:(lia) R1) as E. cbv zeta in E. rewrite E. reflexivity.
Qed.

Lemma infos_nth : forall delays cyc Q, delays_ok delays -> let is := all_infos A sr delays cyc (Z.of_nat N) (Z.of_nat (Q mod N)) in
  length is = 128%nat /\ forall i, (i < 128)%nat -> nth_error is i = Some (address N (128 * Z.of_nat Q + Zfloor (position delays cyc i)), position delays cyc i - IZR (Zfloor (position delays cyc i))).
Proof using Hsr HN Hmax.
  clear remix_good remix_zeros. intros delays cyc Q [Hl Hd]. unfold all_infos. cbv zeta. change (t_of_v A) with (fun x : R => x). cbv beta.
  destruct delays as [|d [|d2 delays]].
  - cbn [length] in Hl. lia.
  - apply Forall_cons_iff in Hd. destruct Hd as [Hd _]. pose proof (infos_exact d cyc 0 Q Hd ltac:(lia)) as E. cbv zeta in E. change (t_zero A) with (IZR (Z.of_nat 0)). rewrite E. split; [apply constant_infos_length|]. intros i Hi. rewrite (constant_infos_nth N ltac:(lia)) by exact Hi.
    unfold position, delay_at. replace (IZR (Z.of_nat i) - frames sr d cyc) with (IZR (Z.of_nat 0) - frames sr d cyc + IZR (Z.of_nat i)) by (change (IZR (Z.of_nat 0)) with 0; ring). set (p := IZR (Z.of_nat 0) - _).
    assert (Ef : Zfloor (p + IZR (Z.of_nat i)) = (Zfloor p + Z.of_nat i)%Z). { apply Zfloor_imp. rewrite !plus_IZR. pose proof (Zfloor_lb p). pose proof (Zfloor_ub p). lra. }
    rewrite Ef, plus_IZR. do 2 f_equal; [f_equal; lia|ring].
  - cbn [length] in Hl. destruct Hl as [Hl|Hl]; [discriminate|]. set (ds := d :: d2 :: delays) in *. assert (Lc : length (combine (seq 0 RQ) ds) = 128%nat) by (rewrite combine_length, seq_length; change (length ds) with (S (S (length delays))); unfold RQ; lia). split; [rewrite map_length; exact Lc|].
    intros i Hi. assert (En : nth_error (combine (seq 0 RQ) ds) i = Some (i, nth i ds 0)). { rewrite (nth_error_nth' _ (0%nat, 0)) by lia. rewrite combine_nth by (rewrite seq_length; exact (eq_sym Hl)). rewrite seq_nth by (unfold RQ; lia). reflexivity. }
    rewrite (map_nth_error _ _ _ En). cbn [fst snd]. f_equal. rewrite Forall_forall in Hd. assert (Hin : In (nth i ds 0) ds) by (apply nth_In; change (length ds) with (S (S (length delays))); lia). exact (infos_exact (nth i ds 0) cyc i Q (Hd _ Hin) Hi).
Qed.

Lemma position_range : forall delays (cyc : bool) i, delays_ok delays -> (i < 128)%nat ->
  (- (128 * (Z.of_nat N - 1)) <= Zfloor (position delays cyc i))%Z /\ position delays cyc i <= IZR (Z.of_nat i) - (if cyc then 128 else 0).
Proof using Hsr HN Hmax.
  clear remix_good remix_zeros. intros delays cyc i [Hl Hd] Hi. assert (Hx : 0 <= delay_at delays i <= max).
  { unfold delay_at. rewrite Forall_forall in Hd. destruct delays as [|d [|d2 delays]]; [cbn [length] in Hl; lia|apply Hd; left; reflexivity|]. apply Hd. apply nth_In. cbn [length] in *. lia. }
  pose proof (frames_range (delay_at delays i) cyc Hx). assert (0 <= IZR (Z.of_nat i)) by (apply (IZR_le 0); lia). unfold position. split; [apply Zfloor_lub; rewrite opp_IZR; lra|destruct cyc; lra].
Qed.

(** What sample [i] is when [hist] is in the ring *)
Lemma value_lerp : forall hist c Q p, value A N hist c (128 * Z.of_nat Q + Zfloor p) (p - IZR (Zfloor p)) = lerp (seen A N hist c) (IZR (128 * Z.of_nat Q) + p).
Proof using.
  clear. intros hist c Q p. unfold value, lerp. cbv zeta. cbn [exact v_fma v_sub v_mul v_one]. unfold v_one. cbn [exact v_of_Z].
  assert (E : Zfloor (IZR (128 * Z.of_nat Q) + p) = (128 * Z.of_nat Q + Zfloor p)%Z). { apply Zfloor_imp. rewrite !plus_IZR. pose proof (Zfloor_lb p). pose proof (Zfloor_ub p). lra. }
  rewrite E, plus_IZR. replace (IZR (128 * Z.of_nat Q) + p - (IZR (128 * Z.of_nat Q) + IZR (Zfloor p))) with (p - IZR (Zfloor p)) by ring. reflexivity.
Qed.
(** nothing after the last quantum is read *)
Lemma lerp_signal : forall hist c p, p <= IZR (128 * Z.of_nat (length hist) - 1) -> lerp (seen A N hist c) p = lerp (signal 0 hist c) p.
Proof using.
  clear. intros hist c p Hp. unfold lerp. cbv zeta. assert (Hf : (Zfloor p <= 128 * Z.of_nat (length hist) - 1)%Z) by (apply Z.lt_succ_r, lt_IZR; rewrite succ_IZR; pose proof (Zfloor_lb p); lra).
  assert (S : forall t, (t <= 128 * Z.of_nat (length hist) - 1)%Z -> seen A N hist c t = signal 0 hist c t). { intros t Ht. unfold seen. destruct (Z.ltb_spec (t / 128) (Z.of_nat (length hist))); [reflexivity|]. exfalso. assert (t / 128 < Z.of_nat (length hist))%Z by (apply Z.div_lt_upper_bound; lia). lia. }
  rewrite (S (Zfloor p)) by exact Hf. destruct (Z.eq_dec (Zfloor p) (128 * Z.of_nat (length hist) - 1)) as [E|E].
  - assert (p - IZR (Zfloor p) = 0). { rewrite E in *. pose proof (Zfloor_lb p). rewrite E in *. lra. } rewrite H. ring.
  - rewrite S by lia. reflexivity.
Qed.

Definition chan_ok (b : list (list R)) : Prop := (0 < length b)%nat /\ Forall (fun ch => length ch = 128%nat) b.

(** reading with [hist] in the ring *)
Lemma output_exact : forall (hist : list (list (list R))) (pos : nat -> R) Q, (0 < channels hist)%nat ->
  let chs := map (fun c => map (fun i => value A N hist c (128 * Z.of_nat Q + Zfloor (pos i)) (pos i - IZR (Zfloor (pos i)))) (seq 0 128)) (seq 0 (channels hist)) in
  forall c i, (c < channels hist)%nat -> (i < 128)%nat -> sample_at 0 (if existsb (existsb (v_normal A)) chs then chs else silent_block A) c i = lerp (seen A N hist c) (IZR (128 * Z.of_nat Q) + pos i).
Proof using.
  clear. intros hist pos Q HC chs c i Hc Hi. set (v := fun c i => value A N hist c (128 * Z.of_nat Q + Zfloor (pos i)) (pos i - IZR (Zfloor (pos i)))).
  assert (Ech : forall c, (c < channels hist)%nat -> nth c chs [] = map (v c) (seq 0 128)).
  { intros c' Hc'. unfold chs. rewrite (nth_indep _ [] (map (v 0%nat) (seq 0 128))) by (rewrite map_length, seq_length; exact Hc'). rewrite (map_nth (fun c => map (v c) (seq 0 128))). rewrite seq_nth by exact Hc'. reflexivity. }
  assert (Ev : nth i (map (v c) (seq 0 128)) 0 = v c i). { rewrite (nth_indep _ 0 (v c 0%nat)) by (rewrite map_length, seq_length; exact Hi). rewrite map_nth, seq_nth by exact Hi. reflexivity. }
  rewrite <- value_lerp. fold (v c i). unfold sample_at. destruct (existsb (existsb (v_normal A)) chs) eqn:E; [rewrite Ech by exact Hc; exact Ev|].
  assert (Z0 : v c i = 0).
  { destruct (Req_EM_T (v c i) 0) as [Ez|Ez]; [exact Ez|]. exfalso. assert (existsb (existsb (v_normal A)) chs = true); [|congruence]. apply existsb_exists. exists (map (v c) (seq 0 128)). split; [rewrite <- Ech by exact Hc; apply nth_In; unfold chs; rewrite map_length, seq_length; exact Hc|].
    apply existsb_exists. exists (v c i). split; [apply in_map, in_seq; lia|]. cbn [exact v_normal]. unfold R_nonzero. destruct (Req_EM_T (v c i) 0); [contradiction|reflexivity]. }
  rewrite Z0. unfold silent_block. destruct c as [|c]; cbn [nth]; [|destruct c; destruct i; reflexivity]. destruct (Nat.lt_ge_cases i RQ); [apply (repeat_spec RQ 0); apply nth_In; rewrite repeat_length; assumption|apply nth_overflow; rewrite repeat_length; assumption].
Qed.

Record sync (s : @delay R) (hist : list (list (list R))) (cyc : bool) : Prop := {
  y_inv : inv A N s hist;
  y_rindex : d_rindex s = (length hist mod N)%nat;
  y_cyc : d_in_cycle s = cyc;
  y_live : d_last s = None /\ d_checked s = None;
  y_latest : forall f, d_latest s = Some f -> (f < 128 * Z.of_nat (length hist))%Z
}.

(** A quantum: [hist'] is what the reader sees *)
Lemma both_exact : forall s hist cyc input first delays, sync s hist cyc -> chan_ok input -> delays_ok delays ->
  let hist' := record remix hist input in let cyc' := cyc || first in let Q := length hist in
  let seen_hist := if first : bool then hist else hist' in
  exists s' out, delay_step A sr remix s (128 * Z.of_nat Q) (D_both input first delays) = Ok (s', [(out, true)]) /\ sync s' hist' cyc' /\
    forall c i, (c < channels seen_hist)%nat -> (i < 128)%nat -> sample_at 0 out c i = lerp (signal 0 seen_hist c) (IZR (128 * Z.of_nat Q + Z.of_nat i) - frames sr (delay_at delays i) cyc').
Proof.
  intros s hist cyc input first delays Y [Hi1 Hi2] Hd hist' cyc' Q seen_hist. destruct Y as [I Yr Yc [Yl Yk] Yf]. cbn [delay_step].
  assert (Pos : forall h : list (list (list R)), (length h = Q \/ length h = S Q) -> forall (cy : bool) i, (i < 128)%nat -> let p := position delays cy i in
    (Z.of_nat (length h) - Z.of_nat N <= (128 * Z.of_nat Q + Zfloor p) / 128)%Z /\ ((128 * Z.of_nat Q + Zfloor p + 1) / 128 < Z.of_nat (length h) + Z.of_nat N)%Z).
  { intros h Hh cy i Hi p. destruct (position_range delays cy i Hd Hi) as [R1 R2]. fold p in R1, R2. assert (Hp : (Zfloor p <= 127)%Z). { apply le_IZR. pose proof (Zfloor_lb p). assert (IZR (Z.of_nat i) <= 127) by (apply IZR_le; lia). destruct cy; lra. }
    split; [apply Z.div_le_lower_bound; lia|apply Z.div_lt_upper_bound; lia]. }
  assert (Out : forall h cy c i, h = seen_hist -> cy = cyc' -> (c < channels h)%nat -> (0 < channels h)%nat -> (i < 128)%nat ->
    let chs := map (fun c => map (fun i => value A N h c (128 * Z.of_nat Q + Zfloor (position delays cy i)) (position delays cy i - IZR (Zfloor (position delays cy i)))) (seq 0 128)) (seq 0 (channels h)) in
    sample_at 0 (if existsb (existsb (v_normal A)) chs then chs else silent_block A) c i = lerp (signal 0 h c) (IZR (128 * Z.of_nat Q + Z.of_nat i) - frames sr (delay_at delays i) cy)).
  { intros h cy c i Eh Ecy Hc H0 Hi chs. unfold chs. rewrite (output_exact h (position delays cy) Q H0 c i Hc Hi). destruct (position_range delays cy i Hd Hi) as [R1 R2]. rewrite lerp_signal.
    - unfold position. rewrite plus_IZR. f_equal. ring.
    - assert (IZR (Z.of_nat i) <= 127) by (apply IZR_le; lia). rewrite minus_IZR. subst h. unfold seen_hist, cyc' in *. destruct first.
      + rewrite orb_true_r in Ecy. subst cy. fold Q. lra.
      + unfold hist'. rewrite record_length. fold Q. replace (128 * Z.of_nat (S Q))%Z with (128 * Z.of_nat Q + 128)%Z by lia. rewrite plus_IZR. destruct cy; lra. }
  destruct first.
  - assert (Ec : d_in_cycle s || negb (match d_latest s with Some f => (f =? 128 * Z.of_nat Q)%Z | None => false end) = true).
    { destruct (d_latest s) as [f|] eqn:E; [|apply orb_true_r]. specialize (Yf f eq_refl). fold Q in Yf. destruct (Z.eqb_spec f (128 * Z.of_nat Q)); [lia|apply orb_true_r]. }
    pose proof (infos_nth delays true Q Hd) as [Li Ni]. cbv zeta in Li, Ni.
    destruct (reader_seen A sr N ltac:(lia) s hist delays (128 * Z.of_nat Q) (fun i => ((128 * Z.of_nat Q + Zfloor (position delays true i))%Z, position delays true i - IZR (Zfloor (position delays true i)))) I) as (s1 & E1 & I1 & L1 & R1 & C1 & D1 & K1).
    + rewrite Ec, Yr. exact Li.
    + intros i Hi. rewrite Ec, Yr. cbn [fst snd]. split; [exact (Ni i Hi)|]. apply (Pos hist (or_introl eq_refl) true i Hi).
    + rewrite Yk, Yl, Ec in *. cbv iota in *. rewrite E1. cbn [bind fst snd].
      destruct (writer_inv A remix remix_good remix_zeros N ltac:(lia) s1 hist input (128 * Z.of_nat Q) I1 Hi1 Hi2) as (s2 & E2 & I2 & L2 & R2 & C2 & D2 & K2). rewrite E2. cbn [bind]. do 2 eexists. split; [reflexivity|]. split.
      * split; [exact I2| | | |].
        -- unfold hist'. rewrite record_length, R2, R1, Yr. fold Q. replace (S Q) with (Q + 1)%nat by lia. symmetry. apply mod_S. lia.
        -- rewrite C2, C1. unfold cyc'. symmetry. apply orb_true_r.
        -- rewrite D2, D1, K2, K1. auto.
        -- rewrite L2. intros f E. assert (Ef : f = (128 * Z.of_nat Q)%Z) by congruence. rewrite Ef. unfold hist', Q. rewrite record_length. lia.
      * intros c i Hc Hi. replace cyc' with true by (unfold cyc'; symmetry; apply orb_true_r). refine (Out hist true c i eq_refl _ Hc (i_chan _ _ _ _ I) Hi). unfold cyc'. symmetry. apply orb_true_r.
  - destruct (writer_inv A remix remix_good remix_zeros N ltac:(lia) s hist input (128 * Z.of_nat Q) I Hi1 Hi2) as (s1 & E1 & I1 & L1 & R1 & C1 & D1 & K1). rewrite E1. cbn [bind].
    assert (Ec : d_in_cycle s1 || negb (match d_latest s1 with Some f => (f =? 128 * Z.of_nat Q)%Z | None => false end) = cyc). { rewrite L1, C1, Yc, Z.eqb_refl. apply orb_false_r. }
    pose proof (infos_nth delays cyc Q Hd) as [Li Ni]. cbv zeta in Li, Ni.
    destruct (reader_seen A sr N ltac:(lia) s1 hist' delays (128 * Z.of_nat Q) (fun i => ((128 * Z.of_nat Q + Zfloor (position delays cyc i))%Z, position delays cyc i - IZR (Zfloor (position delays cyc i)))) I1) as (s2 & E2 & I2 & L2 & R2 & C2 & D2 & K2).
    + rewrite Ec, R1, Yr. exact Li.
    + intros i Hi. rewrite Ec, R1, Yr. cbn [fst snd]. split; [exact (Ni i Hi)|]. apply (Pos hist' (or_intror (record_length remix hist input)) cyc i Hi).
    + rewrite K1, Yk, D1, Yl, Ec in *. cbv iota in *. rewrite E2. cbn [bind fst snd]. do 2 eexists. split; [reflexivity|]. split.
      * split; [exact I2| | | |].
        -- unfold hist'. rewrite record_length, R2, R1, Yr. fold Q. replace (S Q) with (Q + 1)%nat by lia. symmetry. apply mod_S. lia.
        -- rewrite C2. unfold cyc'. symmetry. apply orb_false_r.
        -- rewrite D2, K2. auto.
        -- rewrite L2, L1. intros f E. assert (Ef : f = (128 * Z.of_nat Q)%Z) by congruence. rewrite Ef. unfold hist', Q. rewrite record_length. lia.
      * intros c i Hc Hi. replace cyc' with cyc by (unfold cyc'; symmetry; apply orb_false_r). refine (Out hist' cyc c i eq_refl _ Hc (i_chan _ _ _ _ I1) Hi). unfold cyc'. symmetry. apply orb_false_r.
Qed.

Definition both (x : list (list R) * bool * list R) : @delay_action R := D_both (fst (fst x)) (snd (fst x)) (snd x).
Definition quantum_ok (x : list (list R) * bool * list R) : Prop := chan_ok (fst (fst x)) /\ delays_ok (snd x).
Notation inputs l := (map (fun x => fst (fst x)) l).
Notation cycles l := (existsb (fun x => snd (fst x)) l).

Lemma run_exact : forall l s hist cyc, sync s hist cyc -> Forall quantum_ok l ->
  exists s' os, delay_run A sr remix s (128 * Z.of_nat (length hist)) (map both l) = Ok (s', os) /\ sync s' (fold_left (record remix) (inputs l) hist) (cyc || cycles l) /\ length os = length l /\
    forall k x o, nth_error l k = Some x -> nth_error os k = Some o -> snd o = true /\
      let h := fold_left (record remix) (inputs (firstn (if snd (fst x) : bool then k else S k) l)) hist in
      forall c i, (c < channels h)%nat -> (i < 128)%nat ->
        sample_at 0 (fst o) c i = lerp (signal 0 h c) (IZR (128 * Z.of_nat (length hist + k) + Z.of_nat i) - frames sr (delay_at (snd x) i) (cyc || cycles (firstn (S k) l))).
Proof.
  induction l as [|[[input first] delays] l IH]; intros s hist cyc Y Hl.
  - do 2 eexists. split; [reflexivity|]. cbn [map fold_left existsb length]. rewrite orb_false_r. split; [exact Y|]. split; [reflexivity|]. intros k x o E. destruct k; discriminate.
  - apply Forall_cons_iff in Hl. destruct Hl as [[H1 H2] Hl]. cbn [fst snd] in H1, H2. destruct (both_exact s hist cyc input first delays Y H1 H2) as (s1 & out & E1 & Y1 & Out).
    destruct (IH s1 (record remix hist input) (cyc || first) Y1 Hl) as (s2 & os & E2 & Y2 & Len & Outs). cbn [map delay_run]. change (both (input, first, delays)) with (D_both input first delays). rewrite E1. cbn [bind fst snd].
    rewrite record_length in E2. change (Z.of_nat RQ) with 128%Z. replace (128 * Z.of_nat (length hist) + 128)%Z with (128 * Z.of_nat (S (length hist)))%Z by lia. rewrite E2. cbn [bind fst snd].
    do 2 eexists. split; [reflexivity|]. split; [cbn [fold_left existsb fst snd]; rewrite orb_assoc; exact Y2|]. split; [cbn [length app]; rewrite Len; reflexivity|].
    intros [|k] x o Ex Eo; cbn [nth_error app] in Ex, Eo.
    + injection Ex as <-. injection Eo as <-. cbn [fst snd]. split; [reflexivity|]. cbn [firstn existsb fst snd]. rewrite orb_false_r. rewrite Nat.add_0_r. cbv zeta. destruct first; exact Out.
    + destruct (Outs k x o Ex Eo) as [O1 O2]. split; [exact O1|]. cbv zeta in *. rewrite record_length in O2.
      assert (Eh : fold_left (record remix) (inputs (firstn (if snd (fst x) then S k else S (S k)) ((input, first, delays) :: l))) hist = fold_left (record remix) (inputs (firstn (if snd (fst x) then k else S k) l)) (record remix hist input)) by (destruct (snd (fst x)); reflexivity).
      rewrite Eh. intros c i Hc Hi. rewrite (O2 c i Hc Hi). f_equal. f_equal; [f_equal; lia|]. f_equal. change (firstn (S (S k)) ((input, first, delays) :: l)) with ((input, first, delays) :: firstn (S k) l). cbn [existsb fst snd]. symmetry. apply orb_assoc.
Qed.

Lemma sync_new : sync (delay_new N) [] false.
Proof using HN. clear remix_good remix_zeros Hmax. split; cbn [delay_new d_rindex d_in_cycle d_last d_checked d_latest length]; auto; [apply inv_new; lia|symmetry; apply Nat.mod_0_l; lia|discriminate]. Qed.

(** *** After the writer is gone *)

(** [j] quanta after the writer was dropped *)
Record tail (s : @delay R) (hist : list (list (list R))) (j : nat) : Prop := {
  l_inv : inv A N s hist;
  l_rindex : d_rindex s = ((length hist + j) mod N)%nat;
  l_last : d_last s = Some ((length hist + (N - 1)) mod N)%nat;
  l_checked : d_checked s = if (j =? 0)%nat then None else d_last s;
  l_latest : forall f, d_latest s = Some f -> (f < 128 * Z.of_nat (length hist))%Z
}.
Lemma drop_tail : forall s hist cyc, sync s hist cyc -> tail (drop_writer s) hist 0.
Proof using HN.
  clear remix_good remix_zeros Hmax. intros s hist cyc [I Yr Yc [Yl Yk] Yf]. split; cbn [drop_writer d_rindex d_last d_checked d_latest].
  - destruct I. split; assumption.
  - rewrite Nat.add_0_r. exact Yr.
  - f_equal. rewrite (i_cap _ _ _ _ I), (i_windex _ _ _ _ I). rewrite <- Nat.add_mod_idemp_l by lia. pose proof (Nat.mod_upper_bound (length hist) N ltac:(lia)). set (q := (length hist mod N)%nat) in *. destruct (Nat.eqb_spec q 0) as [->|Hq].
    + rewrite Nat.add_0_l, Nat.mod_small by lia. reflexivity.
    + replace (q + (N - 1))%nat with (q - 1 + 1 * N)%nat by lia. rewrite Nat.mod_add by lia. rewrite Nat.mod_small by lia. reflexivity.
  - exact Yk.
  - exact Yf.
Qed.
Lemma tail_finished : forall q j, (0 < j < N)%nat -> (((q + (N - 1)) mod N =? (q + j) mod N) = (j =? N - 1))%nat.
Proof using HN.
  clear remix_good remix_zeros Hmax. intros q j Hj. destruct (Nat.eqb_spec j (N - 1)) as [->|Hn]; [apply Nat.eqb_refl|]. apply Nat.eqb_neq. intros E. apply Hn.
  assert (Hm : (Z.of_nat (q + (N - 1)) mod Z.of_nat N = Z.of_nat (q + j) mod Z.of_nat N)%Z) by (rewrite <- !Nat2Z.inj_mod; f_equal; exact E).
  assert (Hz : ((Z.of_nat (q + (N - 1)) - Z.of_nat (q + j)) mod Z.of_nat N = 0)%Z) by (rewrite Zminus_mod, Hm, Z.sub_diag; reflexivity). rewrite Z.mod_small in Hz by lia. lia.
Qed.

Lemma tail_step : forall s hist j delays, tail s hist j -> (j < N)%nat -> delays_ok delays ->
  exists s' out, delay_step A sr remix s (128 * Z.of_nat (length hist + j)) (D_reader delays) = Ok (s', [(out, negb (j =? N - 1)%nat)]) /\ (S j < N -> tail s' hist (S j))%nat /\
    forall c i, (c < channels hist)%nat -> (i < 128)%nat -> sample_at 0 out c i = lerp (seen A N hist c) (IZR (128 * Z.of_nat (length hist + j) + Z.of_nat i) - frames sr (delay_at delays i) true).
Proof using Hsr HN Hmax.
  clear remix_good remix_zeros. intros s hist j delays [I Tr Tl Tk Tf] Hj Hd. set (Q := (length hist + j)%nat) in *. cbn [delay_step].
  assert (Ec : d_in_cycle s || negb (match d_latest s with Some f => (f =? 128 * Z.of_nat Q)%Z | None => false end) = true).
  { destruct (d_latest s) as [f|] eqn:E; [|apply orb_true_r]. specialize (Tf f eq_refl). destruct (Z.eqb_spec f (128 * Z.of_nat Q)); [unfold Q in *; lia|apply orb_true_r]. }
  pose proof (infos_nth delays true Q Hd) as [Li Ni]. cbv zeta in Li, Ni.
  assert (Fin : match d_checked s with Some i => (i =? d_rindex s)%nat | None => false end = (j =? N - 1)%nat).
  { rewrite Tk, Tl, Tr. destruct (Nat.eqb_spec j 0) as [->|Hz]; [symmetry; apply Nat.eqb_neq; lia|]. unfold Q. apply tail_finished. lia. }
  destruct (reader_seen A sr N ltac:(lia) s hist delays (128 * Z.of_nat Q) (fun i => ((128 * Z.of_nat Q + Zfloor (position delays true i))%Z, position delays true i - IZR (Zfloor (position delays true i)))) I) as (s1 & E1 & I1 & L1 & R1 & C1 & D1 & K1).
  - rewrite Ec, Tr. exact Li.
  - intros i Hi. rewrite Ec, Tr. cbn [fst snd]. split; [exact (Ni i Hi)|]. destruct (position_range delays true i Hd Hi) as [P1 P2]. set (p := position delays true i) in *.
    assert (Hp : (Zfloor p <= -1)%Z). { apply Z.lt_succ_r, lt_IZR. rewrite succ_IZR. pose proof (Zfloor_lb p). assert (IZR (Z.of_nat i) < 128) by (apply (IZR_lt _ 128); lia). lra. }
    split; [apply Z.div_le_lower_bound; unfold Q; lia|apply Z.div_lt_upper_bound; unfold Q; lia].
  - rewrite Fin in *. rewrite E1. cbn [bind fst snd]. do 2 eexists. split; [reflexivity|]. split.
    + intros Hs. assert (Ej : (j =? N - 1)%nat = false) by (apply Nat.eqb_neq; lia). rewrite Ej in R1. split; [exact I1| | | |].
      * rewrite R1, Tr. replace (length hist + S j)%nat with (Q + 1)%nat by (unfold Q; lia). symmetry. apply mod_S. lia.
      * rewrite D1. exact Tl.
      * rewrite K1, D1, Tk. cbn [Nat.eqb]. destruct (j =? 0)%nat; [reflexivity|]. rewrite Tl. reflexivity.
      * rewrite L1. exact Tf.
    + intros c i Hc Hi. cbn [fst snd]. rewrite (output_exact hist (position delays true) Q (i_chan _ _ _ _ I) c i Hc Hi). unfold position. f_equal. rewrite plus_IZR. ring.
Qed.

Lemma tail_run : forall l s hist j, tail s hist j -> (j + length l <= N)%nat -> Forall delays_ok l ->
  exists s' os, delay_run A sr remix s (128 * Z.of_nat (length hist + j)) (map D_reader l) = Ok (s', os) /\ length os = length l /\
    forall k delays o, nth_error l k = Some delays -> nth_error os k = Some o -> snd o = negb (j + k =? N - 1)%nat /\
      forall c i, (c < channels hist)%nat -> (i < 128)%nat -> sample_at 0 (fst o) c i = lerp (seen A N hist c) (IZR (128 * Z.of_nat (length hist + (j + k)) + Z.of_nat i) - frames sr (delay_at delays i) true).
Proof using Hsr HN Hmax.
  clear remix_good remix_zeros. induction l as [|delays l IH]; intros s hist j Tt Hj Hl.
  - do 2 eexists. split; [reflexivity|]. split; [reflexivity|]. intros k x o E. destruct k; discriminate.
  - apply Forall_cons_iff in Hl. destruct Hl as [H1 Hl]. cbn [length] in Hj. destruct (tail_step s hist j delays Tt ltac:(lia) H1) as (s1 & out & E1 & T1 & Out). cbn [map delay_run]. rewrite E1. cbn [bind fst snd].
    change (Z.of_nat RQ) with 128%Z. replace (128 * Z.of_nat (length hist + j) + 128)%Z with (128 * Z.of_nat (length hist + S j))%Z by lia.
    assert (Rest : exists s' os, delay_run A sr remix s1 (128 * Z.of_nat (length hist + S j)) (map D_reader l) = Ok (s', os) /\ length os = length l /\
      forall k delays o, nth_error l k = Some delays -> nth_error os k = Some o -> snd o = negb (S j + k =? N - 1)%nat /\
        forall c i, (c < channels hist)%nat -> (i < 128)%nat -> sample_at 0 (fst o) c i = lerp (seen A N hist c) (IZR (128 * Z.of_nat (length hist + (S j + k)) + Z.of_nat i) - frames sr (delay_at delays i) true)).
    { destruct l as [|d2 l]; [do 2 eexists; split; [reflexivity|]; split; [reflexivity|]; intros k x o E; destruct k; discriminate|]. apply IH; [apply T1; cbn [length] in Hj; lia|lia|exact Hl]. }
    destruct Rest as (s2 & os & E2 & Len & Outs). rewrite E2. cbn [bind fst snd]. do 2 eexists. split; [reflexivity|]. split; [cbn [length app]; rewrite Len; reflexivity|].
    intros [|k] x o Ex Eo; cbn [nth_error app] in Ex, Eo.
    + injection Ex as <-. injection Eo as <-. cbn [fst snd]. rewrite Nat.add_0_r. split; [reflexivity|exact Out].
    + replace (j + S k)%nat with (S j + k)%nat by lia. apply Outs; assumption.
Qed.
End Exact.
