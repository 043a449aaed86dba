(** Proofs for Decode_Props.v *)
From Coq Require Import List Arith Bool ZArith Reals Lia.
From Flocq Require Import BinarySingleNaN.
From Verif Require Import Float_Model Float_Proofs Quantum_Model Buffer_Model Buffer_Spec Buffer_Proofs Buffer_ResampleProofs Buffer_RechunkProofs Float_BoundProofs Element_Model Element_Proofs Decode_Model Decode_Spec.
Import ListNotations.

(** ** Decoding *)

(** what the loop sees, up to the first error *)
Fixpoint seen (ds : list decoded) : list (option content) :=
  match ds with
  | [] => []
  | Samples r c :: ds' => Some (from_packet r c) :: seen ds'
  | Corrupt :: ds' => seen ds'
  | Fatal :: ds' => None :: seen ds'
  end.

Lemma loop_seen track : forall l sr b, decode_loop (media_decoder track l) sr b = decode_loop (seen (readable track l)) sr b.
Proof.
  induction l as [|x l IH]; intros sr b; [reflexivity|]. destruct x as [| | |t d]; try reflexivity.
  cbn [media_decoder readable]. destruct (t =? track); [|apply IH]. destruct d; cbn [seen decode_loop]; [|apply IH|reflexivity].
  destruct (match sr with Some rate => _ | None => _ end); [reflexivity|]. destruct b as [b|]; [|apply IH].
  destruct (negb _); [reflexivity|]. destruct (extend_content _ _); try reflexivity. apply IH.
Qed.

Lemma f32_of_Z_eq a b : (0 < a <= 2 ^ 24)%Z -> (0 < b <= 2 ^ 24)%Z -> f32_eq (f32_of_Z a) (f32_of_Z b) = (a =? b)%Z.
Proof.
  intros A B. assert (E : forall z, (0 < z <= 2 ^ 24)%Z -> B2R (f32_of_Z z) = IZR z /\ is_finite (f32_of_Z z) = true).
  { intros z Z1. apply (of_Z_exact 24 128 f32_prec f32_emax z). lia. }
  destruct (E a A) as [Ea Fa]. destruct (E b B) as [Eb Fb].
  assert (Nf : forall x : f32, is_finite x = true -> is_nan x = false) by (intros []; cbn; congruence).
  assert (Vf : forall x : f32, is_finite x = true -> val 24 128 x = B2R x) by (intros [| | |]; cbn; congruence).
  pose proof (eq_val 24 128 (f32_of_Z a) (f32_of_Z b) (Nf _ Fa) (Nf _ Fb)) as V.
  rewrite (Vf _ Fa), (Vf _ Fb), Ea, Eb in V. unfold f32_eq.
  destruct (Z.eqb_spec a b) as [->|N].
  - apply V. reflexivity.
  - apply not_true_iff_false. intros Q. apply V in Q. apply eq_IZR in Q. contradiction.
Qed.

(** packets that agree with what came before are appended, in order *)

Lemma agrees_shaped r ch p : 0 < ch -> agrees r ch p -> shaped (f32_of_Z r) ch (frames p) (from_packet (fst p) (snd p)).
Proof. intros C (R & L & _ & W). unfold shaped, from_packet. cbn [c_channels c_rate]. split; [exact L|]. split; [exact W|]. now rewrite R. Qed.

Lemma extend_any sr ch n m b c : f32_eq sr sr = true -> shaped sr ch n b -> shaped sr ch m c ->
  exists b', extend_content b c = Ok b' /\ shaped sr ch (n + m) b' /\ forall k, k < ch -> channel k b' = channel k b ++ channel k c.
Proof.
  intros Q (L1 & F1 & R1) (L2 & F2 & R2). unfold extend_content. rewrite R1, R2, Q. cbn [check bind]. rewrite L1, L2, Nat.eqb_refl. cbn [check bind].
  eexists. split; [reflexivity|]. split.
  - unfold shaped. cbn [c_channels c_rate]. rewrite map_length, combine_length. split; [lia|]. split; [|reflexivity].
    apply Forall_forall. intros d Hd. apply in_map_iff in Hd. destruct Hd as ([x y] & <- & Hxy). cbn. rewrite app_length. rewrite Forall_forall in F1, F2.
    rewrite (F1 x), (F2 y); [reflexivity|eapply in_combine_r; exact Hxy|eapply in_combine_l; exact Hxy].
  - intros k Hk. unfold channel. cbn [c_channels]. rewrite (nth_indep _ [] ((fun p : list f32 * list f32 => fst p ++ snd p) ([], []))) by (rewrite map_length, combine_length; lia).
    rewrite (map_nth (fun p : list f32 * list f32 => fst p ++ snd p)). rewrite combine_nth by lia. reflexivity.
Qed.

Lemma loop_appends r ch : (0 < r <= 2 ^ 24)%Z -> 0 < ch -> forall ds n b, ~ In Fatal ds -> Forall (agrees r ch) (pieces ds) -> shaped (f32_of_Z r) ch n b ->
  exists b', decode_loop (seen ds) (Some (f32_of_Z r)) (Some b) = Ok (Some (Some b')) /\ shaped (f32_of_Z r) ch (n + total (pieces ds)) b' /\
    forall k, k < ch -> channel k b' = channel k b ++ concat (map (fun p => nth k (snd p) []) (pieces ds)).
Proof.
  intros Pr Hc. induction ds as [|d ds IH]; intros n b NF F Sb.
  - exists b. split; [reflexivity|]. split; [cbn; now rewrite Nat.add_0_r|]. intros k K. cbn. now rewrite app_nil_r.
  - assert (NF' : ~ In Fatal ds) by (intros Q; apply NF; right; exact Q). destruct d as [r' c| |].
    + cbn [pieces flat_map app] in F. apply Forall_cons_iff in F. destruct F as [A F].
      pose proof (agrees_shaped r ch _ Hc A) as Sc. cbn [fst snd] in Sc.
      cbn [seen decode_loop]. destruct A as (R & L & W). cbn [fst snd] in R, L. subst r'. change (c_rate (from_packet r c)) with (f32_of_Z r). rewrite f32_of_Z_eq by exact Pr. rewrite Z.eqb_refl. cbn [negb].
      change (c_channels (from_packet r c)) with c. rewrite (proj1 Sb), L, Nat.eqb_refl. cbn [negb].
      destruct (extend_any (f32_of_Z r) ch n _ b _ (eq_trans (f32_of_Z_eq r r Pr Pr) (Z.eqb_refl r)) Sb Sc) as (b1 & E1 & S1 & C1). rewrite E1. cbn [bind].
      destruct (IH _ b1 NF' F S1) as (b' & D & S' & C'). exists b'. split; [exact D|]. split.
      * cbn [pieces flat_map app total]. fold (pieces ds). now rewrite Nat.add_assoc.
      * intros k K. rewrite (C' k K), (C1 k K), <- app_assoc. reflexivity.
    + destruct (IH n b NF' F Sb) as (b' & D). exists b'. exact D.
    + destruct NF. left. reflexivity.
Qed.

(** anything else stops it *)
Lemma loop_rejects r ch : (0 < r <= 2 ^ 24)%Z -> forall ds b, Forall plain_rate (pieces ds) -> c_rate b = f32_of_Z r -> length (c_channels b) = ch ->
  In Fatal ds \/ (exists p, In p (pieces ds) /\ (fst p <> r \/ length (snd p) <> ch)) -> decode_loop (seen ds) (Some (f32_of_Z r)) (Some b) = Ok None.
Proof.
  intros Pr. induction ds as [|d ds IH]; intros b F R L H.
  - destruct H as [[]|(p & [] & _)].
  - destruct d as [r' c| |]; cbn [seen decode_loop].
    + cbn [pieces flat_map app] in F. apply Forall_cons_iff in F. destruct F as [A F]. unfold plain_rate in A. cbn [fst] in A.
      change (c_rate (from_packet r' c)) with (f32_of_Z r'). rewrite f32_of_Z_eq by assumption. destruct (Z.eqb_spec r r') as [<-|N]; [|reflexivity]. cbn [negb].
      change (c_channels (from_packet r c)) with c. destruct (Nat.eqb_spec (length (c_channels b)) (length c)) as [Lc|N]; [|reflexivity]. cbn [negb].
      unfold extend_content, from_packet. cbn [c_rate c_channels]. rewrite R, f32_of_Z_eq, Z.eqb_refl by assumption. cbn [check bind]. rewrite Lc, Nat.eqb_refl. cbn [check bind].
      apply IH; [exact F|reflexivity|cbn [c_channels]; rewrite map_length, combine_length; lia|].
      destruct H as [[Q|Q]|(p & Q & Dp)]; [discriminate|left; exact Q|]. cbn [pieces flat_map app] in Q. destruct Q as [<-|Q].
      * cbn [fst snd] in Dp. destruct Dp; [contradiction|]. lia.
      * right. exists p. split; [exact Q|exact Dp].
    + apply IH; try assumption. destruct H as [[Q|Q]|Q]; [discriminate|left; exact Q|right; exact Q].
    + reflexivity.
Qed.

(** the first packet with samples sets rate and channels *)
Lemma loop_none : forall ds, pieces ds = [] -> ~ In Fatal ds -> decode_loop (seen ds) None None = Ok (Some None).
Proof.
  induction ds as [|d ds IH]; intros P NF; [reflexivity|]. destruct d; [discriminate| |destruct NF; left; reflexivity].
  apply IH; [exact P|]. intros Q. apply NF. right. exact Q.
Qed.
Lemma loop_first : forall ds p ps, pieces ds = p :: ps -> exists pre post, ds = pre ++ Samples (fst p) (snd p) :: post /\ pieces pre = [] /\ pieces post = ps /\
  (In Fatal pre -> decode_loop (seen ds) None None = Ok None) /\
  (~ In Fatal pre -> decode_loop (seen ds) None None = decode_loop (seen post) (Some (f32_of_Z (fst p))) (Some (from_packet (fst p) (snd p)))).
Proof.
  induction ds as [|d ds IH]; intros p ps P; [discriminate|]. destruct d as [r c| |].
  - cbn [pieces flat_map app] in P. assert (p = (r, c)) by congruence. subst p. exists [], ds. cbn [fst snd]. repeat split; [|intros []]. unfold pieces. congruence.
  - destruct (IH p ps P) as (pre & post & -> & P1 & P2 & H1 & H2). exists (Corrupt :: pre), post. repeat split; try assumption.
    + intros [Q|Q]; [discriminate|]. apply H1, Q.
    + intros Q. apply H2. intros Q'. apply Q. right. exact Q'.
  - destruct (IH p ps P) as (pre & post & -> & P1 & P2 & _ & _). exists (Fatal :: pre), post. repeat split; try assumption.
    intros Q. destruct Q. left. reflexivity.
Qed.

Lemma pieces_app a b : pieces (a ++ b) = pieces a ++ pieces b.
Proof. apply flat_map_app. Qed.

Lemma shaped_joined sr ch n b ps : shaped sr ch n b -> (forall k, k < ch -> channel k b = concat (map (fun p => nth k (snd p) []) ps)) -> b = mk_content (joined ch ps) sr.
Proof.
  intros (L & _ & R) C. destruct b as [cs r]. cbn [c_channels c_rate] in *. subst r. f_equal. apply (nth_ext _ _ [] []).
  - unfold joined. now rewrite map_length, seq_length.
  - intros k K. rewrite L in K. change (nth k cs []) with (channel k (mk_content cs sr)). rewrite (C k K). symmetry. apply nth_error_nth. unfold joined.
    apply (map_nth_error (fun k => concat (map (fun p : Z * list (list f32) => nth k (snd p) []) ps))). rewrite (nth_error_nth' _ 0) by (rewrite seq_length; exact K). now rewrite seq_nth.
Qed.

Lemma decode_all track l target r ch : rate_ok target -> rate_ok (f32_of_Z r) -> (0 < r <= 2 ^ 24)%Z -> 0 < ch ->
  let ps := pieces (readable track l) in
  ~ In Fatal (readable track l) -> ps <> [] -> Forall (agrees r ch) ps -> (Z.of_nat (total ps) <= 2 ^ 40)%Z ->
  exists b, resample (mk_content (joined ch ps) (f32_of_Z r)) target = Ok b /\ decode_media_data track l target = Ok (Some b) /\
    c_rate b = target /\ length (c_channels b) = ch /\ content_ok b.
Proof.
  intros Ht Hr Pr Hc ps NF Ne F HL. destruct ps as [|p qs] eqn:P; [congruence|]. subst ps.
  destruct (loop_first _ _ _ P) as (pre & post & E & P1 & P2 & _ & H). rewrite E in NF.
  assert (NF1 : ~ In Fatal pre) by (intros Q; apply NF, in_or_app; left; exact Q).
  assert (NF2 : ~ In Fatal post) by (intros Q; apply NF, in_or_app; right; right; exact Q).
  apply Forall_cons_iff in F. destruct F as [A F]. pose proof (agrees_shaped r ch p Hc A) as S0. rewrite <- P2 in F.
  destruct (loop_appends r ch Pr Hc post _ _ NF2 F S0) as (b0 & D & S1 & C).
  assert (B0 : b0 = mk_content (joined ch (p :: qs)) (f32_of_Z r)).
  { apply (shaped_joined _ _ _ _ _ S1). intros k K. rewrite (C k K), P2. reflexivity. }
  assert (Ok0 : content_ok b0 /\ c_length b0 = total (p :: qs)).
  { destruct S1 as (L1 & F1 & _). rewrite P2 in F1. cbn [total]. assert (Q : c_length b0 = frames p + total qs).
    { unfold c_length. destruct (c_channels b0); [cbn in L1; lia|]. apply Forall_inv in F1. exact F1. }
    split; [|exact Q]. split; [destruct (c_channels b0); [cbn in L1; lia|discriminate]|]. rewrite Q. exact F1. }
  destruct Ok0 as [Ok0 L0]. rewrite <- B0. assert (R0 : c_rate b0 = f32_of_Z r) by (rewrite B0; reflexivity).
  destruct (resample_ok b0 target Ok0) as (b & Rb); [rewrite R0; exact Hr|exact Ht|rewrite L0; exact HL|].
  exists b. split; [exact Rb|]. split.
  - unfold decode_media_data. rewrite loop_seen, (H NF1). destruct A as (A1 & _). rewrite A1 in *. rewrite D. cbn [bind]. rewrite Rb. reflexivity.
  - destruct (resample_content_ok _ _ _ Ok0 Rb) as (C1 & C2 & C3). split; [exact C2|]. split; [|exact C1]. rewrite C3. apply (proj1 S1).
Qed.

Lemma decode_nothing track l target : rate_ok target -> ~ In Fatal (readable track l) -> pieces (readable track l) = [] ->
  decode_media_data track l target = Ok (Some (mk_content [[]] target)).
Proof.
  intros Ht NF P. unfold decode_media_data. rewrite loop_seen, (loop_none _ P NF). cbn [bind].
  unfold from_samples. pose proof Ht as Ht'. unfold rate_ok in Ht'. rewrite Ht'. cbn [check bind length is_valid_number_of_channels forallb Nat.eqb andb Nat.ltb Nat.leb].
  pose proof (resample_same (mk_content [[]] target) Ht) as Q. cbn [c_rate] in Q. rewrite Q. reflexivity.
Qed.

Lemma decode_rejects track l target : Forall plain_rate (pieces (readable track l)) ->
  In Fatal (readable track l) \/
  (exists p q, In p (pieces (readable track l)) /\ In q (pieces (readable track l)) /\ (fst p <> fst q \/ length (snd p) <> length (snd q))) ->
  decode_media_data track l target = Ok None.
Proof.
  intros F H. unfold decode_media_data. rewrite loop_seen. enough (Q : decode_loop (seen (readable track l)) None None = Ok None) by (rewrite Q; reflexivity).
  set (ds := readable track l) in *. clearbody ds. destruct (pieces ds) as [|p0 qs] eqn:P.
  - destruct H as [H|(p & q & [] & _)]. clear F. induction ds as [|d ds IH]; [destruct H|]. destruct d; [discriminate| |reflexivity].
    apply IH; [exact P|]. destruct H as [H|H]; [discriminate|exact H].
  - destruct (loop_first _ _ _ P) as (pre & post & E & P1 & P2 & H1 & H2).
    assert (Dec : {In Fatal pre} + {~ In Fatal pre}).
    { clear. induction pre as [|d pre IH]; [right; intros []|]. destruct d; [|destruct IH as [IH|IH]; [left; right; exact IH|right; intros [Q|Q]; [discriminate|tauto]]|left; left; reflexivity].
      destruct IH as [IH|IH]; [left; right; exact IH|right; intros [Q|Q]; [discriminate|tauto]]. }
    destruct Dec as [D|D]; [exact (H1 D)|]. rewrite (H2 D). apply Forall_cons_iff in F. destruct F as [F0 F]. rewrite <- P2 in F.
    apply (loop_rejects (fst p0) (length (snd p0)) F0); [exact F|reflexivity|reflexivity|]. destruct H as [H|(p & q & Ip & Iq & N)].
    + left. rewrite E in H. apply in_app_or in H. destruct H as [H|[H|H]]; [contradiction|discriminate|exact H].
    + right. rewrite P2. destruct Ip as [<-|Ip]; destruct Iq as [<-|Iq].
      * destruct N; congruence.
      * exists q. split; [exact Iq|]. destruct N; [left|right]; congruence.
      * exists p. split; [exact Ip|exact N].
      * destruct (Z.eq_dec (fst p) (fst p0)) as [Ep|Ep]; [|exists p; split; [exact Ip|left; exact Ep]].
        destruct (Nat.eq_dec (length (snd p)) (length (snd p0))) as [Lp|Lp]; [|exists p; split; [exact Ip|right; exact Lp]].
        exists q. split; [exact Iq|]. destruct N; [left|right]; congruence.
Qed.

Lemma pieces_dec (ds : list decoded) : {In Fatal ds} + {~ In Fatal ds}.
Proof.
  induction ds as [|d ds IH]; [right; intros []|]. destruct d; [| |left; left; reflexivity];
    (destruct IH as [IH|IH]; [left; right; exact IH|right; intros [Q|Q]; [discriminate|exact (IH Q)]]).
Qed.
Lemma same_dec (p0 : Z * list (list f32)) : forall ps : list (Z * list (list f32)), (forall p, In p ps -> fst p = fst p0 /\ length (snd p) = length (snd p0)) \/ (exists p, In p ps /\ (fst p <> fst p0 \/ length (snd p) <> length (snd p0))).
Proof.
  induction ps as [|p ps IH]; [left; intros p []|]. destruct (Z.eq_dec (fst p) (fst p0)) as [Ep|Ep]; [|right; exists p; split; [left; reflexivity|left; exact Ep]].
  destruct (Nat.eq_dec (length (snd p)) (length (snd p0))) as [Lp|Lp]; [|right; exists p; split; [left; reflexivity|right; exact Lp]].
  destruct IH as [IH|(q & Iq & N)]; [left; intros q [<-|Q]; [split; assumption|apply IH, Q]|right; exists q; split; [right; exact Iq|exact N]].
Qed.

Lemma decode_total track l target : rate_ok target -> let ps := pieces (readable track l) in
  Forall (fun p => whole p /\ plain_rate p /\ rate_ok (f32_of_Z (fst p))) ps -> (Z.of_nat (total ps) <= 2 ^ 40)%Z ->
  decode_media_data track l target = Ok None \/ exists b, decode_media_data track l target = Ok (Some b) /\ content_ok b /\ c_rate b = target.
Proof.
  intros Ht ps F HL. assert (Fp : Forall plain_rate ps) by (eapply Forall_impl; [|exact F]; intros p; tauto).
  destruct (pieces_dec (readable track l)) as [D|D]; [left; apply decode_rejects; [exact Fp|left; exact D]|].
  destruct ps as [|p0 qs] eqn:P; subst ps.
  - right. exists (mk_content [[]] target). split; [apply decode_nothing; assumption|]. split; [|reflexivity]. split; [discriminate|]. repeat constructor.
  - destruct (same_dec p0 (p0 :: qs)) as [Sm|(p & Ip & N)].
    + right. pose proof (Forall_inv F) as (W & Pl & Rk). destruct (decode_all track l target (fst p0) (length (snd p0)) Ht Rk Pl) as (b & _ & B2 & B3 & _ & B5).
      * destruct W as [W _]. destruct (snd p0); [congruence|cbn; lia].
      * exact D.
      * rewrite P. discriminate.
      * rewrite P. apply Forall_forall. intros p Ip. destruct (Sm p Ip) as [S1 S2]. split; [exact S1|]. split; [exact S2|]. rewrite Forall_forall in F. apply (F p Ip).
      * rewrite P. exact HL.
      * exists b. split; [exact B2|]. split; [exact B5|exact B3].
    + left. apply decode_rejects; [rewrite P; exact Fp|]. right. exists p, p0. rewrite P. split; [exact Ip|]. split; [left; reflexivity|exact N].
Qed.

Lemma no_fatal ds : forallb (fun d => match d with Fatal => false | _ => true end) ds = true -> ~ In Fatal ds.
Proof. intros H Q. rewrite forallb_forall in H. discriminate (H _ Q). Qed.
