(** Re-chunking preserves the samples. *)
From Coq Require Import List Arith Bool ZArith Lia Reals Lra.
From Flocq Require Import Core BinarySingleNaN.
From Verif Require Import Float_Model Float_Proofs Float_BoundProofs Buffer_Model Buffer_Spec Buffer_Proofs Buffer_ResampleProofs.
Import ListNotations.

(** ** Resampling keeps a buffer non-empty *)
Section Positive.
Local Open Scope R_scope.
Lemma resampled_length_pos : forall len s t, (0 < len)%nat -> (Z.of_nat len <= 2 ^ 40)%Z -> rate_ok s -> rate_ok t -> (0 < resampled_length len s t)%Z.
Proof.
  intros len s t H0 HL Hs Ht. destruct (rate_val s Hs) as [Fs Rs]. destruct (rate_val t Ht) as [Ft Rt]. unfold resampled_length.
  destruct (f64_of_Z_exact (Z.of_nat len)) as [El Fl]; [lia|].
  assert (B8 : bpow radix2 (-8) = / 256) by (cbn; lra).
  assert (G8 : generic_format radix2 (SpecFloat.fexp 53 1024) (bpow radix2 (-8))) by (apply generic_format_bpow; unfold SpecFloat.fexp, SpecFloat.emin; lia).
  assert (Bq : IZR 0 <= B2R (f64_of_f32 t) / B2R (f64_of_f32 s) <= IZR 256).
  { split; [unfold Rdiv; apply Rmult_le_pos; [lra|left; apply Rinv_0_lt_compat; lra]|]. apply div_le; lra. }
  assert (Lq : bpow radix2 (-8) <= B2R (f64_of_f32 t) / B2R (f64_of_f32 s)).
  { rewrite B8. apply Rmult_le_reg_r with (B2R (f64_of_f32 s)); [lra|]. unfold Rdiv. rewrite Rmult_assoc, Rinv_l by lra. lra. }
  destruct (div_between 53 1024 f64_prec f64_emax (f64_of_f32 t) (f64_of_f32 s) 0 256 Ft) as (F1 & E1 & R1); [lra|lia|lia|exact Bq|].
  unfold f64_div. set (q := Bdiv mode_NE (f64_of_f32 t) (f64_of_f32 s)) in *.
  assert (Q8 : bpow radix2 (-8) <= B2R q).
  { rewrite E1. apply (rnd_between 53 1024 f64_prec (bpow radix2 (-8)) (IZR 256)); [exact G8|apply (format_int 53 1024 f64_prec f64_emax 256); lia|split; [exact Lq|apply Bq]]. }
  assert (Pl : 1 <= IZR (Z.of_nat len) <= IZR (2 ^ 40)) by (split; [apply (IZR_le 1)|apply IZR_le]; lia).
  assert (Bp : IZR 0 <= B2R (f64_of_Z (Z.of_nat len)) * B2R q <= IZR (2 ^ 48)).
  { rewrite El. split; [apply Rmult_le_pos; lra|]. replace (2 ^ 48)%Z with (2 ^ 40 * 256)%Z by reflexivity. rewrite mult_IZR. apply Rmult_le_compat; lra. }
  destruct (mult_between 53 1024 f64_prec f64_emax (f64_of_Z (Z.of_nat len)) q 0 (2 ^ 48) Fl F1) as (F2 & E2 & R2); [lia|lia|exact Bp|].
  unfold f64_mul. set (p := Bmult mode_NE (f64_of_Z (Z.of_nat len)) q) in *. destruct (ceil_val 53 1024 f64_emax p) as [C1 C2].
  unfold f64_ceil. rewrite f64_to_usize_val by congruence. rewrite C1, Ztrunc_IZR.
  assert (P8 : bpow radix2 (-8) <= B2R p).
  { rewrite E2. apply (rnd_between 53 1024 f64_prec (bpow radix2 (-8)) (IZR (2 ^ 48))); [exact G8|apply (format_int 53 1024 f64_prec f64_emax (2 ^ 48)); lia|split; [|apply Bp]].
    rewrite El. rewrite <- (Rmult_1_l (bpow radix2 (-8))). apply Rmult_le_compat; lra. }
  assert (0 < Zceil (B2R p))%Z by (apply lt_IZR; apply Rlt_le_trans with (B2R p); [lra|apply Zceil_ub]). lia.
Qed.
End Positive.

Lemma resample_nonempty : forall c sr c', content_ok c -> rate_ok (c_rate c) -> rate_ok sr -> (Z.of_nat (c_length c) <= 2 ^ 40)%Z -> 0 < c_length c ->
  resample c sr = Ok c' -> 0 < c_length c'.
Proof.
  intros c sr c' [Ne F] Rc Rs HL H0 H. unfold resample in H. destruct (check _); try discriminate. cbn [bind] in H.
  destruct (nearly_equal _ _); [inversion H; subst; exact H0|]. destruct (c_length c =? 0) eqn:E0; [apply Nat.eqb_eq in E0; lia|].
  destruct (map_res _ _) as [chs| |] eqn:E; try discriminate. inversion H; subst.
  pose proof (resampled_length_pos (c_length c) (c_rate c) sr H0 HL Rc Rs) as P.
  destruct (map_res_forall _ _ _ (fun d => length d = Z.to_nat (resampled_length (c_length c) (c_rate c) sr)) _ _ E) as [Fd L].
  { intros x y Hx. unfold resample_channel in Hx. apply (map_res_forall _ _ _ (fun _ => True)) in Hx; [|intros; exact I]. destruct Hx as [_ Hx]. rewrite seq_length in Hx. exact Hx. }
  unfold c_length. cbn [c_channels]. destruct chs as [|d chs]; [destruct (c_channels c); [congruence|discriminate]|]. inversion Fd; subst. lia.
Qed.

(** ** Chunks *)
Section Rechunk.
Variables (sr : f32) (len ch : nat).
Hypothesis Hsr : rate_ok sr.
Hypothesis Hlen : 0 < len.
Hypothesis Hch : 1 <= ch <= 32.

(** a buffer with [ch] channels of length [n] at the output rate *)
Definition shaped (n : nat) (c : content) : Prop :=
  length (c_channels c) = ch /\ Forall (fun d => length d = n) (c_channels c) /\ c_rate c = sr.

Lemma shaped_length : forall n c, shaped n c -> c_length c = n.
Proof. intros n c (H1 & H2 & _). unfold c_length. destruct (c_channels c); [cbn in H1; lia|]. inversion H2; assumption. Qed.
Lemma shaped_channel : forall n c k, shaped n c -> k < ch -> length (channel k c) = n.
Proof. intros n c k (H1 & H2 & _) Hk. unfold channel. rewrite Forall_forall in H2. apply H2, nth_In. lia. Qed.

Lemma sr_eq : f32_eq sr sr = true.
Proof.
  unfold f32_eq. pose proof Hsr as H. unfold rate_ok, is_valid_sample_rate in H. apply andb_true_iff in H. destruct H as [H _].
  destruct (nan_le 24 128 _ _ H) as [_ N]. apply (eq_val 24 128); [exact N|exact N|reflexivity].
Qed.

Lemma extend_shaped : forall n m b c, shaped n b -> shaped m c ->
  exists b', extend_content b c = Ok b' /\ shaped (n + m) b' /\ forall k, k < ch -> channel k b' = channel k b ++ channel k c.
Proof.
  intros n m b c (L1 & F1 & R1) (L2 & F2 & R2). unfold extend_content. rewrite R1, R2, sr_eq. cbn [check bind]. rewrite L1, L2, Nat.eqb_refl. cbn [check bind].
  eexists. split; [reflexivity|]. split.
  - unfold shaped. cbn [c_channels c_rate]. rewrite map_length, combine_length. split; [lia|]. split; [|reflexivity].
    apply Forall_forall. intros d Hd. apply in_map_iff in Hd. destruct Hd as ([x y] & <- & Hxy). cbn. rewrite app_length. rewrite Forall_forall in F1, F2.
    rewrite (F1 x), (F2 y); [reflexivity|eapply in_combine_r; exact Hxy|eapply in_combine_l; exact Hxy].
  - intros k Hk. unfold channel. cbn [c_channels]. rewrite (nth_indep _ [] ((fun p : list f32 * list f32 => fst p ++ snd p) ([], []))) by (rewrite map_length, combine_length; lia).
    rewrite (map_nth (fun p : list f32 * list f32 => fst p ++ snd p)). rewrite combine_nth by lia. reflexivity.
Qed.

Lemma padding_shaped : forall n, 0 < n -> exists p, new_content ch n sr = Ok p /\ shaped n p /\ forall k, k < ch -> channel k p = repeat f32_zero n.
Proof.
  intros n Hn. unfold new_content. unfold rate_ok in Hsr. rewrite Hsr. rewrite (proj2 (Nat.ltb_lt 0 n) Hn). unfold is_valid_number_of_channels.
  rewrite (proj2 (Nat.ltb_lt 0 ch)), (proj2 (Nat.leb_le ch 32)) by lia. cbn [andb check bind]. eexists. split; [reflexivity|]. split.
  - unfold shaped. cbn [c_channels c_rate]. split; [apply repeat_length|]. split; [|reflexivity]. apply Forall_forall. intros d Hd. apply repeat_spec in Hd. subst. apply repeat_length.
  - intros k Hk. unfold channel. cbn [c_channels]. apply nth_error_nth. rewrite nth_error_repeat by lia. reflexivity.
Qed.

(** what is still to come: [rs] are the resampled buffers of the rest of the stream *)
Definition resamples (l rs : list content) : Prop := Forall2 (fun d r => resample d sr = Ok r /\ shaped (c_length r) r) l rs.
Definition rest (k : nat) (b : option content) (rs : list content) : list f32 :=
  match b with Some c => channel k c | None => [] end ++ concat (map (channel k) rs).
(** all that is to come is non-empty *)
Definition kept_ok (b : option content) : Prop := match b with Some c => exists n, 0 < n /\ shaped n c | None => True end.

Lemma channel_map : forall (f : list f32 -> list f32) c r k, k < length (c_channels c) -> channel k (mk_content (map f (c_channels c)) r) = f (channel k c).
Proof. intros f c r k H. unfold channel. cbn [c_channels]. rewrite (nth_indep _ [] (f [])) by (rewrite map_length; exact H). apply map_nth. Qed.

Lemma fill_spec : forall l rs b n, resamples l rs -> shaped n b ->
  exists chunk s', fill sr len b (map Data l) = Ok (Some (Some chunk), s') /\ shaped len chunk /\
    ((exists l' rs' b', s' = mk_rechunk (map Data l') b' /\ resamples l' rs' /\ incl rs' rs /\ length l' <= length l /\ kept_ok b' /\
        forall k, k < ch -> channel k b ++ concat (map (channel k) rs) = channel k chunk ++ rest k b' rs') \/
     (s' = mk_rechunk [] None /\ exists pad, 0 < pad <= len /\ (0 < n \/ Exists (fun r => 0 < c_length r) rs -> pad < len) /\
        forall k, k < ch -> channel k chunk = channel k b ++ concat (map (channel k) rs) ++ repeat f32_zero pad)).
Proof.
  induction l as [|d l IH]; intros rs b n Hr Hb; pose proof (shaped_length n b Hb) as Lb; inversion Hr as [|? r ? rs0 [Hd Hs] Hr']; subst.
  - cbn [map fill]. destruct (c_length b <? len) eqn:E.
    + apply Nat.ltb_lt in E. pose proof Hb as (L1 & _). rewrite L1. destruct (padding_shaped (len - c_length b)) as (p & Ep & Sp & Cp); [lia|]. rewrite Ep. cbn [bind].
      destruct (extend_shaped _ _ _ _ Hb Sp) as (b' & Ee & Se & Ce). rewrite Ee. cbn [bind]. exists b', (mk_rechunk [] None). split; [reflexivity|].
      split; [replace len with (c_length b + (len - c_length b)) at 1 by lia; exact Se|]. right. split; [reflexivity|]. exists (len - c_length b). split; [lia|]. split.
      * intros [H|H]; [lia|inversion H].
      * intros k Hk. cbn. rewrite (Ce k Hk), (Cp k Hk). reflexivity.
    + apply Nat.ltb_ge in E. destruct (c_length b =? len) eqn:E2.
      * apply Nat.eqb_eq in E2. exists b, (mk_rechunk [] None). split; [reflexivity|]. rewrite <- E2. split; [exact Hb|]. left. exists [], [], None.
        repeat split; try constructor; try lia; try (intros x []).
      * apply Nat.eqb_neq in E2. pose proof Hb as (L1 & F1 & R1). destruct (split_all (c_channels b) len) as (S1 & S2 & _). { eapply Forall_impl; [|exact F1]. cbn. intros a Ha. lia. }
        rewrite S1, S2. cbn [bind]. eexists _, _. split; [reflexivity|]. split.
        { unfold shaped. cbn [c_channels c_rate]. rewrite map_length. split; [exact L1|]. split; [|exact R1]. apply Forall_map. eapply Forall_impl; [|exact F1]. intros a Ha. cbn in *. apply firstn_length_le. lia. }
        left. exists [], [], (Some (mk_content (map (skipn len) (c_channels b)) (c_rate b))). split; [reflexivity|]. split; [constructor|]. split; [intros x []|]. split; [lia|]. split.
        { exists (c_length b - len). split; [lia|]. unfold shaped. cbn [c_channels c_rate]. rewrite map_length. split; [exact L1|]. split; [|exact R1]. apply Forall_map. eapply Forall_impl; [|exact F1]. intros a Ha. cbn in *. rewrite skipn_length. lia. }
        intros k Hk. unfold rest. rewrite !channel_map by lia. rewrite app_assoc, firstn_skipn. reflexivity.
  - cbn [map fill]. destruct (c_length b <? len) eqn:E.
    + apply Nat.ltb_lt in E. rewrite Hd. cbn [bind]. destruct (extend_shaped _ _ _ _ Hb Hs) as (b' & Ee & Se & Ce). rewrite Ee. cbn [bind].
      destruct (IH rs0 b' _ Hr' Se) as (chunk & s' & F & Sc & [C|C]); exists chunk, s'; (split; [exact F|]); (split; [exact Sc|]).
      * left. destruct C as (l' & rs' & kb & -> & R' & I' & Ln & K' & E'). exists l', rs', kb. split; [reflexivity|]. split; [exact R'|]. split; [intros x Hx; right; apply I'; exact Hx|].
        split; [cbn; lia|]. split; [exact K'|]. intros k Hk. cbn [map concat]. rewrite app_assoc, <- (Ce k Hk). apply E'. exact Hk.
      * right. destruct C as (-> & pad & P1 & P2 & P3). split; [reflexivity|]. exists pad. split; [exact P1|]. split.
        { intros [H|H]; [apply P2; left; lia|]. inversion H; subst; [apply P2; left; lia|apply P2; right; assumption]. }
        intros k Hk. rewrite (P3 k Hk), (Ce k Hk). cbn [map concat]. rewrite <- !app_assoc. reflexivity.
    + apply Nat.ltb_ge in E. destruct (c_length b =? len) eqn:E2.
      * apply Nat.eqb_eq in E2. exists b, (mk_rechunk (Data d :: map Data l) None). split; [reflexivity|]. rewrite <- E2. split; [exact Hb|]. left. exists (d :: l), (r :: rs0), None.
        repeat split; try assumption; try lia; try (intros x Hx; exact Hx).
      * apply Nat.eqb_neq in E2. pose proof Hb as (L1 & F1 & R1). destruct (split_all (c_channels b) len) as (S1 & S2 & _). { eapply Forall_impl; [|exact F1]. cbn. intros a Ha. lia. }
        rewrite S1, S2. cbn [bind]. eexists _, _. split; [reflexivity|]. split.
        { unfold shaped. cbn [c_channels c_rate]. rewrite map_length. split; [exact L1|]. split; [|exact R1]. apply Forall_map. eapply Forall_impl; [|exact F1]. intros a Ha. cbn in *. apply firstn_length_le. lia. }
        left. exists (d :: l), (r :: rs0), (Some (mk_content (map (skipn len) (c_channels b)) (c_rate b))). split; [reflexivity|]. split; [exact Hr|]. split; [intros x Hx; exact Hx|]. split; [lia|]. split.
        { exists (c_length b - len). split; [lia|]. unfold shaped. cbn [c_channels c_rate]. rewrite map_length. split; [exact L1|]. split; [|exact R1]. apply Forall_map. eapply Forall_impl; [|exact F1]. intros a Ha. cbn in *. rewrite skipn_length. lia. }
        intros k Hk. unfold rest. rewrite !channel_map by lia. rewrite !app_assoc, firstn_skipn. reflexivity.
Qed.

(** the state of a stream that is being drained *)
Definition measure (s : option content) (l rs : list content) : nat := length (rest 0 s rs) + length l.

Definition drained (l : list content) (rs : list content) (b : option content) (m : nat) : Prop :=
  exists chunks pad, (forall fuel, m <= fuel -> drain fuel sr len (mk_rechunk (map Data l) b) = Ok (map Some chunks)) /\
    Forall (shaped len) chunks /\ pad <= len /\ (Forall (fun r => 0 < c_length r) rs -> pad < len) /\
    forall k, k < ch -> concat (map (channel k) chunks) = rest k b rs ++ repeat f32_zero pad.

Lemma drain_spec : forall m l rs b, measure b l rs <= m -> resamples l rs -> kept_ok b -> drained l rs b (m + 2).
Proof.
  induction m as [m IH] using lt_wf_ind. intros l rs b Hm Hr Kb.
  assert (Step : forall b0 n l0 rs0, shaped n b0 -> resamples l0 rs0 -> next sr len (mk_rechunk (map Data l) b) = fill sr len b0 (map Data l0) ->
            length l0 <= length l -> (forall k, k < ch -> rest k b rs = channel k b0 ++ concat (map (channel k) rs0)) -> incl rs0 rs ->
            (0 < n \/ (l0 <> l /\ (Forall (fun r => 0 < c_length r) rs -> 0 < n))) -> drained l rs b (m + 2)).
  { intros b0 n l0 rs0 Sb Hr0 Hn Hl Hrest Hinc Hpos.
    destruct (fill_spec l0 rs0 b0 n Hr0 Sb) as (chunk & s' & F & Sc & [C|C]).
    - destruct C as (l' & rs' & kb & -> & R' & I' & Ln & K' & E').
      assert (Dec : measure kb l' rs' < measure b l rs).
      { unfold measure. rewrite (Hrest 0) by lia. rewrite (E' 0) by lia. rewrite app_length. rewrite (shaped_channel _ _ 0 Sc) by lia. lia. }
      destruct (IH (measure kb l' rs') ltac:(lia) l' rs' kb (le_n _) R' K') as (chunks & pad & D & Fc & P1 & P2 & P3).
      exists (chunk :: chunks), pad. split; [|split; [constructor; assumption|split; [exact P1|split]]].
      + intros [|fuel] Hf; [lia|]. cbn [drain]. rewrite Hn, F. cbn [bind fst snd]. rewrite D by lia. reflexivity.
      + intros Q. apply P2. apply Forall_forall. intros x Hx. rewrite Forall_forall in Q. apply Q, Hinc, I', Hx.
      + intros k Hk. cbn [map concat]. rewrite (P3 k Hk), (Hrest k Hk), (E' k Hk), app_assoc. reflexivity.
    - destruct C as (-> & pad & P1 & P2 & P3). exists [chunk], pad. split; [|split; [constructor; [exact Sc|constructor]|split; [lia|split]]].
      + intros [|[|fuel]] Hf; [lia|lia|]. cbn [drain]. rewrite Hn, F. cbn [bind fst snd]. cbn. reflexivity.
      + intros Q. apply P2. destruct Hpos as [Hp|[_ Hp]]; [left; exact Hp|left; apply Hp; exact Q].
      + intros k Hk. cbn [map concat]. rewrite app_nil_r, (P3 k Hk), (Hrest k Hk), app_assoc. reflexivity. }
  destruct b as [b0|].
  - destruct Kb as (n & Hn & Sb). apply (Step b0 n l rs Sb Hr); [reflexivity|lia|intros; reflexivity|intros x Hx; exact Hx|left; exact Hn].
  - inversion Hr as [|d r l0 rs0 [Hd Hs] Hr']; subst.
    + exists [], 0. split; [|split; [constructor|split; [lia|split; [intros; exact Hlen|intros; reflexivity]]]].
      intros [|fuel] Hf; [lia|]. reflexivity.
    + apply (Step r (c_length r) l0 rs0 Hs Hr').
      * cbn [next map r_buffer r_input]. rewrite Hd. reflexivity.
      * cbn. lia.
      * intros k Hk. reflexivity.
      * intros x Hx. right. exact Hx.
      * right. split; [|intros Q; inversion Q; assumption]. intros E. apply (f_equal (@length _)) in E. cbn in E. lia.
Qed.
End Rechunk.

(** ** The whole stream *)
Lemma rechunk_all : forall sr len ch l, rate_ok sr -> 0 < len -> 1 <= ch <= 32 -> source_ok ch l ->
  Forall (fun c => rate_ok (c_rate c) /\ (Z.of_nat (c_length c) <= 2 ^ 40)%Z) l ->
  exists rs chunks pad steps,
    Forall2 (fun d r => resample d sr = Ok r) l rs /\
    (forall fuel, steps <= fuel -> drain fuel sr len (mk_rechunk (map Data l) None) = Ok (map Some chunks)) /\
    Forall (fun c => length (c_channels c) = ch /\ Forall (fun d => length d = len) (c_channels c) /\ c_rate c = sr) chunks /\
    pad <= len /\ (Forall (fun c => 0 < c_length c) l -> pad < len) /\
    forall k, k < ch -> concat (map (channel k) chunks) = concat (map (channel k) rs) ++ repeat f32_zero pad.
Proof.
  intros sr len ch l Hsr Hlen Hch Hs Hb.
  assert (R : exists rs, resamples sr ch l rs /\ (Forall (fun c => 0 < c_length c) l -> Forall (fun r => 0 < c_length r) rs)).
  { clear Hlen. unfold source_ok in Hs. induction l as [|d l IH]; [exists []; split; constructor|]. apply Forall_cons_iff in Hs. destruct Hs as [[S1 S2] Hs']. apply Forall_cons_iff in Hb. destruct Hb as [[B1 B2] Hb'].
    destruct (IH Hs' Hb') as (rs & R1 & R2).
    assert (Cok : content_ok d) by (split; [intros E; rewrite E in S1; cbn in S1; lia|exact S2]). destruct (resample_ok d sr Cok B1 Hsr B2) as (r & Hr).
    destruct (resample_content_ok d sr r Cok Hr) as ((Ne & F) & Rr & Lr). exists (r :: rs). split.
    - constructor; [|exact R1]. split; [exact Hr|]. unfold shaped. split; [congruence|]. split; [exact F|exact Rr].
    - intros Q. apply Forall_cons_iff in Q. destruct Q as [Q1 Q2]. constructor; [|apply R2; assumption]. eapply (resample_nonempty d sr r); eassumption. }
  destruct R as (rs & R1 & R2). destruct (drain_spec sr len ch Hsr Hlen Hch (measure None l rs) l rs None (le_n _) R1 I) as (chunks & pad & D & Fc & P1 & P2 & P3).
  exists rs, chunks, pad, (measure None l rs + 2). split; [|split; [exact D|split; [exact Fc|split; [exact P1|split; [intros Q; apply P2, R2, Q|exact P3]]]]].
  clear - R1. induction R1 as [|d r l rs [H1 H2]]; constructor; assumption.
Qed.

Lemma resample_same : forall c, rate_ok (c_rate c) -> resample c (c_rate c) = Ok c.
Proof.
  intros [chs r] H. cbn [c_rate] in *. unfold resample. cbn [c_rate c_channels]. pose proof H as H'. unfold rate_ok in H'. rewrite H'. cbn [check bind].
  unfold nearly_equal. rewrite (sr_eq r H). reflexivity.
Qed.
