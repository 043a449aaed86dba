(** The node of a media element or a media stream: proofs *)
From Coq Require Import List Arith Bool ZArith Lia.
From Flocq Require Import IEEE754.BinarySingleNaN.
From Verif Require Import Float_Model Quantum_Model Buffer_Model Buffer_Spec Buffer_Proofs Buffer_ResampleProofs Buffer_RechunkProofs
  Element_Model Element_Spec Element_Proofs.
Import ListNotations.

Section Node.
Variables (sr : f32) (ch : nat).
Hypothesis Hsr : rate_ok sr.
Hypothesis Hch : 1 <= ch <= 32.
Let len := 128.

Notation shaped := (Buffer_RechunkProofs.shaped sr ch).
Notation resamples := (Buffer_RechunkProofs.resamples sr ch).
Notation kept_ok := (Buffer_RechunkProofs.kept_ok sr ch).
Notation rest := (Buffer_RechunkProofs.rest).
Definition total (rs : list content) : nat := length (concat (map (channel 0) rs)).

Lemma len_pos : 0 < len. Proof. unfold len. lia. Qed.
Let sh_length := shaped_length sr len ch len_pos Hch.
Let sh_channel := shaped_channel sr len ch len_pos Hch.
Let ext_shaped := extend_shaped sr len ch Hsr len_pos Hch.

(** as long as there are enough frames, what comes after the data does not matter *)
Lemma fill_data tail : forall l rs b n, resamples l rs -> shaped n b -> len <= n + total rs ->
  exists chunk l' rs' b', fill sr len b (map Data l ++ tail) = Ok (Some (Some chunk), mk_rechunk (map Data l' ++ tail) b') /\
    shaped len chunk /\ resamples l' rs' /\ kept_ok b' /\
    forall k, k < ch -> channel k b ++ concat (map (channel k) rs) = channel k chunk ++ rest k b' rs'.
Proof.
  assert (Full : forall l rs b n, resamples l rs -> shaped n b -> len <= n ->
    exists chunk l' rs' b', fill sr len b (map Data l ++ tail) = Ok (Some (Some chunk), mk_rechunk (map Data l' ++ tail) b') /\
    shaped len chunk /\ resamples l' rs' /\ kept_ok b' /\
    forall k, k < ch -> channel k b ++ concat (map (channel k) rs) = channel k chunk ++ rest k b' rs').
  { intros l rs b n Hr Hb E. pose proof (sh_length n b Hb) as Lb.
    assert (U : fill sr len b (map Data l ++ tail) = if c_length b =? len then Ok (Some (Some b), mk_rechunk (map Data l ++ tail) None)
      else do first <- map_res (split_channel len) (c_channels b);
        do rest <- map_res (split_rest len) (c_channels b);
        Ok (Some (Some (mk_content first (c_rate b))), mk_rechunk (map Data l ++ tail) (Some (mk_content rest (c_rate b))))).
    { destruct (map Data l ++ tail); cbn [fill]; replace (c_length b <? len) with false by (symmetry; apply Nat.ltb_ge; lia); reflexivity. }
    rewrite U. destruct (c_length b =? len) eqn:E2.
    - apply Nat.eqb_eq in E2. exists b, l, rs, None. split; [reflexivity|]. split; [rewrite <- E2, Lb; exact Hb|]. split; [exact Hr|]. split; [exact Logic.I|].
      intros k Hk. reflexivity.
    - apply Nat.eqb_neq in E2. pose proof Hb as (L1 & F1 & R1). destruct (split_all (c_channels b) len) as (S1 & S2 & _). { eapply Forall_impl; [|exact F1]. cbn beta. intros a Ha. lia. }
      rewrite S1, S2. cbn [bind]. exists (mk_content (map (firstn len) (c_channels b)) (c_rate b)), l, rs, (Some (mk_content (map (skipn len) (c_channels b)) (c_rate b))).
      split; [reflexivity|]. split; [|split; [exact Hr|split]].
      + unfold Buffer_RechunkProofs.shaped. cbn [c_channels c_rate]. rewrite map_length. split; [exact L1|]. split; [|exact R1]. apply Forall_map. eapply Forall_impl; [|exact F1].
        intros a Ha. cbv beta in *. apply firstn_length_le. lia.
      + exists (c_length b - len). split; [lia|]. unfold Buffer_RechunkProofs.shaped. cbn [c_channels c_rate]. rewrite map_length. split; [exact L1|]. split; [|exact R1].
        apply Forall_map. eapply Forall_impl; [|exact F1]. intros a Ha. cbv beta in *. rewrite skipn_length. lia.
      + intros k Hk. unfold Buffer_RechunkProofs.rest. rewrite !channel_map by lia. rewrite !app_assoc, firstn_skipn. reflexivity. }
  induction l as [|d l IH]; intros rs b n Hr Hb T.
  - inversion Hr; subst. apply (Full [] [] b n); auto. unfold total in T. cbn in T. lia.
  - destruct (le_lt_dec len n) as [E|E]; [apply (Full (d :: l) rs b n); auto|].
    inversion Hr as [|? r ? rs0 [Hd Hs] Hr']; subst. pose proof (sh_length n b Hb) as Lb.
    destruct (ext_shaped _ _ _ _ Hb Hs) as (b' & Ee & Se & Ce).
    destruct (IH rs0 b' _ Hr' Se) as (chunk & l' & rs' & kb & F1 & F2 & F3 & F4 & F5).
    { unfold total in *. cbn [map concat] in T. rewrite app_length, (sh_channel _ r 0 Hs) in T by lia. lia. }
    exists chunk, l', rs', kb. split; [|split; [exact F2|split; [exact F3|split; [exact F4|]]]].
    + cbn [map app fill]. replace (c_length b <? len) with true by (symmetry; apply Nat.ltb_lt; lia). rewrite Hd. cbn [bind]. rewrite Ee. cbn [bind]. exact F1.
    + intros k Hk. cbn [map concat]. rewrite app_assoc, <- (Ce k Hk). apply F5. exact Hk.
Qed.

Lemma next_data tail l rs b : resamples l rs -> kept_ok b -> len <= length (rest 0 b rs) ->
  exists chunk l' rs' b', next sr len (mk_rechunk (map Data l ++ tail) b) = Ok (Some (Some chunk), mk_rechunk (map Data l' ++ tail) b') /\
    shaped len chunk /\ resamples l' rs' /\ kept_ok b' /\
    forall k, k < ch -> rest k b rs = channel k chunk ++ rest k b' rs'.
Proof.
  intros Hr Kb L. destruct b as [b|].
  - destruct Kb as (n & Hn & Sb). unfold next. cbn [r_buffer r_input].
    apply (fill_data tail l rs b n Hr Sb). unfold Buffer_RechunkProofs.rest in L. rewrite app_length, (sh_channel _ b 0 Sb) in L by lia. exact L.
  - inversion Hr as [|d r l0 rs0 [Hd Hs] Hr']; subst.
    + cbn in L. unfold len in L. lia.
    + unfold next. cbn [map app r_buffer r_input]. rewrite Hd. cbn [bind].
      apply (fill_data tail l0 rs0 r _ Hr' Hs). unfold Buffer_RechunkProofs.rest in L. cbn [map concat app] in L. rewrite app_length, (sh_channel _ r 0 Hs) in L by lia. exact L.
Qed.

(** an error drops what has been kept *)
Lemma fill_error tail : forall l rs b n, resamples l rs -> shaped n b -> n + total rs < len ->
  fill sr len b (map Data l ++ Fails :: tail) = Ok (Some None, mk_rechunk tail None).
Proof.
  induction l as [|d l IH]; intros rs b n Hr Hb T; pose proof (sh_length n b Hb) as Lb.
  - cbn [map app fill]. replace (c_length b <? len) with true by (symmetry; apply Nat.ltb_lt; lia). reflexivity.
  - inversion Hr as [|? r ? rs0 [Hd Hs] Hr']; subst. destruct (ext_shaped _ _ _ _ Hb Hs) as (b' & Ee & Se & Ce).
    cbn [map app fill]. replace (c_length b <? len) with true by (symmetry; apply Nat.ltb_lt; lia). rewrite Hd. cbn [bind]. rewrite Ee. cbn [bind].
    apply (IH rs0 b' _ Hr' Se). unfold total in *. cbn [map concat] in T. rewrite app_length, (sh_channel _ r 0 Hs) in T by lia. lia.
Qed.
Lemma next_error tail l rs b : resamples l rs -> kept_ok b -> length (rest 0 b rs) < len ->
  next sr len (mk_rechunk (map Data l ++ Fails :: tail) b) = Ok (Some None, mk_rechunk tail None).
Proof.
  intros Hr Kb L. destruct b as [b|].
  - destruct Kb as (n & Hn & Sb). unfold next. cbn [r_buffer r_input]. apply (fill_error tail l rs b n Hr Sb).
    unfold Buffer_RechunkProofs.rest in L. rewrite app_length, (sh_channel _ b 0 Sb) in L by lia. exact L.
  - inversion Hr as [|d r l0 rs0 [Hd Hs] Hr']; subst; [reflexivity|].
    unfold next. cbn [map app r_buffer r_input]. rewrite Hd. cbn [bind]. apply (fill_error tail l0 rs0 r _ Hr' Hs).
    unfold Buffer_RechunkProofs.rest in L. cbn [map concat app] in L. rewrite app_length, (sh_channel _ r 0 Hs) in L by lia. exact L.
Qed.

Lemma copied_map : forall l s, map c_val (copied s l) = l /\ map c_name (copied s l) = seq s (length l).
Proof. induction l as [|d l IH]; intros s; [split; reflexivity|]. cbn. destruct (IH (S s)) as [-> ->]. split; reflexivity. Qed.

Lemma copied_separate s c : 0 < s -> shaped len c -> separate ch (copied s (c_channels c)) /\
  forall k, k < ch -> out_channel k (copied s (c_channels c)) = channel k c.
Proof.
  intros Hs (L & F & _). destruct (copied_map (c_channels c) s) as [V N]. split.
  - split; [|split].
    + pose proof (f_equal (@length _) V) as X. rewrite map_length in X. congruence.
    + apply Forall_forall. intros x X. split.
      * rewrite Forall_forall in F. apply F. rewrite <- V. apply in_map. exact X.
      * assert (Q : In (c_name x) (seq s (length (c_channels c)))) by (rewrite <- N; apply in_map; exact X). apply in_seq in Q. lia.
    + rewrite N. apply seq_NoDup.
  - intros k Hk. unfold out_channel, channel. rewrite <- V at 2. rewrite <- (map_nth c_val). apply nth_indep. rewrite V. lia.
Qed.

Lemma process_data tail l rs b s fin : 0 < s -> resamples l rs -> kept_ok b -> len <= length (rest 0 b rs) ->
  exists q l' rs' b', media_process sr s (mk_renderer (mk_rechunk (map Data l ++ tail) b) fin) = Ok (q, negb fin, mk_renderer (mk_rechunk (map Data l' ++ tail) b') fin) /\
    separate ch q /\ resamples l' rs' /\ kept_ok b' /\ forall k, k < ch -> rest k b rs = out_channel k q ++ rest k b' rs'.
Proof.
  intros Hs Hr Kb L. destruct (next_data tail l rs b Hr Kb L) as (chunk & l' & rs' & b' & E & Sc & R' & K' & P).
  destruct (copied_separate s chunk Hs Sc) as [C1 C2].
  exists (copied s (c_channels chunk)), l', rs', b'. split; [|split; [exact C1|split; [exact R'|split; [exact K'|]]]].
  - unfold media_process. cbn [n_stream n_finished]. change RQ with len. rewrite E. cbn [bind fst snd]. destruct Sc as (L1 & F1 & _). rewrite L1.
    replace (is_valid_number_of_channels ch) with true by (symmetry; unfold is_valid_number_of_channels; apply andb_true_iff; rewrite Nat.ltb_lt, Nat.leb_le; lia).
    cbn [check bind]. replace (forallb _ (c_channels chunk)) with true; [reflexivity|]. symmetry. apply forallb_forall. intros d D. apply Nat.eqb_eq. rewrite Forall_forall in F1. apply F1, D.
  - intros k Hk. rewrite (C2 k Hk). apply P. exact Hk.
Qed.

Lemma run_data tail : forall m l rs b s fin, 0 < s -> resamples l rs -> kept_ok b -> len * m <= length (rest 0 b rs) ->
  exists qs l' rs' b', media_run sr m s (mk_renderer (mk_rechunk (map Data l ++ tail) b) fin) =
      Ok (map (fun q => (q, negb fin)) qs, mk_renderer (mk_rechunk (map Data l' ++ tail) b') fin) /\
    length qs = m /\ Forall (separate ch) qs /\ resamples l' rs' /\ kept_ok b' /\
    forall k, k < ch -> rest k b rs = concat (map (out_channel k) qs) ++ rest k b' rs'.
Proof.
  induction m as [|m IH]; intros l rs b s fin Hs Hr Kb L.
  - exists [], l, rs, b. split; [reflexivity|]. split; [reflexivity|]. split; [constructor|]. split; [exact Hr|]. split; [exact Kb|]. intros; reflexivity.
  - destruct (process_data tail l rs b s fin Hs Hr Kb) as (q & l1 & rs1 & b1 & E1 & S1 & R1 & K1 & P1); [lia|].
    destruct (IH l1 rs1 b1 (s + 32) fin) as (qs & l2 & rs2 & b2 & E2 & Lq & S2 & R2 & K2 & P2); [lia|exact R1|exact K1| |].
    { rewrite (P1 0) in L by lia. rewrite app_length in L. destruct S1 as (Lq & Fq & _).
      assert (length (out_channel 0 q) = len). { unfold out_channel. rewrite Forall_forall in Fq. apply Fq, nth_In. lia. } lia. }
    exists (q :: qs), l2, rs2, b2. split; [|split; [cbn; lia|split; [constructor; assumption|split; [exact R2|split; [exact K2|]]]]].
    + cbn [media_run]. rewrite E1. cbn [bind fst snd]. rewrite E2. reflexivity.
    + intros k Hk. cbn [map concat]. rewrite (P1 k Hk), (P2 k Hk), app_assoc. reflexivity.
Qed.

Lemma outs_length k qs : k < ch -> Forall (separate ch) qs -> length (concat (map (out_channel k) qs)) = len * length qs.
Proof.
  intros Hk S. induction S as [|q qs (Lq & Fq & _) S IH]; [cbn; lia|]. cbn [map concat length]. rewrite app_length, IH.
  assert (length (out_channel k q) = len). { unfold out_channel. rewrite Forall_forall in Fq. apply Fq, nth_In. lia. } lia.
Qed.

Lemma resamples_exist l : source_ok ch l -> Forall (fun c => rate_ok (c_rate c) /\ (Z.of_nat (c_length c) <= 2 ^ 40)%Z) l ->
  exists rs, resamples l rs.
Proof.
  unfold source_ok. intros Hs Hb. induction l as [|d l IH]; [exists []; constructor|]. apply Forall_cons_iff in Hs. destruct Hs as [[S1 S2] Hs']. apply Forall_cons_iff in Hb. destruct Hb as [[B1 B2] Hb'].
  destruct (IH Hs' Hb') as (rs & R1).
  assert (Cok : content_ok d) by (split; [intros E; rewrite E in S1; cbn in S1; lia|exact S2]). destruct (resample_ok d sr Cok B1 Hsr B2) as (r & Hr).
  destruct (resample_content_ok d sr r Cok Hr) as ((Ne & F) & Rr & Lr). exists (r :: rs).
  constructor; [|exact R1]. split; [exact Hr|]. unfold Buffer_RechunkProofs.shaped. split; [congruence|]. split; [exact F|exact Rr].
Qed.

Lemma resamples_forget l rs : resamples l rs -> Forall2 (fun d r => resample d sr = Ok r) l rs.
Proof. intros H. induction H as [|d r l rs [H _]]; constructor; assumption. Qed.

(** all of the data before the first error or the place we stop looking *)
Lemma node_outputs tail l m s : 0 < s -> source_ok ch l -> Forall (fun c => rate_ok (c_rate c) /\ (Z.of_nat (c_length c) <= 2 ^ 40)%Z) l ->
  exists rs, Forall2 (fun d r => resample d sr = Ok r) l rs /\ (forall k, k < ch -> length (concat (map (channel k) rs)) = total rs) /\
   (128 * m <= total rs -> exists qs r', media_run sr m s (mk_renderer (mk_rechunk (map Data l ++ tail) None) false) = Ok (map (fun q => (q, true)) qs, r') /\
      length qs = m /\ Forall (separate ch) qs /\
      forall k, k < ch -> concat (map (out_channel k) qs) = firstn (128 * m) (concat (map (channel k) rs))).
Proof.
  intros Hs So Bo. destruct (resamples_exist l So Bo) as (rs & R). exists rs. split; [apply resamples_forget; exact R|]. split.
  { intros k Hk. unfold total. clear - R Hk Hch sh_channel. induction R as [|d r l rs [_ H] R IH]; [reflexivity|]. cbn [map concat]. rewrite !app_length, IH.
    rewrite !(sh_channel _ r _ H) by lia. reflexivity. }
  intros L. destruct (run_data tail m l rs None s false Hs R Logic.I) as (qs & l' & rs' & b' & E & Lq & S & _ & _ & P).
  { unfold Buffer_RechunkProofs.rest. exact L. }
  exists qs, (mk_renderer (mk_rechunk (map Data l' ++ tail) b') false). split; [exact E|]. split; [exact Lq|]. split; [exact S|]. intros k Hk.
  specialize (P k Hk). unfold Buffer_RechunkProofs.rest at 1 in P. cbn [app] in P. rewrite P.
  rewrite firstn_app, (outs_length k qs Hk S), Lq, Nat.sub_diag, firstn_O, app_nil_r, firstn_all2; [reflexivity|]. rewrite (outs_length k qs Hk S), Lq. unfold len. lia.
Qed.

Lemma media_run_app : forall m n s r, media_run sr (m + n) s r =
  do p <- media_run sr m s r; do p' <- media_run sr n (s + 32 * m) (snd p); Ok (fst p ++ fst p', snd p').
Proof.
  induction m as [|m IH]; intros n s r.
  - cbn [Nat.add media_run bind snd fst app]. rewrite Nat.mul_0_r, Nat.add_0_r. destruct (media_run sr n s r) as [[]| |]; reflexivity.
  - cbn [Nat.add media_run]. destruct (media_process sr s r) as [[o r1]| |]; try reflexivity. cbn [bind fst snd]. rewrite IH.
    destruct (media_run sr m (s + 32) r1) as [[os r2]| |]; try reflexivity. cbn [bind fst snd]. replace (s + 32 + 32 * m) with (s + 32 * S m) by lia.
    destruct (media_run sr n (s + 32 * S m) r2) as [[os2 r3]| |]; reflexivity.
Qed.

(** an error: silence, and the node says it is done *)
Lemma node_error tail l s : 0 < s -> source_ok ch l -> Forall (fun c => rate_ok (c_rate c) /\ (Z.of_nat (c_length c) <= 2 ^ 40)%Z) l ->
  exists rs, Forall2 (fun d r => resample d sr = Ok r) l rs /\
   exists qs, media_run sr (total rs / 128 + 1) s (mk_renderer (mk_rechunk (map Data l ++ Fails :: tail) None) false) =
       Ok (map (fun q => (q, true)) qs ++ [(silent_quantum, false)], mk_renderer (mk_rechunk tail None) true) /\
      length qs = total rs / 128 /\ Forall (separate ch) qs /\
      forall k, k < ch -> concat (map (out_channel k) qs) = firstn (128 * (total rs / 128)) (concat (map (channel k) rs)).
Proof.
  intros Hs So Bo. destruct (resamples_exist l So Bo) as (rs & R). exists rs. split; [apply resamples_forget; exact R|].
  set (m := total rs / 128). pose proof (Nat.div_mod (total rs) 128 ltac:(lia)) as DM. pose proof (Nat.mod_upper_bound (total rs) 128 ltac:(lia)) as MB. fold m in DM.
  destruct (run_data (Fails :: tail) m l rs None s false Hs R Logic.I) as (qs & l' & rs' & b' & E & Lq & S & R' & K' & P).
  { unfold Buffer_RechunkProofs.rest. cbn [app]. change (length (concat (map (channel 0) rs))) with (total rs). unfold len. lia. }
  exists qs. split; [|split; [exact Lq|split; [exact S|]]].
  - rewrite media_run_app, E. cbn [bind fst snd media_run]. unfold media_process. cbn [n_stream n_finished]. change RQ with len.
    rewrite (next_error tail l' rs' b' R' K'); [reflexivity|].
    pose proof (f_equal (@length f32) (P 0 ltac:(lia))) as Q. unfold Buffer_RechunkProofs.rest at 1 in Q. cbn [app] in Q.
    change (length (concat (map (channel 0) rs))) with (total rs) in Q. rewrite app_length, (outs_length 0 qs ltac:(lia) S), Lq in Q. unfold len in *. lia.
  - intros k Hk. specialize (P k Hk). unfold Buffer_RechunkProofs.rest at 1 in P. cbn [app] in P. rewrite P.
    rewrite firstn_app, (outs_length k qs Hk S), Lq. change len with 128. rewrite Nat.sub_diag, firstn_O, app_nil_r, firstn_all2; [reflexivity|]. rewrite (outs_length k qs Hk S), Lq. unfold len. lia.
Qed.
End Node.

Lemma done_for_good sr : forall m s r outs r', n_finished r = true -> media_run sr m s r = Ok (outs, r') -> Forall (fun o => snd o = false) outs /\ n_finished r' = true.
Proof.
  induction m as [|m IH]; intros s r outs r' Fi.
  - cbn. intros [= <- <-]. split; [constructor|exact Fi].
  - cbn [media_run]. destruct (media_process sr s r) as [[[q b] r1]| |] eqn:P; try discriminate. cbn [bind fst snd].
    destruct (media_run sr m (s + 32) r1) as [[os r2]| |] eqn:R; try discriminate. cbn [bind fst snd]. intros [= <- <-].
    assert (X : b = false /\ n_finished r1 = true).
    { revert P. unfold media_process. destruct (next sr RQ (n_stream r)) as [[[[c|]|] st]| |]; try discriminate; cbn [bind fst snd].
      - destruct (check (is_valid_number_of_channels _)); try discriminate. cbn [bind]. destruct (check (forallb _ _)); try discriminate. cbn [bind].
        intros [= _ <- <-]. rewrite Fi. split; reflexivity.
      - intros [= _ <- <-]. split; reflexivity.
      - intros [= _ <- <-]. split; reflexivity. }
    destruct X as [-> X]. destruct (IH _ _ _ _ X R) as [H1 H2]. split; [constructor; [reflexivity|exact H1]|exact H2].
Qed.
