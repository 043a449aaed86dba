(** Proofs for Element_Props.v *)
From Coq Require Import List Arith Bool ZArith Lia.
From Flocq Require Import IEEE754.BinarySingleNaN.
From Verif Require Import Float_Model Quantum_Model Buffer_Model Buffer_Spec Buffer_Proofs Buffer_RechunkProofs Element_Model Element_Spec.
Import ListNotations.

(** ** Commands *)

Lemma rts_next_settings f e it e' : rts_next f e = Ok (it, e') ->
  settings_of e' = settings_of (receive f e) /\ e_queue e' = e_queue (receive f e).
Proof.
  unfold rts_next. destruct (e_paused (receive f e)) eqn:P.
  - destruct (from_samples _ _); try discriminate. cbn [bind]. intros [= _ <-]. auto.
  - destruct (disk_read _ _ _) as [[chs eof]|]; [|intros [= _ <-]; split; reflexivity].
    destruct (from_samples _ _); try discriminate. cbn [bind]. destruct (e_loop _ && eof); intros [= _ <-]; (split; [unfold settings_of; rewrite P|]; reflexivity).
Qed.

Lemma receive_settings f e : settings_of (receive f e) =
  match e_queue e with [] => settings_of e | a :: _ => obey (settings_of e) a end /\
  e_queue (receive f e) = tl (e_queue e).
Proof. unfold receive. destruct (e_queue e) as [|[] q] eqn:Q; cbn; rewrite ?Q; auto. Qed.

Lemma stream_commands f : forall arr e items e', stream f e arr = Ok (items, e') ->
  e_queue e' = backlog (e_queue e) arr /\ length items = length arr /\
  exists taken, e_queue e ++ concat arr = taken ++ e_queue e' /\ settings_of e' = fold_left obey taken (settings_of e) /\
    length taken <= length arr.
Proof.
  induction arr as [|b arr IH]; intros e items e'; cbn [stream].
  - intros [= <- <-]. split; [reflexivity|]. split; [reflexivity|]. exists []. rewrite app_nil_r. auto.
  - destruct (rts_next f (send e b)) as [[it e1]| |] eqn:R; try discriminate. cbn [bind fst snd].
    destruct (stream f e1 arr) as [[its e2]| |] eqn:S1; try discriminate. cbn [bind fst snd]. intros [= <- <-].
    apply rts_next_settings in R. destruct R as [R1 R2]. destruct (receive_settings f (send e b)) as [V1 V2].
    rewrite V1 in R1. rewrite V2 in R2. cbn [send e_queue] in R1, R2.
    destruct (IH _ _ _ S1) as (Q & L & taken & T1 & T2 & T3). rewrite R2 in Q, T1. rewrite R1 in T2.
    split; [exact Q|]. split; [cbn; lia|]. cbn [concat]. rewrite app_assoc.
    destruct (e_queue e ++ b) as [|a q] eqn:E.
    + exists taken. split; [exact T1|]. split; [exact T2|]. cbn. lia.
    + exists (a :: taken). cbn [tl] in T1. cbn [app]. rewrite T1. split; [reflexivity|]. split; [exact T2|]. cbn. lia.
Qed.

(** ** Frames *)

Lemma nth_fst {A} (x : A) : forall n l i, i < n -> nth i (firstn n l) x = nth i l x.
Proof.
  induction n as [|n IH]; intros l i H; [lia|]. destruct l as [|y l]; [reflexivity|]. destruct i as [|i]; [reflexivity|].
  cbn. apply IH. lia.
Qed.
Lemma nth_skp {A} (x : A) : forall p l i, nth i (skipn p l) x = nth (p + i) l x.
Proof. induction p as [|p IH]; intros l i; [reflexivity|]. destruct l as [|y l]; [destruct i; reflexivity|]. cbn. apply IH. Qed.

Lemma slice_nth {A} (x : A) n l p : p + n <= length l -> firstn n (skipn p l) = map (fun j => nth (p + j) l x) (seq 0 n).
Proof.
  intros H. apply (nth_ext _ _ x x).
  - rewrite firstn_length, skipn_length, map_length, seq_length. lia.
  - rewrite firstn_length, skipn_length. intros i I.
    rewrite nth_fst, nth_skp by lia.
    rewrite (nth_indep (map _ _) x (nth (p + 0) l x)) by (rewrite map_length, seq_length; lia).
    rewrite (map_nth (fun j => nth (p + j) l x)), seq_nth by lia. reflexivity.
Qed.

Lemma f_map_inj {A B} (g : A -> B) (G : forall x y, g x = g y -> x = y) : forall l l', map g l = map g l' -> l = l'.
Proof. induction l as [|x l IH]; intros [|y l'] H; try discriminate; [reflexivity|]. cbn in H. injection H as H1 H2. f_equal; [apply G, H1|apply IH, H2]. Qed.

(** a piece of the file is a piece of the tape *)
Lemma tape_slice d p n : 0 < length d -> p mod length d + n <= length d ->
  firstn n (skipn (p mod length d) d) = tape d p n.
Proof.
  intros L H. rewrite (slice_nth f32_zero) by exact H. unfold tape. apply map_ext_in. intros j J. apply in_seq in J. f_equal.
  rewrite <- Nat.add_mod_idemp_l by lia. symmetry. apply Nat.mod_small. lia.
Qed.

Lemma from_samples_ok samples sr n : is_valid_sample_rate sr = true -> 1 <= length samples <= 32 -> Forall (fun d => length d = n) samples ->
  from_samples samples sr = Ok (mk_content samples sr).
Proof.
  intros V L F. unfold from_samples. rewrite V. cbn [check bind].
  replace (is_valid_number_of_channels (length samples)) with true.
  2: { symmetry. unfold is_valid_number_of_channels. apply andb_true_iff. rewrite Nat.ltb_lt, Nat.leb_le. lia. }
  cbn [check bind]. replace (forallb _ samples) with true; [reflexivity|]. symmetry. apply forallb_forall. intros d D.
  apply Nat.eqb_eq. destruct samples as [|c0 samples]; [destruct D|]. rewrite Forall_forall in F. rewrite (F d D). symmetry. apply F. left. reflexivity.
Qed.

Section Play.
Variables (ch len : nat) (f : file).
Hypothesis F : file_ok ch len f.

Lemma frames_len : f_frames f = Z.of_nat len.
Proof.
  destruct F as (C & N & L & A & _). unfold f_frames. destruct (f_channels f) as [|d ds]; [cbn in L; lia|].
  rewrite (Forall_inv A). reflexivity.
Qed.

Lemma silence_ok : from_samples (repeat (repeat f32_zero RQ) (length (f_channels f))) (f_rate32 f) = Ok (silence ch f).
Proof.
  destruct F as (C & N & L & A & V). rewrite (from_samples_ok _ _ RQ V).
  - rewrite L. reflexivity.
  - rewrite repeat_length. lia.
  - apply Forall_forall. intros d D. apply repeat_spec in D. subst d. apply repeat_length.
Qed.

(** one call *)
Definition good_setting (s : setting) : Prop := rate_good f (v_rate s).

Lemma call_paused e e1 : receive f e = e1 -> e_paused e1 = true -> rts_next f e = Ok (Data (silence ch f), e1).
Proof. intros R P. unfold rts_next. rewrite R, P, silence_ok. reflexivity. Qed.

Lemma call_plays e e1 pos : receive f e = e1 -> e_paused e1 = false -> rate_good f (e_rate e1) -> e_pos e1 = Z.of_nat pos -> pos < len ->
  exists n, Z.of_nat n = Z.min (per_call (e_rate e1)) (Z.of_nat (len - pos)) /\ 1 <= n <= len - pos /\
  exists e', rts_next f e = Ok (Data (mk_content (map (fun d => firstn n (skipn pos d)) (f_channels f)) (label f (e_rate e1))), e') /\
    settings_of e' = settings_of e1 /\ e_queue e' = e_queue e1 /\
    e_pos e' = if e_loop e1 && (len <=? pos + n) then 0%Z else Z.of_nat (pos + n).
Proof.
  intros R P G E L. destruct G as [G1 G2]. pose proof frames_len as FL.
  set (n := Z.to_nat (Z.min (per_call (e_rate e1)) (Z.of_nat (len - pos)))).
  assert (Hn : Z.of_nat n = Z.min (per_call (e_rate e1)) (Z.of_nat (len - pos))) by (unfold n; lia).
  exists n. split; [exact Hn|]. split; [lia|].
  unfold rts_next. rewrite R, P. cbv zeta. unfold disk_read. rewrite FL, E.
  replace (Z.of_nat len <=? Z.of_nat pos)%Z with false by (symmetry; apply Z.leb_gt; lia).
  change (f64_to_usize (f64_mul (f64_of_Z (Z.of_nat RQ)) (f64_abs (e_rate e1)))) with (per_call (e_rate e1)).
  replace (Z.to_nat (Z.min (per_call (e_rate e1)) (Z.of_nat len - Z.of_nat pos))) with n by (unfold n; f_equal; lia).
  rewrite Nat2Z.id. change (f32_mul (f_rate32 f) (f32_of_f64 (f64_abs (e_rate e1)))) with (label f (e_rate e1)).
  destruct F as (C & N & LC & A & V).
  rewrite (from_samples_ok _ _ n G2).
  2: { rewrite map_length. lia. }
  2: { apply Forall_map. eapply Forall_impl; [|exact A]. intros d D. cbn in *. rewrite firstn_length, skipn_length. lia. }
  cbn [bind].
  assert (B : (Z.of_nat len <=? Z.of_nat pos + per_call (e_rate e1))%Z = (len <=? pos + n)).
  { destruct (Nat.leb_spec len (pos + n)); [apply Z.leb_le|apply Z.leb_gt]; lia. }
  rewrite B. destruct (e_loop e1 && (len <=? pos + n)) eqn:W.
  - eexists. split; [reflexivity|]. split; [unfold settings_of; rewrite P; reflexivity|]. split; reflexivity.
  - eexists. split; [reflexivity|]. split; [unfold settings_of; rewrite P; reflexivity|]. split; [reflexivity|]. cbn [e_pos]. lia.
Qed.

Lemma call_ended e e1 pos : receive f e = e1 -> e_paused e1 = false -> e_pos e1 = Z.of_nat pos -> len <= pos -> rts_next f e = Ok (Fails, e1).
Proof.
  intros R P E L. unfold rts_next. rewrite R, P. cbv zeta. unfold disk_read. rewrite frames_len, E.
  replace (Z.of_nat len <=? Z.of_nat pos)%Z with true by (symmetry; apply Z.leb_le; lia). reflexivity.
Qed.

Lemma receive_steady e b : Forall (steady f) (e_queue e ++ b) -> rate_good f (e_rate e) ->
  let e1 := receive f (send e b) in
  e_pos e1 = e_pos e /\ e_loop e1 = e_loop e /\ rate_good f (e_rate e1) /\ Forall (steady f) (e_queue e1) /\
  e_queue e1 = tl (e_queue e ++ b) /\
  settings_of e1 = match e_queue e ++ b with [] => settings_of e | a :: _ => obey (settings_of e) a end.
Proof.
  intros S G. unfold receive, send. cbn [e_queue]. destruct (e_queue e ++ b) as [|a q] eqn:Q.
  - cbn [e_pos e_loop e_rate e_queue]. rewrite ?Q. repeat split; auto; destruct G; assumption.
  - pose proof (Forall_inv S) as S1. pose proof (Forall_inv_tail S) as S2. destruct a; cbn in S1; try contradiction; cbn; auto 10.
Qed.

Lemma timeline_step s q b arr : timeline s q (b :: arr) =
  match q ++ b with [] => s :: timeline s [] arr | a :: q' => obey s a :: timeline (obey s a) q' arr end.
Proof. reflexivity. Qed.

Lemma stream_loop : forall arr e p, e_loop e = true -> e_pos e = Z.of_nat (p mod len) -> rate_good f (e_rate e) ->
  Forall (steady f) (e_queue e ++ concat arr) ->
  exists items e', stream f e arr = Ok (items, e') /\ delivered ch len f p (timeline (settings_of e) (e_queue e) arr) items.
Proof.
  destruct F as (C & N & LC & A & V).
  induction arr as [|b arr IH]; intros e p L P G S; [exists [], e; split; [reflexivity|exact Logic.I]|].
  cbn [concat] in S. rewrite app_assoc in S. apply Forall_app in S. destruct S as [S1 S2].
  destruct (receive_steady e b S1 G) as (R1 & R2 & R3 & R4 & R5 & R6). cbn zeta in *. set (e1 := receive f (send e b)) in *.
  assert (T : timeline (settings_of e) (e_queue e) (b :: arr) = settings_of e1 :: timeline (settings_of e1) (e_queue e1) arr).
  { rewrite timeline_step, R6, R5. destruct (e_queue e ++ b); reflexivity. }
  rewrite T. clear T. cbn [stream].
  assert (PM : p mod len < len) by (apply Nat.mod_upper_bound; lia).
  destruct (e_paused e1) eqn:PA.
  - rewrite (call_paused _ e1 eq_refl PA). cbn [bind fst snd].
    destruct (IH e1 p) as (items & e' & E & D); [congruence|congruence|exact R3|apply Forall_app; auto|].
    rewrite E. cbn [bind fst snd]. eexists _, _. split; [reflexivity|]. cbn [delivered].
    change (v_paused (settings_of e1)) with (e_paused e1). rewrite PA. auto.
  - destruct (call_plays _ e1 (p mod len) eq_refl PA R3) as (n & Hn & Bn & e2 & E2 & Q1 & Q2 & Q3); [congruence|exact PM|].
    rewrite E2. cbn [bind fst snd].
    assert (NL : e_loop e2 = true). { assert (X : v_loop (settings_of e2) = v_loop (settings_of e1)) by congruence. cbn in X. congruence. }
    assert (NR : e_rate e2 = e_rate e1). { assert (X : v_rate (settings_of e2) = v_rate (settings_of e1)) by congruence. exact X. }
    assert (NP : e_pos e2 = Z.of_nat ((p + n) mod len)).
    { rewrite Q3, R2, L. cbn [andb]. rewrite <- Nat.add_mod_idemp_l by lia. destruct (Nat.leb_spec len (p mod len + n)).
      - replace (p mod len + n) with len by lia. rewrite Nat.mod_same by lia. reflexivity.
      - rewrite (Nat.mod_small (p mod len + n)) by lia. reflexivity. }
    destruct (IH e2 (p + n)) as (items & e' & E & D); [exact NL|exact NP|rewrite NR; exact R3|rewrite Q2; apply Forall_app; auto|].
    rewrite E. cbn [bind fst snd]. eexists _, _. split; [reflexivity|]. cbn [delivered].
    change (v_paused (settings_of e1)) with (e_paused e1). rewrite PA. exists n. split; [exact Hn|]. split.
    + change (v_rate (settings_of e1)) with (e_rate e1). f_equal. f_equal. apply map_ext_in. intros d D'.
      rewrite Forall_forall in A. specialize (A d D'). pose proof (tape_slice d p n) as X. rewrite A in X. apply X; lia.
    + rewrite Q1, Q2 in D. exact D.
Qed.

Lemma stream_once : forall arr e p, e_loop e = false -> e_pos e = Z.of_nat p -> rate_good f (e_rate e) ->
  Forall (steady f) (e_queue e ++ concat arr) ->
  exists items e', stream f e arr = Ok (items, e') /\ delivered_once ch len f p (timeline (settings_of e) (e_queue e) arr) items.
Proof.
  destruct F as (C & N & LC & A & V).
  induction arr as [|b arr IH]; intros e p L P G S; [exists [], e; split; [reflexivity|exact Logic.I]|].
  cbn [concat] in S. rewrite app_assoc in S. apply Forall_app in S. destruct S as [S1 S2].
  destruct (receive_steady e b S1 G) as (R1 & R2 & R3 & R4 & R5 & R6). cbn zeta in *. set (e1 := receive f (send e b)) in *.
  assert (T : timeline (settings_of e) (e_queue e) (b :: arr) = settings_of e1 :: timeline (settings_of e1) (e_queue e1) arr).
  { rewrite timeline_step, R6, R5. destruct (e_queue e ++ b); reflexivity. }
  rewrite T. clear T. cbn [stream].
  destruct (e_paused e1) eqn:PA; [|destruct (Nat.leb_spec len p) as [PL|PL]].
  - rewrite (call_paused _ e1 eq_refl PA). cbn [bind fst snd].
    destruct (IH e1 p) as (items & e' & E & D); [congruence|congruence|exact R3|apply Forall_app; auto|].
    rewrite E. cbn [bind fst snd]. eexists _, _. split; [reflexivity|]. cbn [delivered_once].
    change (v_paused (settings_of e1)) with (e_paused e1). rewrite PA. auto.
  - rewrite (call_ended _ e1 p eq_refl PA) by (congruence || exact PL). cbn [bind fst snd].
    destruct (IH e1 p) as (items & e' & E & D); [congruence|congruence|exact R3|apply Forall_app; auto|].
    rewrite E. cbn [bind fst snd]. eexists _, _. split; [reflexivity|]. cbn [delivered_once].
    change (v_paused (settings_of e1)) with (e_paused e1). rewrite PA. apply Nat.leb_le in PL. rewrite PL. auto.
  - destruct (call_plays _ e1 p eq_refl PA R3) as (n & Hn & Bn & e2 & E2 & Q1 & Q2 & Q3); [congruence|exact PL|].
    rewrite E2. cbn [bind fst snd].
    assert (NL : e_loop e2 = false). { assert (X : v_loop (settings_of e2) = v_loop (settings_of e1)) by congruence. cbn in X. congruence. }
    assert (NR : e_rate e2 = e_rate e1). { assert (X : v_rate (settings_of e2) = v_rate (settings_of e1)) by congruence. exact X. }
    assert (NP : e_pos e2 = Z.of_nat (p + n)).
    { rewrite Q3, R2, L. reflexivity. }
    destruct (IH e2 (p + n)) as (items & e' & E & D); [exact NL|exact NP|rewrite NR; exact R3|rewrite Q2; apply Forall_app; auto|].
    rewrite E. cbn [bind fst snd]. eexists _, _. split; [reflexivity|]. cbn [delivered_once].
    change (v_paused (settings_of e1)) with (e_paused e1). rewrite PA. replace (len <=? p) with false by (symmetry; apply Nat.leb_gt; exact PL).
    exists n. split; [exact Hn|]. split.
    + reflexivity.
    + rewrite Q1, Q2 in D. exact D.
Qed.
End Play.
