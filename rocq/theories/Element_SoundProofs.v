(** From the file to the output of the node *)
From Coq Require Import List Arith Bool ZArith Lia Reals.
From Flocq Require Import Core BinarySingleNaN.
From Verif Require Import Float_Model Float_Proofs Float_BoundProofs Quantum_Model Buffer_Model Buffer_Spec Buffer_Proofs Buffer_ResampleProofs Buffer_RechunkProofs
  Element_Model Element_Spec Element_Proofs Element_NodeProofs.
Import ListNotations.
Local Open Scope nat_scope.

(** ** Playback rate 1 *)

Lemma f32_mul_one x : is_finite x = true -> f32_mul x f32_one = x.
Proof.
  intros F. assert (E32 : B2R f32_one = 1%R) by (change f32_one with (binary_normalize 24 128 f32_prec f32_emax mode_NE 1 0 false); apply (of_Z_exact 24 128 f32_prec f32_emax 1); lia).
  pose proof (Bmult_correct 24 128 _ _ mode_NE x f32_one) as C1. cbn [round_mode] in C1. rewrite E32, Rmult_1_r in C1.
  rewrite (round_generic radix2 (SpecFloat.fexp 24 128) ZnearestE (B2R x)) in C1 by apply generic_format_B2R.
  rewrite Rlt_bool_true in C1 by apply abs_B2R_lt_emax. destruct C1 as (C1 & C2 & C3). rewrite F in C2.
  change (is_finite f32_one) with true in C2. cbn [andb] in C2. unfold f32_mul.
  apply B2R_Bsign_inj; [exact C2|exact F|exact C1|].
  rewrite C3. { change (Bsign f32_one) with false. destruct (Bsign x); reflexivity. }
  destruct (Bmult mode_NE x f32_one); try reflexivity; discriminate.
Qed.

Lemma rate_finite sr : rate_ok sr -> is_finite sr = true.
Proof. intros H. destruct (rate_val sr H) as [H1 _]. destruct sr; try reflexivity; discriminate. Qed.

Lemma label_one f : is_valid_sample_rate (f_rate32 f) = true -> label f f64_one = f_rate32 f.
Proof. intros H. unfold label. replace (f32_of_f64 (f64_abs f64_one)) with f32_one by (apply B2SF_inj; vm_compute; reflexivity). apply f32_mul_one, rate_finite, H. Qed.

Lemma per_call_one : per_call f64_one = 128%Z.
Proof. vm_compute. reflexivity. Qed.

Lemma one_good f : is_valid_sample_rate (f_rate32 f) = true -> rate_good f f64_one.
Proof. intros H. split; [rewrite per_call_one; lia|rewrite label_one; exact H]. Qed.

Lemma skipn_skip {A} : forall n m (l : list A), skipn n (skipn m l) = skipn (m + n) l.
Proof. induction m as [|m IH]; intros l; [reflexivity|]. destruct l as [|x l]; [rewrite !skipn_nil; reflexivity|]. apply IH. Qed.

Lemma tape_app d p n n' : tape d p n ++ tape d (p + n) n' = tape d p (n + n').
Proof.
  unfold tape. rewrite seq_app, map_app. f_equal.
  assert (G : forall m a, map (fun j => nth ((p + n + j) mod length d) d f32_zero) (seq a m) = map (fun j => nth ((p + j) mod length d) d f32_zero) (seq (n + a) m)).
  { induction m as [|m IH]; intros a; [reflexivity|]. cbn [seq map]. rewrite IH. rewrite (Nat.add_assoc p n a). rewrite <- plus_n_Sm. reflexivity. }
  rewrite G. f_equal. f_equal. lia.
Qed.
Lemma tape_length d p n : length (tape d p n) = n. Proof. unfold tape. rewrite map_length, seq_length. reflexivity. Qed.
Lemma firstn_tape d p n m : m <= n -> firstn m (tape d p n) = tape d p m.
Proof.
  intros H. replace n with (m + (n - m)) by lia. rewrite <- tape_app, firstn_app, tape_length, Nat.sub_diag, firstn_O, app_nil_r.
  apply firstn_all2. rewrite tape_length. lia.
Qed.

Section Sound.
Variables (ch len : nat) (f : file).
Hypothesis F : file_ok ch len f.

Definition plain (s : setting) : Prop := v_paused s = false /\ v_rate s = f64_one.

Definition piece_ok (c : content) : Prop :=
  (length (c_channels c) = ch /\ Forall (fun d => length d = c_length c) (c_channels c)) /\ c_rate c = f_rate32 f /\ c_length c <= len.

Lemma piece (g : list f32 -> list f32) n : (forall d, In d (f_channels f) -> length (g d) = n) -> n <= len ->
  piece_ok (mk_content (map g (f_channels f)) (f_rate32 f)) /\
  forall k, k < ch -> channel k (mk_content (map g (f_channels f)) (f_rate32 f)) = g (nth k (f_channels f) []).
Proof.
  intros G N. destruct F as (C & _ & L & A & V). split.
  - assert (X : c_length (mk_content (map g (f_channels f)) (f_rate32 f)) = n).
    { unfold c_length. cbn [c_channels]. destruct (f_channels f) as [|d ds]; [cbn in L; lia|]. cbn [map]. apply G. left. reflexivity. }
    split; [|split; [reflexivity|lia]]. rewrite X. cbn [c_channels]. split; [rewrite map_length; exact L|].
    apply Forall_map, Forall_forall. exact G.
  - intros k K. unfold channel. cbn [c_channels]. rewrite (nth_indep _ [] (g [])) by (rewrite map_length; lia). apply map_nth.
Qed.

Lemma looped : forall ss p items, Forall plain ss -> delivered ch len f p ss items ->
  exists l t, items = map Data l /\ Forall piece_ok l /\ length ss <= t /\
    forall k, k < ch -> concat (map (channel k) l) = tape (nth k (f_channels f) []) p t.
Proof.
  destruct F as (C & N & L & A & V).
  induction ss as [|s ss IH]; intros p [|it items] P D; try contradiction.
  - exists [], 0. split; [reflexivity|]. split; [constructor|]. split; [cbn; lia|]. intros; reflexivity.
  - destruct (Forall_inv P) as [P1 P2]. cbn [delivered] in D. rewrite P1, P2 in D. destruct D as (n & Hn & -> & D).
    rewrite per_call_one in Hn. pose proof (Nat.mod_upper_bound p len ltac:(lia)) as PM.
    destruct (IH _ _ (Forall_inv_tail P) D) as (l & t & -> & Fl & T & E). rewrite (label_one f V).
    destruct (piece (fun d => tape d p n) n) as [Q1 Q2]; [intros; apply tape_length|lia|].
    exists (mk_content (map (fun d => tape d p n) (f_channels f)) (f_rate32 f) :: l), (n + t).
    split; [reflexivity|]. split; [constructor; assumption|]. split; [cbn; lia|].
    intros k K. cbn [map concat]. rewrite (Q2 k K), (E k K), tape_app. reflexivity.
Qed.

Lemma once : forall ss p items, Forall plain ss -> p <= len -> len - p < length ss -> delivered_once ch len f p ss items ->
  exists l j, items = map Data l ++ repeat Fails j /\ Forall piece_ok l /\ length l <= len - p /\ length ss = length l + j /\
    forall k, k < ch -> concat (map (channel k) l) = skipn p (nth k (f_channels f) []).
Proof.
  destruct F as (C & N & L & A & V).
  assert (Stop : forall ss p items, Forall plain ss -> len <= p -> delivered_once ch len f p ss items -> items = repeat Fails (length ss)).
  { induction ss as [|s ss IH]; intros p [|it items] P Q D; try contradiction; [reflexivity|].
    destruct (Forall_inv P) as [P1 P2]. cbn [delivered_once] in D. rewrite P1 in D. replace (len <=? p) with true in D by (symmetry; apply Nat.leb_le; exact Q).
    destruct D as [-> D]. cbn [length repeat]. f_equal. eapply IH; [exact (Forall_inv_tail P)|exact Q|exact D]. }
  induction ss as [|s ss IH]; intros p items P Q Ls D; [cbn in Ls; lia|].
  destruct (le_lt_dec len p) as [E|E].
  - exists [], (length (s :: ss)). split; [apply (Stop _ p); auto|]. split; [constructor|]. split; [cbn; lia|]. split; [reflexivity|].
    intros k K. cbn [map concat]. rewrite skipn_all2; [reflexivity|]. rewrite Forall_forall in A. rewrite (A (nth k (f_channels f) [])); [lia|apply nth_In; lia].
  - destruct items as [|it items]; [contradiction|]. destruct (Forall_inv P) as [P1 P2]. cbn [delivered_once] in D. rewrite P1, P2 in D.
    replace (len <=? p) with false in D by (symmetry; apply Nat.leb_gt; exact E). destruct D as (n & Hn & -> & D). rewrite per_call_one in Hn.
    destruct (IH (p + n) items (Forall_inv_tail P)) as (l & j & -> & Fl & Ll & Lj & X); [lia|cbn in Ls; lia|exact D|]. rewrite (label_one f V).
    destruct (piece (fun d => firstn n (skipn p d)) n) as [Q1 Q2]; [|lia|].
    { intros d Hd. rewrite Forall_forall in A. rewrite firstn_length, skipn_length, (A d Hd). lia. }
    exists (mk_content (map (fun d => firstn n (skipn p d)) (f_channels f)) (f_rate32 f) :: l), j.
    split; [reflexivity|]. split; [constructor; assumption|]. split; [cbn; lia|]. split; [cbn; lia|].
    intros k K. cbn [map concat]. rewrite (Q2 k K), (X k K). rewrite <- (skipn_skip n p). apply firstn_skipn.
Qed.

Lemma pieces_ok l : (Z.of_nat len <= 2 ^ 40)%Z -> Forall piece_ok l ->
  source_ok ch l /\ Forall (fun c => rate_ok (c_rate c) /\ (Z.of_nat (c_length c) <= 2 ^ 40)%Z) l /\
  forall rs, Forall2 (fun d r => resample d (f_rate32 f) = Ok r) l rs -> rs = l.
Proof.
  intros B H. destruct F as (_ & _ & _ & _ & V). split; [|split].
  - eapply Forall_impl; [|exact H]. intros c (X & _). exact X.
  - eapply Forall_impl; [|exact H]. intros c (_ & R & X). rewrite R. split; [exact V|lia].
  - intros rs R. induction R as [|d r l rs D R IH]; [reflexivity|]. destruct (Forall_inv H) as (_ & Rd & _). rewrite <- Rd in D.
    rewrite resample_same in D by (rewrite Rd; exact V). injection D as <-. f_equal. apply IH. exact (Forall_inv_tail H).
Qed.

Lemma timeline_idle : forall n s, timeline s [] (repeat [] n) = repeat s n.
Proof. induction n as [|n IH]; intros s; [reflexivity|]. cbn. rewrite IH. reflexivity. Qed.
Lemma concat_idle {A} n : concat (repeat (@nil A) n) = []. Proof. induction n; auto. Qed.

Section Whole.
Hypothesis B : (Z.of_nat len <= 2 ^ 40)%Z.
Variable e : element.
Hypotheses (Hq : e_queue e = []) (Hp : e_paused e = false) (Hr : e_rate e = f64_one).

Lemma plain_timeline n : Forall plain (timeline (settings_of e) (e_queue e) (repeat [] n)).
Proof. rewrite Hq, timeline_idle. apply Forall_forall. intros x X. apply repeat_spec in X. subst x. split; assumption. Qed.
Lemma timeline_len n : length (timeline (settings_of e) (e_queue e) (repeat [] n)) = n.
Proof. rewrite Hq, timeline_idle. apply repeat_length. Qed.
Lemma idle_steady n : Forall (steady f) (e_queue e ++ concat (repeat [] n)).
Proof. rewrite Hq, concat_idle. constructor. Qed.

Lemma gapless p m n s : e_loop e = true -> p < len -> e_pos e = Z.of_nat p -> 0 < s -> 128 * m <= n ->
  exists items e' qs r', stream f e (repeat [] n) = Ok (items, e') /\
    media_run (f_rate32 f) m s (mk_renderer (mk_rechunk items None) false) = Ok (map (fun q => (q, true)) qs, r') /\
    length qs = m /\ Forall (separate ch) qs /\
    forall k, k < ch -> concat (map (out_channel k) qs) = tape (nth k (f_channels f) []) p (128 * m).
Proof.
  intros L P E S M. pose proof F as (C & N & LC & A & V).
  destruct (stream_loop ch len f F (repeat [] n) e p L) as (items & e' & St & D).
  { rewrite Nat.mod_small by exact P. exact E. } { rewrite Hr. apply one_good, V. } { apply idle_steady. }
  destruct (looped _ _ _ (plain_timeline n) D) as (l & t & -> & Pl & T & Q). rewrite timeline_len in T.
  destruct (pieces_ok l B Pl) as (S1 & S2 & S3).
  destruct (node_outputs (f_rate32 f) ch V C [] l m s S S1 S2) as (rs & R1 & R2 & R3). rewrite (S3 rs R1) in *.
  assert (Tt : total l = t). { unfold total. rewrite (Q 0) by lia. apply tape_length. }
  destruct R3 as (qs & r' & Run & Lq & Sq & O); [lia|]. rewrite app_nil_r in Run.
  exists (map Data l), e', qs, r'. split; [exact St|]. split; [exact Run|]. split; [exact Lq|]. split; [exact Sq|].
  intros k K. rewrite (O k K), (Q k K). apply firstn_tape. lia.
Qed.

Lemma fails_run sr : forall j s, media_run sr j s (mk_renderer (mk_rechunk (repeat Fails j) None) true) = Ok (repeat (silent_quantum, false) j, mk_renderer (mk_rechunk [] None) true).
Proof. induction j as [|j IH]; intros s; [reflexivity|]. cbn [media_run repeat media_process next n_stream r_buffer r_input bind fst snd]. unfold media_process. cbn [next n_stream r_buffer r_input bind fst snd]. rewrite IH. reflexivity. Qed.

Lemma fails_run_some sr : forall i j s, i <= j -> exists r', media_run sr i s (mk_renderer (mk_rechunk (repeat Fails j) None) true) = Ok (repeat (silent_quantum, false) i, r').
Proof.
  induction i as [|i IH]; intros j s H; [eexists; reflexivity|]. destruct j as [|j]; [lia|].
  cbn [media_run repeat]. unfold media_process. cbn [next n_stream r_buffer r_input bind fst snd].
  destruct (IH j (s + 32)) as (r' & E); [lia|]. rewrite E. eexists. reflexivity.
Qed.

Lemma end_of_file p i n s : e_loop e = false -> p <= len -> e_pos e = Z.of_nat p -> 0 < s -> len - p + 1 + i <= n ->
  exists items e' qs r', stream f e (repeat [] n) = Ok (items, e') /\
    media_run (f_rate32 f) ((len - p) / 128 + 1 + i) s (mk_renderer (mk_rechunk items None) false) =
      Ok (map (fun q => (q, true)) qs ++ repeat (silent_quantum, false) (1 + i), r') /\
    length qs = (len - p) / 128 /\ Forall (separate ch) qs /\
    forall k, k < ch -> concat (map (out_channel k) qs) = firstn (128 * ((len - p) / 128)) (skipn p (nth k (f_channels f) [])).
Proof.
  intros L P E S M. pose proof F as (C & N & LC & A & V).
  destruct (stream_once ch len f F (repeat [] n) e p L E) as (items & e' & St & D).
  { rewrite Hr. apply one_good, V. } { apply idle_steady. }
  destruct (once _ _ _ (plain_timeline n) P ltac:(rewrite timeline_len; lia) D) as (l & j & -> & Pl & Ll & Lj & Q). rewrite timeline_len in Lj.
  destruct (pieces_ok l B Pl) as (S1 & S2 & S3). destruct j as [|j]; [lia|]. cbn [repeat] in *.
  destruct (node_error (f_rate32 f) ch V C (repeat Fails j) l s S S1 S2) as (rs & R1 & qs & Run & Lq & Sq & O). rewrite (S3 rs R1) in *.
  assert (Tt : total l = len - p). { unfold total. rewrite (Q 0) by lia. rewrite skipn_length. rewrite Forall_forall in A. rewrite (A (nth 0 (f_channels f) [])); [reflexivity|apply nth_In; lia]. }
  rewrite Tt in *. destruct (fails_run_some (f_rate32 f) i j (s + 32 * ((len - p) / 128 + 1))) as (r' & Fr); [lia|].
  exists (map Data l ++ Fails :: repeat Fails j), e', qs, r'. split; [exact St|]. split; [|split; [exact Lq|split; [exact Sq|]]].
  - rewrite (media_run_app _ ch C), Run. cbn [bind fst snd]. rewrite Fr. cbn [bind fst snd]. rewrite <- app_assoc. reflexivity.
  - intros k K. rewrite (O k K), (Q k K). reflexivity.
Qed.
End Whole.
End Sound.

(** a seek that waits: the same as an element that is already there *)
Definition moved (f : file) (e : element) (v : f64) : element :=
  mk_element (f64_to_usize (f64_mul v (f64_of_f32 (f_rate32 f)))) v (e_loop e) (e_paused e) (e_rate e) [].
Lemma stream_seek f e v arrivals : e_queue e = [Seek v] -> stream f e ([] :: arrivals) = stream f (moved f e v) ([] :: arrivals).
Proof.
  intros Q. cbn [stream]. replace (rts_next f (send (moved f e v) [])) with (rts_next f (send e [])); [reflexivity|].
  unfold rts_next. replace (receive f (send e [])) with (receive f (send (moved f e v) [])); [reflexivity|].
  unfold receive, send. cbn [e_queue moved]. rewrite Q. reflexivity.
Qed.
