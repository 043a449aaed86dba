(** Pausing a render thread does not lose, repeat or reorder audio. *)
From Coq Require Import List Arith Bool Lia.
From Verif Require Import Thread_Model Thread_Spec Thread_Proofs Thread_ReportProofs Pause_Spec.
Import ListNotations.
Local Open Scope nat_scope.

Lemma interrupted_app {T} (z : T) a b c d : interrupted z a b -> interrupted z c d -> interrupted z (a ++ c) (b ++ d).
Proof. induction 1; intros; cbn; [assumption| |]; constructor; auto. Qed.
Lemma interrupted_refl {T} (z : T) a : interrupted z a a.
Proof. induction a; constructor; auto. Qed.
Lemma interrupted_silence {T} (z : T) k : interrupted z [] (repeat z k).
Proof. induction k; constructor; auto. Qed.

Section PauseProofs.
Context {G M V T : Type}.
Variable GO : @graph_ops G M V.
Variable zero : V.
Variable conv : V -> T.
Variable RQ : nat.
Hypothesis RQ_pos : 0 < RQ.
Hypothesis GOK : graph_ok GO RQ.
Notation thread := (@thread G V).
Notation cmsg := (@cmsg G M).
Notation frames_from := (frames_from zero conv RQ).
Notation undelivered := (undelivered zero conv RQ).
Notation heard n es := (concat (map (sound (M:=M) zero conv RQ n) es)).
Notation stream n qs := (concat (map (fun q => frames_from n q 0) qs)).

(** [quanta] looks at the graph and the clock only *)
Lemma quanta_same k : forall t t', t_graph t' = t_graph t -> t_frames t' = t_frames t -> quanta GO RQ k t' = quanta GO RQ k t.
Proof.
  induction k as [|k IH]; intros t t' A B; [reflexivity|]. cbn [quanta]. unfold render_quantum. rewrite A, B.
  destruct (t_graph t) as [g|]; [|reflexivity]. destruct (g_render GO g (t_frames t)) as [[g' q]|]; [|reflexivity].
  f_equal. apply IH; cbn; auto.
Qed.

Lemma handle_pauses q : forall t t' q', Forall pause_or_resume q -> handle_all GO t q = Some (t', q') ->
  q' = [] /\ t_graph t' = t_graph t /\ t_frames t' = t_frames t.
Proof.
  induction q as [|m q IH]; intros t t' q' F H; cbn [handle_all] in H.
  - injection H as <- <-. auto.
  - apply Forall_cons_iff in F. destruct F as [Fm F]. destruct m; try contradiction; cbn [handle_control_message] in H;
    (destruct (IH _ _ _ F H) as (A & B & C); split; [exact A|]; split; [exact B|exact C]).
Qed.

Lemma pause_history t es t' : Forall pause_or_resume (handled es) -> history GO RQ t es t' ->
  quanta GO RQ (length (quanta_of es)) t = Some (quanta_of es) /\
  (forall n, interrupted (conv zero) (stream n (quanta_of es)) (heard n es)) /\
  t_frames t' = t_frames t + length (quanta_of es) * RQ /\
  (forall k qs, quanta GO RQ k t' = Some qs -> quanta GO RQ (length (quanta_of es) + k) t = Some (quanta_of es ++ qs)).
Proof.
  intros F H. revert F. induction H as [t|t e t1 es t2 He Hes IH]; intros F.
  - cbn. repeat split; auto. intros; constructor.
  - inversion He; subst.
    + unfold handled in F. cbn [flat_map] in F. apply Forall_app in F. destruct F as [F1 F2].
      match goal with X : handle_all _ _ _ = _ |- _ => destruct (handle_pauses _ _ _ _ F1 X) as (_ & A & B) end.
      destruct (IH F2) as (I1 & I2 & I3 & I4). change (quanta_of (Receive q :: es)) with (quanta_of es). rewrite <- B.
      split; [etransitivity; [|exact I1]; apply quanta_same; auto|]. split; [exact I2|]. split; [exact I3|].
      intros k qs Hk. rewrite <- (I4 _ _ Hk). symmetry. apply quanta_same; auto.
    + unfold handled in F. cbn [flat_map app] in F. destruct (IH F) as (I1 & I2 & I3 & I4).
      assert (B : t_frames t1 = t_frames t + RQ).
      { unfold render_quantum in H. destruct (t_graph t) as [g|]; [|discriminate]. destruct (g_render GO g (t_frames t)) as [[g' q']|]; [|discriminate]. injection H as <- <-. reflexivity. }
      unfold quanta_of in *. cbn [flat_map app length quanta Nat.add]. rewrite H, I1. cbn [option_map]. split; [reflexivity|]. split; [|split; [lia|]].
      * intros n. cbn [map concat sound]. apply interrupted_app; [apply interrupted_refl|apply I2].
      * intros k qs Hk. rewrite (I4 _ _ Hk). reflexivity.
    + unfold handled in F. cbn [flat_map app] in F. destruct (IH F) as (I1 & I2 & I3 & I4). unfold quanta_of in *. cbn [flat_map app].
      split; [exact I1|]. split; [|split; [exact I3|exact I4]]. intros n. cbn [map concat sound].
      apply (interrupted_app _ []); [apply interrupted_silence|apply I2].
Qed.

Lemma gapless n bufs t rest bs t' outs rest' bs' : 0 < n -> Forall (fun buf => exists m, length buf = m * n) bufs ->
  t_offset t = None -> Forall pause_or_resume (rest ++ concat bs) ->
  callbacks GO zero conv RQ n t bufs rest bs = Some (t', outs, rest', bs') ->
  exists k qs, quanta GO RQ k t = Some qs /\ interrupted (conv zero) (stream n qs) (concat outs ++ undelivered n t') /\
    t_frames t' = t_frames t + k * RQ /\ map (@length T) outs = map (@length T) bufs.
Proof.
  intros Hn HF HO F H. eapply callbacks_stream in H; eauto; [|unfold offset_ok; rewrite HO; exact I].
  destruct H as (es & H1 & H2 & H3 & H4 & H5). rewrite H5 in F. apply Forall_app in F. destruct F as [F _].
  destruct (pause_history _ _ _ F H1) as (Q1 & Q2 & Q3 & _).
  exists (length (quanta_of es)), (quanta_of es). split; [etransitivity; [|exact Q1]; apply quanta_same; reflexivity|].
  rewrite H2. unfold Thread_Spec.undelivered. rewrite HO. split; [apply Q2|]. split; [exact Q3|exact H3].
Qed.

(** ** While the thread is paused *)
Definition paused (t : thread) (rest : list cmsg) (bs : list (list cmsg)) : Prop :=
  t_listening t = true /\ no_recycle (rest ++ concat bs) /\ pauses rest (t_suspended t) = true /\ Forall (fun m => ~ resumes m) (concat bs).

Lemma pauses_stays (q : list cmsg) : Forall (fun m => ~ resumes m) q -> pauses q true = true.
Proof. induction q as [|m q IH]; intros F; [reflexivity|]. apply Forall_cons_iff in F. destruct F as [A F]. destruct m; try (exact (IH F)). exfalso. apply A. exact I. Qed.

Lemma handle_listens q : forall t t' q', no_recycle q -> handle_all GO t q = Some (t', q') ->
  q' = [] /\ t_listening t' = t_listening t /\ t_frames t' = t_frames t.
Proof.
  induction q as [|m q IH]; intros t t' q' F H; cbn [handle_all] in H.
  - injection H as <- <-. auto.
  - apply Forall_cons_iff in F. destruct F as [Fm F]. destruct (handle_control_message GO t m) as [[t1|t1]|] eqn:E; [| |discriminate].
    + destruct (IH _ _ _ F H) as (A & B & C). split; [exact A|]. rewrite B, C.
      destruct m; cbn [handle_control_message] in E; try (injection E as <-; auto; fail).
      * destruct (t_graph t); [|discriminate]. destruct (g_apply GO _ _); [|discriminate]. injection E as <-. auto.
      * destruct (t_graph t); discriminate.
    + destruct m; cbn [handle_control_message] in E; try discriminate.
      * destruct (t_graph t); [|discriminate]. destruct (g_apply GO _ _); discriminate.
      * congruence.
Qed.

Lemma paused_receive t rest bs t' rest' bs' : paused t rest bs -> receive GO t rest bs = Some (t', rest', bs') ->
  rest' = [] /\ t_suspended t' = true /\ t_frames t' = t_frames t /\ t_offset t' = t_offset t /\ paused t' rest' bs'.
Proof.
  intros (L & R & P & N) H. pose proof (receive_history GO RQ _ _ _ _ _ _ H) as (_ & _ & HO & _).
  unfold receive, handle_control_messages in H. rewrite L in H.
  destruct (handle_all GO t (rest ++ hd [] bs)) as [[t1 r1]|] eqn:E; [|discriminate]. injection H as <- <- <-.
  assert (EB : concat bs = hd [] bs ++ concat (tl bs)) by (destruct bs; reflexivity). rewrite EB in R, N.
  rewrite app_assoc in R. apply Forall_app in R. destruct R as [R1 R2]. apply Forall_app in N. destruct N as [N1 N2].
  destruct (handle_listens _ _ _ _ R1 E) as (-> & A & B).
  pose proof (handle_all_reports GO _ _ _ _ E) as (ms & Ems & _ & _ & _ & SP). rewrite app_nil_r in Ems. subst ms.
  rewrite pauses_app, P, pauses_stays in SP by exact N1.
  split; [reflexivity|]. split; [exact SP|]. split; [exact B|]. split; [exact HO|].
  split; [congruence|]. split; [exact R2|]. split; [exact SP|exact N2].
Qed.

Lemma paused_next n t buf rest bs t' out rest' bs' : paused t rest bs -> t_offset t = None ->
  render_next GO zero conv RQ n t buf rest bs = Some (t', out, rest', bs') ->
  out = repeat (conv zero) (length buf) /\ t_frames t' = t_frames t /\ t_offset t' = None /\ paused t' rest' bs'.
Proof.
  intros P O H. unfold render_next in H. destruct (receive GO t rest bs) as [[[t1 r1] b1]|] eqn:E; [|discriminate].
  destruct (paused_receive _ _ _ _ _ _ P E) as (_ & A & B & C & D). rewrite A in H. cbn [orb] in H. injection H as <- <- <- <-.
  split; [|split; [exact B|split; [congruence|exact D]]]. clear. induction buf as [|x b IH]; cbn; [reflexivity|]. f_equal. exact IH.
Qed.

Lemma paused_inner n t buf rest bs t' out rest' bs' m : 0 < n -> length buf = m * n -> offset_ok RQ n t -> paused t rest bs ->
  render_inner GO zero conv RQ n t buf rest bs = Some (t', out, rest', bs') ->
  out = firstn (length buf) (undelivered n t ++ repeat (conv zero) (length buf)) /\
  undelivered n t' = skipn (length buf) (undelivered n t) /\ t_frames t' = t_frames t /\ offset_ok RQ n t' /\ paused t' rest' bs'.
Proof.
  intros Hn Hm Hok P H. destruct (inner_stream GO zero conv RQ RQ_pos GOK n Hn _ _ _ _ _ _ _ _ _ Hm Hok H) as (_ & _ & _ & _ & Hok' & _).
  unfold render_inner in H. destruct (t_offset t) as [[o prev]|] eqn:EO.
  - unfold offset_ok in Hok. rewrite EO in Hok. destruct Hok as (Ho & Hp1 & Hp2). cbv zeta in H.
    set (k := Nat.min (RQ - o) m) in *.
    assert (Hk : Nat.min ((RQ - o) * n) (length buf) = k * n) by (rewrite Hm, Nat.mul_min_distr_r; reflexivity).
    rewrite Hk in H.
    assert (Hfl : length (firstn (k * n) buf) = k * n) by (rewrite firstn_length, Hm; unfold k; nia).
    rewrite (copy_all zero conv RQ RQ_pos n o prev k) in H by (auto; unfold k; lia).
    assert (Hskl : length (skipn (k * n) buf) = (m - k) * n) by (rewrite skipn_length, Hm; nia).
    assert (HU : undelivered n t = frames_from n prev o) by (unfold Thread_Spec.undelivered; rewrite EO; reflexivity).
    rewrite HU.
    destruct (skipn (k * n) buf) as [|y next] eqn:EN.
    + injection H as <- <- <- <-. assert (Hmk : m = k) by (cbn in Hskl; unfold k in *; nia).
      rewrite firstn_app, frames_length, Hm, Hmk.
      replace (k * n - (RQ - o) * n) with 0 by (unfold k; nia). cbn [firstn]. rewrite app_nil_r.
      split; [reflexivity|]. split; [|split; [reflexivity|split; [exact Hok'|exact P]]].
      unfold Thread_Spec.undelivered. cbn [set_offset t_offset]. rewrite Hfl, Nat.div_mul by lia.
      assert (Hle : k <= RQ - o) by (unfold k; lia).
      pose proof (frames_split zero conv RQ RQ_pos n prev o k Hle) as S1. 
      assert (L1 : length (firstn (k * n) (frames_from n prev o)) = k * n) by (rewrite firstn_length, frames_length; nia).
      rewrite <- (firstn_skipn (k * n) (frames_from n prev o)) in S1 at 1. apply app_inv_head in S1. symmetry. exact S1.
    + destruct (render_next GO zero conv RQ n (set_offset t None) (y :: next) rest bs) as [[[[t1 o1] r1] b1]|] eqn:EI; [|discriminate].
      injection H as <- <- <- <-.
      assert (Hlt : k = RQ - o /\ k < m) by (cbn [length] in Hskl; unfold k in *; nia). destruct Hlt as [Ek Hlt].
      apply paused_next in EI; [|exact P|reflexivity]. destruct EI as (-> & A & B & C).
      rewrite Hskl. rewrite (firstn_all2 (n := k * n)) by (rewrite frames_length; nia).
      rewrite firstn_app, frames_length, Hm. rewrite (firstn_all2 (n := m * n)) by (rewrite frames_length; nia).
      rewrite skipn_all2 by (rewrite frames_length; nia).
      split; [|split; [|split; [exact A|split; [exact Hok'|exact C]]]].
      * f_equal. replace (m * n - (RQ - o) * n) with ((m - k) * n) by nia. 
        replace (m * n) with ((m - k) * n + k * n) by nia. rewrite repeat_app, firstn_app, repeat_length, Nat.sub_diag. cbn [firstn].
        rewrite app_nil_r. symmetry. apply firstn_all2. rewrite repeat_length. lia.
      * unfold Thread_Spec.undelivered. rewrite B. reflexivity.
  - apply paused_next in H; [|exact P|exact EO]. destruct H as (-> & A & B & C).
    unfold Thread_Spec.undelivered. rewrite EO, B. cbn [app]. rewrite skipn_nil.
    split; [symmetry; apply firstn_all2; rewrite repeat_length; lia|]. split; [reflexivity|]. split; [exact A|]. split; [exact Hok'|exact C].
Qed.

Lemma firstn_pad {A} (z : A) a b (u : list A) :
  firstn a (u ++ repeat z a) ++ firstn b (skipn a u ++ repeat z b) = firstn (a + b) (u ++ repeat z (a + b)).
Proof.
  revert u. induction a as [|a IH]; intros u; [reflexivity|]. destruct u as [|x u].
  - cbn [skipn app]. rewrite !firstn_all2 by (rewrite repeat_length; lia). symmetry. apply repeat_app.
  - cbn [app firstn skipn Nat.add]. f_equal. 
    rewrite !firstn_app. rewrite <- (firstn_app (a + b)). rewrite <- (firstn_app a).
    specialize (IH u). 
    assert (Drop : forall k j (l : list A), k <= j -> firstn k (l ++ repeat z j) = firstn k (l ++ repeat z k)).
    { intros k j l Hkj. rewrite !firstn_app. f_equal. replace j with (k + (j - k)) by lia. rewrite repeat_app, firstn_app, repeat_length.
      replace (k - length l - k) with 0 by lia. cbn [firstn]. rewrite app_nil_r. reflexivity. }
    rewrite <- (firstn_app b). rewrite (Drop a (S a)) by lia. rewrite (Drop (a + b) (S (a + b))) by lia. exact IH.
Qed.

Lemma skipn_plus {A} a : forall b (l : list A), skipn b (skipn a l) = skipn (a + b) l.
Proof. induction a as [|a IH]; intros b l; [reflexivity|]. destruct l as [|x l]; [cbn; apply skipn_nil|]. cbn. apply IH. Qed.

Lemma paused_callbacks n : 0 < n -> forall bufs t rest bs t' outs rest' bs',
  Forall (fun buf => exists m, length buf = m * n) bufs -> offset_ok RQ n t -> paused t rest bs ->
  callbacks GO zero conv RQ n t bufs rest bs = Some (t', outs, rest', bs') ->
  concat outs = firstn (length (concat bufs)) (undelivered n t ++ repeat (conv zero) (length (concat bufs))) /\
  undelivered n t' = skipn (length (concat bufs)) (undelivered n t) /\ t_frames t' = t_frames t /\ offset_ok RQ n t' /\ paused t' rest' bs'.
Proof.
  intros Hn. induction bufs as [|buf bufs IH]; intros t rest bs t' outs rest' bs' HF Hok P H; cbn [callbacks] in H.
  - injection H as <- <- <- <-. cbn. auto.
  - apply Forall_cons_iff in HF. destruct HF as [[m Hm] HF].
    destruct (render_inner GO zero conv RQ n t buf rest bs) as [[[[t1 o1] r1] b1]|] eqn:EI; [|discriminate].
    destruct (callbacks GO zero conv RQ n t1 bufs r1 b1) as [[[[t2 o2] r2] b2]|] eqn:EC; [|discriminate]. injection H as <- <- <- <-.
    destruct (paused_inner _ _ _ _ _ _ _ _ _ _ Hn Hm Hok P EI) as (A1 & A2 & A3 & A4 & A5).
    destruct (IH _ _ _ _ _ _ _ HF A4 A5 EC) as (B1 & B2 & B3 & B4 & B5).
    cbn [concat]. rewrite app_length. split; [|split; [|split; [congruence|auto]]].
    + rewrite A1, B1, A2. apply firstn_pad.
    + rewrite B2, A2. apply skipn_plus.
Qed.

(** ** Suspend, then resume *)
Lemma block_rest b l k : 0 < b -> l <= k * b < l + b -> k * b - l = (b - l mod b) mod b.
Proof.
  intros Hb Hk. pose proof (Nat.div_mod l b ltac:(lia)) as D. pose proof (Nat.mod_upper_bound l b ltac:(lia)) as U.
  set (d := l / b) in *. set (r := l mod b) in *. destruct (Nat.eq_dec r 0) as [E|E].
  - rewrite E, Nat.sub_0_r, Nat.mod_same by lia. assert (k = d) by nia. subst k. nia.
  - rewrite Nat.mod_small by lia. assert (k = S d) by nia. subst k. nia.
Qed.

Lemma firstn_firstn_app {A} (l1 l2 : list A) k : k <= length l1 -> firstn k (l1 ++ l2) = firstn k l1.
Proof. intros H. rewrite firstn_app. replace (k - length l1) with 0 by lia. cbn [firstn]. apply app_nil_r. Qed.

(** the stream of the first quanta, long enough, does not depend on how many there are *)
Lemma stream_agrees n k1 k2 t qs1 qs2 j : quanta GO RQ k1 t = Some qs1 -> quanta GO RQ k2 t = Some qs2 ->
  j <= k1 * (RQ * n) -> j <= k2 * (RQ * n) -> firstn j (stream n qs1) = firstn j (stream n qs2).
Proof.
  intros H1 H2 L1 L2. pose proof (quanta_length GO RQ _ _ _ H1) as E1. pose proof (quanta_length GO RQ _ _ _ H2) as E2.
  destruct (le_lt_dec k1 k2) as [L|L].
  - assert (X : exists r, qs2 = qs1 ++ r) by (eapply quanta_prefix; eauto). destruct X as [r ->]. rewrite map_app, concat_app. symmetry. apply firstn_firstn_app. rewrite stream_length by assumption. nia.
  - assert (X : exists r, qs1 = qs2 ++ r) by (apply (quanta_prefix GO RQ RQ_pos k2 k1 t qs2 qs1 H2 H1); lia). destruct X as [r ->]. rewrite map_app, concat_app. apply firstn_firstn_app. rewrite stream_length by assumption. nia.
Qed.

(** ** While the thread plays *)
Definition playing (t : thread) (rest : list cmsg) : Prop :=
  t_listening t = true /\ Forall pause_or_resume rest /\ pauses rest (t_suspended t) = false /\
  exists g, t_graph t = Some g /\ g_active GO g = true.

(** [qs] are the next quanta of [t], and then it goes on as [t'] *)
Definition goes_on (t : thread) (qs : list (list (list V))) (t' : thread) : Prop :=
  quanta GO RQ (length qs) t = Some qs /\ t_frames t' = t_frames t + length qs * RQ /\
  forall k qs', quanta GO RQ k t' = Some qs' -> quanta GO RQ (length qs + k) t = Some (qs ++ qs').

Lemma goes_on_app t q1 t1 q2 t2 : goes_on t q1 t1 -> goes_on t1 q2 t2 -> goes_on t (q1 ++ q2) t2.
Proof.
  intros (A1 & A2 & A3) (B1 & B2 & B3). unfold goes_on. rewrite app_length. split; [apply A3; exact B1|]. split; [lia|].
  intros k qs' H. rewrite <- app_assoc, <- Nat.add_assoc. apply A3, B3, H.
Qed.
Lemma goes_on_same t t1 : t_graph t1 = t_graph t -> t_frames t1 = t_frames t -> goes_on t [] t1.
Proof. intros A B. split; [reflexivity|]. split; [cbn; lia|]. intros k qs' H. cbn. rewrite <- H. symmetry. apply quanta_same; auto. Qed.

Lemma pauses_only_graph t ms bs t' q' bs' : Forall pause_or_resume ms -> concat bs = [] -> t_listening t = true -> receive GO t ms bs = Some (t', q', bs') ->
  q' = [] /\ concat bs' = [] /\ t_graph t' = t_graph t /\ t_frames t' = t_frames t /\ t_listening t' = true /\ t_suspended t' = pauses ms (t_suspended t).
Proof.
  intros F EB L H. assert (EB' : hd [] bs = [] /\ concat (tl bs) = []) by (destruct bs as [|x bs]; [auto|]; cbn in EB; apply app_eq_nil in EB; exact EB).
  destruct EB' as [E1 E2]. unfold receive, handle_control_messages in H. rewrite L, E1 in H. rewrite app_nil_r in H.
  destruct (handle_all GO t ms) as [[t1 r1]|] eqn:E; [|discriminate]. injection H as <- <- <-.
  destruct (handle_pauses _ _ _ _ F E) as (A & B & C). split; [exact A|]. split; [exact E2|]. split; [exact B|]. split; [exact C|].
  assert (R : no_recycle ms). { eapply Forall_impl; [|exact F]. intros m Hm E3. subst m. exact Hm. }
  destruct (handle_listens _ _ _ _ R E) as (_ & D & _). split; [congruence|].
  pose proof (handle_all_reports GO _ _ _ _ E) as (m0 & Em & _ & _ & _ & SP). rewrite A, app_nil_r in Em. subst m0. exact SP.
Qed.

Hypothesis SA : stays_active GO.

Lemma live_goes_on t es t' : live GO t -> t_listening t = true -> handled es = [] -> history GO RQ t es t' ->
  goes_on t (quanta_of es) t' /\ (forall n, heard n es = stream n (quanta_of es)) /\ playing t' [].
Proof.
  intros L LL HH H. destruct (live_history GO zero conv RQ RQ_pos SA _ _ _ L HH H) as (_ & _ & A & _).
  assert (F : Forall pause_or_resume (handled es)) by (rewrite HH; constructor).
  destruct (pause_history _ _ _ F H) as (B1 & _ & B2 & B3). split; [split; [exact B1|split; [exact B2|exact B3]]|]. split; [exact A|].
  clear - H L LL HH SA. revert L LL HH. induction H as [t|t e t1 es t2 He Hes IH]; intros L LL HH.
  - destruct L as [L1 L2]. split; [exact LL|]. split; [constructor|]. split; [exact L1|exact L2].
  - inversion He; subst.
    + assert (q = [] /\ handled es = []) as [-> HH'].
      { unfold handled in HH. cbn [flat_map] in HH. apply app_eq_nil in HH. exact HH. }
      match goal with X : handle_all _ _ [] = _ |- _ => cbn in X; injection X as <- end. apply IH; assumption.
    + apply IH; [| |exact HH].
      * exact (proj1 (live_render GO RQ SA _ _ _ L H)).
      * unfold render_quantum in H. destruct (t_graph t) as [g|]; [|discriminate]. destruct (g_render GO g (t_frames t)) as [[g' q']|]; [|discriminate]. injection H as <- <-. exact LL.
    + apply IH; assumption.
Qed.

Lemma playing_next n t buf rest bs t' out rest' bs' m : 0 < n -> length buf = m * n -> concat bs = [] -> playing t rest -> t_offset t = None ->
  render_next GO zero conv RQ n t buf rest bs = Some (t', out, rest', bs') ->
  rest' = [] /\ concat bs' = [] /\ playing t' [] /\
  exists qs, goes_on t qs t' /\ out ++ undelivered n t' = stream n qs.
Proof.
  intros Hn Hm EB (L & F & P & g & Hg & Ha) O H. unfold render_next in H. destruct (receive GO t rest bs) as [[[t1 r1] b1]|] eqn:E; [|discriminate].
  pose proof (receive_history GO RQ _ _ _ _ _ _ E) as (_ & _ & HO & _).
  destruct (pauses_only_graph _ _ _ _ _ _ F EB L E) as (-> & EB1 & A & B & C & D). rewrite D, P, A, Hg, Ha in H. cbn [orb negb] in H.
  unfold chunks in H. eapply (chunks_stream GO zero conv RQ RQ_pos GOK n Hn) in H; [|exact Hm|reflexivity|congruence].
  destruct H as (es & H1 & H2 & H3 & H4 & H5). rewrite EB1 in H5. cbn [app] in H5. symmetry in H5. apply app_eq_nil in H5. destruct H5 as [H5 H6]. apply app_eq_nil in H6. destruct H6 as [H6 H7].
  assert (L1 : live GO (core t1)). { split; [cbn; congruence|]. exists g. split; [cbn; congruence|exact Ha]. }
  destruct (live_goes_on _ _ _ L1 C H5 H1) as (X1 & X2 & X3).
  split; [exact H6|]. split; [exact H7|]. split; [exact X3|].
  exists (quanta_of es). split; [|rewrite H2; apply X2].
  rewrite <- (app_nil_r (quanta_of es)). apply (goes_on_app t (quanta_of es) (core t')); [|apply goes_on_same; reflexivity].
  apply (goes_on_app t [] (core t1)); [apply goes_on_same; cbn; congruence|exact X1].
Qed.

Lemma playing_inner n t buf rest bs t' out rest' bs' m : 0 < n -> length buf = m * n -> concat bs = [] -> playing t rest -> offset_ok RQ n t ->
  render_inner GO zero conv RQ n t buf rest bs = Some (t', out, rest', bs') ->
  concat bs' = [] /\ playing t' rest' /\
  exists qs, goes_on t qs t' /\ out ++ undelivered n t' = undelivered n t ++ stream n qs.
Proof.
  intros Hn Hm EB P Hok H. destruct (inner_stream GO zero conv RQ RQ_pos GOK n Hn _ _ _ _ _ _ _ _ _ Hm Hok H) as (es0 & _ & H2 & _).
  unfold render_inner in H. destruct (t_offset t) as [[o prev]|] eqn:EO.
  - unfold offset_ok in Hok. rewrite EO in Hok. destruct Hok as (Ho & Hp1 & Hp2). cbv zeta in H.
    set (k := Nat.min (RQ - o) m) in *.
    assert (Hk : Nat.min ((RQ - o) * n) (length buf) = k * n) by (rewrite Hm, Nat.mul_min_distr_r; reflexivity).
    rewrite Hk in H.
    assert (Hfl : length (firstn (k * n) buf) = k * n) by (rewrite firstn_length, Hm; unfold k; nia).
    rewrite (copy_all zero conv RQ RQ_pos n o prev k) in H by (auto; unfold k; lia).
    assert (Hskl : length (skipn (k * n) buf) = (m - k) * n) by (rewrite skipn_length, Hm; nia).
    assert (HU : undelivered n t = frames_from n prev o) by (unfold Thread_Spec.undelivered; rewrite EO; reflexivity).
    rewrite HU.
    destruct (skipn (k * n) buf) as [|y next] eqn:EN.
    + injection H as <- <- <- <-. assert (Hmk : m = k) by (cbn in Hskl; unfold k in *; nia).
      split; [exact EB|]. split; [exact P|]. exists []. split; [apply goes_on_same; reflexivity|].
      unfold Thread_Spec.undelivered. cbn [set_offset t_offset]. rewrite Hfl, Nat.div_mul by lia. cbn [map concat]. rewrite app_nil_r.
      symmetry. apply (frames_split zero conv RQ RQ_pos). unfold k. lia.
    + destruct (render_next GO zero conv RQ n (set_offset t None) (y :: next) rest bs) as [[[[t1 o1] r1] b1]|] eqn:EI; [|discriminate].
      injection H as <- <- <- <-.
      apply (playing_next n (set_offset t None) _ _ _ _ _ _ _ (m - k)) in EI; [|exact Hn|exact Hskl|exact EB|exact P|reflexivity].
      destruct EI as (-> & A & B & qs & C & D). split; [exact A|]. split; [exact B|]. exists qs.
      split; [apply (goes_on_app t [] (set_offset t None)); [apply goes_on_same; reflexivity|exact C]|].
      rewrite <- app_assoc, D. f_equal. apply firstn_all2. rewrite frames_length.
      assert (k <> m) by (intros X; rewrite X, Nat.sub_diag in Hskl; discriminate). unfold k in *. nia.
  - apply (playing_next n t _ _ _ _ _ _ _ m) in H; [|assumption..]. destruct H as (-> & A & B & qs & C & D).
    split; [exact A|]. split; [exact B|]. exists qs. split; [exact C|]. unfold Thread_Spec.undelivered at 2. rewrite EO. exact D.
Qed.

Lemma playing_callbacks n : 0 < n -> forall bufs t rest bs t' outs rest' bs',
  Forall (fun buf => exists m, length buf = m * n) bufs -> concat bs = [] -> playing t rest -> offset_ok RQ n t ->
  callbacks GO zero conv RQ n t bufs rest bs = Some (t', outs, rest', bs') ->
  concat bs' = [] /\ playing t' rest' /\ offset_ok RQ n t' /\ length (concat outs) = length (concat bufs) /\
  exists qs, goes_on t qs t' /\ concat outs ++ undelivered n t' = undelivered n t ++ stream n qs.
Proof.
  intros Hn. induction bufs as [|buf bufs IH]; intros t rest bs t' outs rest' bs' HF EB P Hok H; cbn [callbacks] in H.
  - injection H as <- <- <- <-. split; [exact EB|]. split; [exact P|]. split; [exact Hok|]. split; [reflexivity|]. exists []. split; [apply goes_on_same; reflexivity|]. cbn. symmetry. apply app_nil_r.
  - apply Forall_cons_iff in HF. destruct HF as [[m Hm] HF].
    destruct (render_inner GO zero conv RQ n t buf rest bs) as [[[[t1 o1] r1] b1]|] eqn:EI; [|discriminate].
    destruct (callbacks GO zero conv RQ n t1 bufs r1 b1) as [[[[t2 o2] r2] b2]|] eqn:EC; [|discriminate]. injection H as <- <- <- <-.
    destruct (inner_stream GO zero conv RQ RQ_pos GOK n Hn _ _ _ _ _ _ _ _ _ Hm Hok EI) as (_ & _ & _ & HL & Hok' & _).
    destruct (playing_inner _ _ _ _ _ _ _ _ _ _ Hn Hm EB P Hok EI) as (A1 & A2 & qs1 & A3 & A4).
    destruct (IH _ _ _ _ _ _ _ HF A1 A2 Hok' EC) as (B1 & B2 & B3 & B4 & qs2 & B5 & B6).
    split; [exact B1|]. split; [exact B2|]. split; [exact B3|]. cbn [concat]. split; [rewrite !app_length; lia|].
    exists (qs1 ++ qs2). split; [eapply goes_on_app; eassumption|].
    rewrite <- app_assoc, B6, app_assoc, A4, map_app, concat_app. apply app_assoc_reverse.
Qed.

Lemma undelivered_short n (t : thread) : 0 < n -> offset_ok RQ n t -> length (undelivered n t) < RQ * n.
Proof.
  intros Hn. unfold Thread_Spec.undelivered, offset_ok. destruct (t_offset t) as [[o q]|]; [|cbn; nia]. intros H. rewrite frames_length. nia.
Qed.

(** nothing but pauses, and no quantum: the thread is as before *)
Lemma pause_only t es t' : Forall pause_or_resume (handled es) -> quanta_of es = [] -> history GO RQ t es t' -> t_graph t' = t_graph t.
Proof.
  intros F Q H. revert F Q. induction H as [t|t e t1 es t2 He Hes IH]; intros F Q; [reflexivity|].
  unfold handled in F. cbn [flat_map] in F. apply Forall_app in F. destruct F as [F1 F2].
  unfold quanta_of in Q. cbn [flat_map] in Q. apply app_eq_nil in Q. destruct Q as [Q1 Q2]. rewrite (IH F2 Q2).
  inversion He; subst; [|discriminate|reflexivity].
  match goal with X : handle_all _ _ _ = _ |- _ => destruct (handle_pauses _ _ _ _ F1 X) as (_ & A & _); exact A end.
Qed.

Lemma suspend_resume n bufs1 bufs2 bufs3 t a b t1 t2 t3 outs1 outs2 outs3 r1 r2 r3 b1 b2 b3 :
  0 < n -> live GO t -> t_offset t = None -> t_listening t = true ->
  Forall (fun buf => exists m, length buf = m * n) (bufs1 ++ bufs2 ++ bufs3) ->
  callbacks GO zero conv RQ n t bufs1 [] [] = Some (t1, outs1, r1, b1) ->
  callbacks GO zero conv RQ n t1 bufs2 (r1 ++ [SuspendMsg a]) [] = Some (t2, outs2, r2, b2) ->
  callbacks GO zero conv RQ n t2 bufs3 (r2 ++ [ResumeMsg b]) [] = Some (t3, outs3, r3, b3) ->
  let played := length (concat bufs1) in
  let h := still_heard (RQ * n) played (length (concat bufs2)) in
  t_frames t2 = t_frames t1 /\
  forall k qs, quanta GO RQ k t = Some qs -> played + h + length (concat bufs3) <= k * (RQ * n) ->
    concat outs1 ++ concat outs2 ++ concat outs3 =
    firstn (played + h) (stream n qs) ++ repeat (conv zero) (length (concat bufs2) - h) ++ firstn (length (concat bufs3)) (skipn (played + h) (stream n qs)).
Proof.
  intros Hn L O LL HF C1 C2 C3 played h. apply Forall_app in HF. destruct HF as [HF1 HF]. apply Forall_app in HF. destruct HF as [HF2 HF3].
  assert (P0 : playing t []) by (destruct L as [X Y]; split; [exact LL|]; split; [constructor|]; split; [exact X|exact Y]).
  assert (O0 : offset_ok RQ n t) by (unfold offset_ok; rewrite O; exact I).
  destruct (playing_callbacks n Hn _ _ _ [] _ _ _ _ HF1 eq_refl P0 O0 C1) as (_ & P1 & O1 & L1 & qs1 & G1 & S1).
  unfold Thread_Spec.undelivered at 2 in S1. rewrite O in S1. cbn [app] in S1.
  assert (F1 : Forall pause_or_resume (r1 ++ [SuspendMsg a])).
  { apply Forall_app. split; [exact (proj1 (proj2 P1))|]. constructor; [exact I|constructor]. }
  assert (PP : paused t1 (r1 ++ [SuspendMsg a]) []).
  { split; [exact (proj1 P1)|]. split; [|split; [rewrite pauses_app; reflexivity|constructor]].
    cbn [concat]. rewrite app_nil_r. eapply Forall_impl; [|exact F1]. intros m Hm E. subst m. exact Hm. }
  destruct (paused_callbacks n Hn _ _ _ _ _ _ _ _ HF2 O1 PP C2) as (D1 & D2 & D3 & D4 & D5).
  pose proof (callbacks_stream GO zero conv RQ RQ_pos GOK n Hn _ _ _ _ _ _ _ _ HF2 O1 C2) as (es & E1 & _ & _ & _ & E2).
  cbn [concat] in E2. rewrite app_nil_r in E2. rewrite E2 in F1. apply Forall_app in F1. destruct F1 as [F1 F2]. apply Forall_app in F2. destruct F2 as [F2 _].
  destruct (pause_history _ _ _ F1 E1) as (_ & _ & E3 & _). cbn [core set_offset t_frames] in E3.
  assert (Q0 : quanta_of es = []) by (destruct (quanta_of es); [reflexivity|]; cbn [length] in E3; nia).
  pose proof (pause_only _ _ _ F1 Q0 E1) as GG. cbn [core set_offset t_graph] in GG.
  assert (P2 : playing t2 (r2 ++ [ResumeMsg b])).
  { split; [exact (proj1 D5)|]. split; [apply Forall_app; split; [exact F2|]; constructor; [exact I|constructor]|].
    split; [rewrite pauses_app; reflexivity|]. rewrite GG. exact (proj2 (proj2 (proj2 P1))). }
  destruct (playing_callbacks n Hn _ _ _ [] _ _ _ _ HF3 eq_refl P2 D4 C3) as (_ & _ & _ & L3 & qs3 & G3 & S3).
  split; [exact D3|]. intros k qs Hk Hlen.
  assert (GA : goes_on t (qs1 ++ qs3) t3).
  { eapply goes_on_app; [exact G1|]. apply (goes_on_app t1 [] t2); [apply goes_on_same; assumption|exact G3]. }
  set (u1 := undelivered n t1) in *.
  assert (LU : length u1 < RQ * n) by (apply undelivered_short; assumption).
  assert (EU : length u1 = (RQ * n - played mod (RQ * n)) mod (RQ * n)).
  { pose proof (f_equal (@length T) S1) as Z. rewrite app_length, stream_length in Z by assumption.
    rewrite <- (block_rest (RQ * n) played (length qs1)); [unfold played; lia|nia|unfold played; lia]. }
  assert (EH : h = Nat.min (length (concat bufs2)) (length u1)) by (unfold h, still_heard; rewrite EU; reflexivity).
  assert (T2 : concat outs2 = firstn h u1 ++ repeat (conv zero) (length (concat bufs2) - h)).
  { rewrite D1, firstn_app. f_equal.
    - rewrite EH. destruct (le_lt_dec (length (concat bufs2)) (length u1)); [rewrite Nat.min_l by lia; reflexivity|].
      rewrite Nat.min_r by lia. rewrite !firstn_all2 by lia. reflexivity.
    - replace (length (concat bufs2) - length u1) with (length (concat bufs2) - h) by lia.
      remember (length (concat bufs2) - h) as d eqn:Ed. replace (length (concat bufs2)) with (d + (length (concat bufs2) - d)) by lia.
      rewrite repeat_app, firstn_app, repeat_length, Nat.sub_diag. cbn [firstn]. rewrite app_nil_r. apply firstn_all2. rewrite repeat_length. lia. }
  assert (U2 : undelivered n t2 = skipn h u1).
  { rewrite D2, EH. destruct (le_lt_dec (length (concat bufs2)) (length u1)); [rewrite Nat.min_l by lia; reflexivity|].
    rewrite Nat.min_r by lia. rewrite !skipn_all2 by lia. reflexivity. }
  assert (A0 : concat outs1 ++ firstn h u1 ++ concat outs3 = firstn (played + h + length (concat bufs3)) (stream n qs)).
  { rewrite <- (stream_agrees n _ _ t (qs1 ++ qs3) qs _ (proj1 GA) Hk).
    - rewrite map_app, concat_app, <- S1.
      assert (Eq : concat outs1 ++ firstn h u1 ++ concat outs3 ++ undelivered n t3 = (concat outs1 ++ u1) ++ stream n qs3).
      { rewrite S3, U2, <- app_assoc. f_equal. rewrite app_assoc, firstn_skipn. reflexivity. }
      rewrite <- Eq. rewrite !(app_assoc (concat outs1)), (app_assoc (_ ++ _)).
      rewrite firstn_firstn_app; [symmetry; apply firstn_all2|]; rewrite !app_length, firstn_length; unfold played; lia.
    - pose proof (f_equal (@length T) S1) as Z1. pose proof (f_equal (@length T) S3) as Z3. rewrite app_length, stream_length in Z1 by assumption.
      rewrite !app_length, stream_length, U2, skipn_length in Z3 by assumption. rewrite app_length, Nat.mul_add_distr_r. unfold played. lia.
    - exact Hlen. }
  rewrite T2.
  assert (A1 : concat outs1 ++ firstn h u1 = firstn (played + h) (stream n qs)).
  { replace (firstn (played + h) (stream n qs)) with (firstn (played + h) (firstn (played + h + length (concat bufs3)) (stream n qs))) by (rewrite firstn_firstn; f_equal; lia).
    rewrite <- A0, app_assoc. rewrite firstn_firstn_app; [symmetry; apply firstn_all2|]; rewrite app_length, firstn_length; unfold played; lia. }
  assert (A3 : concat outs3 = firstn (length (concat bufs3)) (skipn (played + h) (stream n qs))).
  { rewrite firstn_skipn_comm, <- A0, app_assoc, skipn_app, skipn_all2 by (rewrite app_length, firstn_length; unfold played; lia).
    replace (played + h - length (concat outs1 ++ firstn h u1)) with 0 by (rewrite app_length, firstn_length; unfold played; lia). reflexivity. }
  rewrite <- A1, <- A3, <- !app_assoc. reflexivity.
Qed.
End PauseProofs.
