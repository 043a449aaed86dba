From Coq Require Import List Arith Bool Lia.
From Verif Require Import Thread_Model Thread_Spec.
Import ListNotations.


(** ** Lists *)
Lemma nth_error_ext {A} (l1 l2 : list A) : (forall p, nth_error l1 p = nth_error l2 p) -> l1 = l2.
Proof.
  revert l2. induction l1 as [|x l1 IH]; intros [|y l2] H; auto.
  - specialize (H 0). discriminate.
  - specialize (H 0). discriminate.
  - pose proof (H 0) as H0. injection H0 as ->. f_equal. apply IH. intros p. apply (H (S p)).
Qed.

Lemma nth_error_concat {A} n (ll : list (list A)) : 0 < n -> Forall (fun l => length l = n) ll ->
  forall p, nth_error (concat ll) p = match nth_error ll (p / n) with Some l => nth_error l (p mod n) | None => None end.
Proof.
  intros Hn. induction 1 as [|l ll Hl HF IH]; intros p; cbn [concat].
  - destruct (p / n), p; reflexivity.
  - destruct (lt_dec p n) as [L|L].
    + rewrite Nat.div_small, Nat.mod_small by exact L. cbn. apply nth_error_app1. lia.
    + rewrite nth_error_app2 by lia. rewrite Hl, IH.
      assert (E : p / n = S ((p - n) / n) /\ p mod n = (p - n) mod n).
      { replace p with ((p - n) + 1 * n) at 1 3 by lia. rewrite Nat.div_add, Nat.mod_add by lia. split; [lia|reflexivity]. }
      destruct E as [-> ->]. reflexivity.
Qed.

Lemma concat_length {A} n (ll : list (list A)) : Forall (fun l => length l = n) ll -> length (concat ll) = length ll * n.
Proof. induction 1 as [|l ll Hl HF IH]; [reflexivity|]. cbn. rewrite app_length, Hl, IH. reflexivity. Qed.

Lemma nth_error_map_seq {A} (f : nat -> A) s k p : p < k -> nth_error (map f (seq s k)) p = Some (f (s + p)).
Proof.
  revert s p. induction k as [|k IH]; intros s p Hp; [lia|]. cbn. destruct p as [|p]; cbn; [rewrite Nat.add_0_r; reflexivity|].
  rewrite IH by lia. f_equal. f_equal. lia.
Qed.

(** ** Interleaving *)
Lemma strided_length {T} n : forall (data : list T) s ch, length (strided data s n ch) = length data.
Proof. induction data as [|x data IH]; cbn; intros s ch; [reflexivity|]. destruct s; [destruct ch|]; cbn; auto. Qed.

Lemma strided_nth {T} n (data : list T) : 0 < n -> forall s ch p, p < length data ->
  nth_error (strided data s n ch) p =
  if Nat.ltb p s then nth_error data p
  else if Nat.eqb ((p - s) mod n) 0 && Nat.ltb ((p - s) / n) (length ch) then nth_error ch ((p - s) / n)
  else nth_error data p.
Proof.
  intros Hn. induction data as [|x data IH]; intros s ch p Hp; [cbn in Hp; lia|]. cbn [strided].
  destruct s as [|s].
  - change (Nat.ltb p 0) with false. cbn [negb]. rewrite Nat.sub_0_r. destruct ch as [|c ch].
    + cbn [length]. rewrite (proj2 (Nat.ltb_ge (p / n) 0)) by lia. rewrite andb_false_r. reflexivity.
    + destruct p as [|p].
      * cbn [nth_error]. rewrite Nat.mod_0_l, Nat.div_0_l by lia. reflexivity.
      * cbn [nth_error]. cbn [length] in Hp. rewrite IH by lia.
        destruct (Nat.ltb_spec p (pred n)) as [L|L].
        -- replace (Nat.eqb (S p mod n) 0) with false; [reflexivity|]. symmetry. apply Nat.eqb_neq.
           rewrite Nat.mod_small by lia. lia.
        -- assert (E : S p = (p - pred n) + 1 * n) by lia. rewrite E, Nat.mod_add, Nat.div_add by lia.
           rewrite Nat.add_1_r. cbn [nth_error length]. replace (Nat.ltb (S ((p - pred n) / n)) (S (length ch)))
             with (Nat.ltb ((p - pred n) / n) (length ch)) by reflexivity. reflexivity.
  - destruct p as [|p]; [reflexivity|]. cbn [nth_error length] in *. rewrite IH by lia.
    replace (Nat.ltb (S p) (S s)) with (Nat.ltb p s) by reflexivity. reflexivity.
Qed.

Section ThreadProofs.
Context {G M V T : Type}.
Variable GO : @graph_ops G M V.
Variable zero : V.
Variable conv : V -> T.
Variable RQ : nat.
Hypothesis RQ_pos : 0 < RQ.
Hypothesis GOK : graph_ok GO RQ.
Notation thread := (@thread G V).
Notation cmsg := (@cmsg G M).
Notation frame := (frame zero conv).
Notation frames_from := (frames_from zero conv RQ).
Notation copy_channels := (copy_channels conv).

Lemma frame_length n q k : length (frame n q k) = n.
Proof. unfold frame. rewrite map_length, seq_length. reflexivity. Qed.

Lemma frames_length n q o : length (frames_from n q o) = (RQ - o) * n.
Proof.
  unfold frames_from. rewrite (concat_length n); [rewrite map_length, seq_length; reflexivity|].
  apply Forall_forall. intros l Hl. apply in_map_iff in Hl. destruct Hl as (k & <- & _). apply frame_length.
Qed.

Lemma frames_nth n q o p : 0 < n -> p < (RQ - o) * n ->
  nth_error (frames_from n q o) p = Some (conv (nth (o + p / n) (nth (p mod n) q []) zero)).
Proof.
  intros Hn Hp. unfold frames_from. rewrite (nth_error_concat n) by
    (try exact Hn; apply Forall_forall; intros l Hl; apply in_map_iff in Hl; destruct Hl as (k & <- & _); apply frame_length).
  rewrite nth_error_map_seq by (apply Nat.div_lt_upper_bound; lia).
  unfold frame. rewrite nth_error_map_seq by (apply Nat.mod_upper_bound; lia). reflexivity.
Qed.

Lemma frames_split n q o m : m <= RQ - o ->
  frames_from n q o = firstn (m * n) (frames_from n q o) ++ frames_from n q (o + m).
Proof.
  intros Hm. unfold frames_from at 1 3.
  replace (RQ - o) with (m + (RQ - (o + m))) at 1 by lia. rewrite seq_app, map_app, concat_app. f_equal.
  unfold frames_from. replace (RQ - o) with (m + (RQ - (o + m))) by lia. rewrite seq_app, map_app, concat_app.
  rewrite firstn_app. rewrite (concat_length n) by
    (apply Forall_forall; intros l Hl; apply in_map_iff in Hl; destruct Hl as (k & <- & _); apply frame_length).
  rewrite map_length, seq_length, Nat.sub_diag. cbn [firstn]. rewrite app_nil_r.
  rewrite firstn_all2; [reflexivity|].
  rewrite (concat_length n) by
    (apply Forall_forall; intros l Hl; apply in_map_iff in Hl; destruct Hl as (k & <- & _); apply frame_length).
  rewrite map_length, seq_length. lia.
Qed.

(** ** Copying channels into an interleaved buffer *)
Lemma copy_spec n o q m : 0 < n -> o + m <= RQ -> Forall (fun ch => length ch = RQ) q ->
  forall k i data, i + k = n -> n <= length q -> length data = m * n ->
  exists data', copy_channels k i n o q data = Some data' /\ length data' = m * n /\
    forall p, p < m * n -> nth_error data' p =
      if Nat.leb i (p mod n) then Some (conv (nth (o + p / n) (nth (p mod n) q []) zero)) else nth_error data p.
Proof.
  intros Hn Ho HF. induction k as [|k IH]; intros i data Hi Hq Hd; cbn [Thread_Model.copy_channels].
  - exists data. split; [reflexivity|]. split; [exact Hd|]. intros p Hp.
    pose proof (Nat.mod_upper_bound p n). rewrite (proj2 (Nat.leb_gt i (p mod n))) by lia. reflexivity.
  - destruct (nth_error q i) as [ch|] eqn:Ech; [|apply nth_error_None in Ech; lia].
    assert (Hch : length ch = RQ). { rewrite Forall_forall in HF. apply HF. eapply nth_error_In. exact Ech. }
    destruct (IH (S i) (strided data i n (map conv (skipn o ch)))) as (data' & E & L & Hnth); [lia|exact Hq|rewrite strided_length; exact Hd|].
    exists data'. split; [exact E|]. split; [exact L|]. intros p Hp. rewrite Hnth by exact Hp.
    pose proof (Nat.mod_upper_bound p n). pose proof (Nat.div_mod p n).
    assert (Hpm : p / n < m) by (apply Nat.div_lt_upper_bound; lia).
    destruct (Nat.leb_spec (S i) (p mod n)) as [L1|L1], (Nat.leb_spec i (p mod n)) as [L2|L2]; try lia; try reflexivity.
    + rewrite strided_nth by lia. assert (Ei : p mod n = i) by lia. assert (Hge : i <= p) by nia.
      rewrite (proj2 (Nat.ltb_ge p i)) by exact Hge.
      assert (Ep : p - i = (p / n) * n) by lia. rewrite Ep, Nat.mod_mul, Nat.div_mul by lia.
      rewrite map_length, skipn_length, Hch. rewrite (proj2 (Nat.ltb_lt (p / n) (RQ - o))) by lia. cbn [Nat.eqb andb].
      rewrite nth_error_map. rewrite Ei, (nth_error_nth q i [] Ech).
      assert (X : nth_error (skipn o ch) (p / n) = nth_error ch (o + p / n)).
      { rewrite <- (firstn_skipn o ch) at 2. rewrite nth_error_app2; rewrite firstn_length, Hch; [|lia].
        f_equal. lia. }
      rewrite X. rewrite (nth_error_nth' ch zero) by lia. reflexivity.
    + rewrite strided_nth by lia. destruct (Nat.ltb_spec p i) as [L3|L3]; [reflexivity|].
      replace (Nat.eqb ((p - i) mod n) 0) with false; [reflexivity|]. symmetry. apply Nat.eqb_neq. intros X.
      apply Nat.mod_divide in X; [|lia]. destruct X as [z Hz].
      assert (Hp2 : p = i + z * n) by lia. rewrite Hp2, Nat.mod_add in L2 by lia. rewrite Nat.mod_small in L2 by lia. lia.
Qed.

Lemma copy_all n o q m data : 0 < n -> o + m <= RQ -> Forall (fun ch => length ch = RQ) q -> n <= length q ->
  length data = m * n ->
  copy_channels n 0 n o q data = Some (firstn (m * n) (frames_from n q o)).
Proof.
  intros Hn Ho HF Hq Hd. destruct (copy_spec n o q m Hn Ho HF n 0 data) as (data' & E & L & Hnth); [lia|exact Hq|exact Hd|].
  rewrite E. f_equal. apply nth_error_ext. intros p. destruct (lt_dec p (m * n)) as [Hp|Hp].
  - rewrite Hnth by exact Hp. cbn [Nat.leb].
    rewrite <- (frames_nth n q o p Hn) by nia.
    rewrite <- (firstn_skipn (m * n) (frames_from n q o)) at 1. apply nth_error_app1.
    rewrite firstn_length, frames_length. nia.
  - rewrite (proj2 (nth_error_None data' p)) by lia. symmetry. apply nth_error_None. rewrite firstn_length. lia.
Qed.

Lemma pad_ok n q : well_formed RQ q -> n <= length (pad zero RQ n q) /\ Forall (fun ch => length ch = RQ) (pad zero RQ n q).
Proof.
  intros [_ HF]. unfold pad. destruct (Nat.ltb_spec (length q) n) as [L|L]; [|auto].
  rewrite app_length, repeat_length. split; [lia|]. apply Forall_app. split; [exact HF|].
  apply Forall_forall. intros ch Hch. apply repeat_spec in Hch. subst. apply repeat_length.
Qed.

Lemma frame_pad n q k : k < RQ -> frame n (pad zero RQ n q) k = frame n q k.
Proof.
  intros Hk. unfold frame. apply map_ext_in. intros i Hi. apply in_seq in Hi. f_equal. unfold pad.
  destruct (Nat.ltb_spec (length q) n) as [L|L]; [|reflexivity].
  destruct (lt_dec i (length q)) as [Li|Li].
  - rewrite app_nth1 by exact Li. reflexivity.
  - rewrite app_nth2 by lia. rewrite (nth_overflow q) by lia.
    destruct (nth_in_or_default (i - length q) (repeat (repeat zero RQ) (n - length q)) []) as [X|X].
    + apply repeat_spec in X. rewrite X, nth_repeat. destruct k; reflexivity.
    + rewrite X. reflexivity.
Qed.

Lemma frames_pad n q o : frames_from n (pad zero RQ n q) o = frames_from n q o.
Proof.
  unfold frames_from. f_equal. apply map_ext_in. intros k Hk. apply in_seq in Hk. apply frame_pad. lia.
Qed.

(** ** Histories *)
Lemma history_app t es1 t1 es2 t2 : history GO RQ t es1 t1 -> history GO RQ t1 es2 t2 -> history GO RQ t (es1 ++ es2) t2.
Proof. induction 1; intros; [assumption|]. cbn. econstructor; eauto. Qed.

Lemma history_one t e t1 : happens GO RQ t e t1 -> history GO RQ t [e] t1.
Proof. intros. econstructor; [eassumption|constructor]. Qed.

Lemma hcm_core t m : handle_control_message GO (core t) m =
  match handle_control_message GO t m with
  | None => None | Some (inl t') => Some (inl (core t')) | Some (inr t') => Some (inr (core t')) end.
Proof. destruct m; cbn; try reflexivity; destruct (t_graph t); try reflexivity. destruct (g_apply GO g m); reflexivity. Qed.

Lemma hcm_offset t m t' : handle_control_message GO t m = Some (inl t') \/ handle_control_message GO t m = Some (inr t') -> t_offset t' = t_offset t.
Proof.
  destruct m; cbn; try (intros [H|H]; congruence || (injection H as <-; reflexivity)).
  - destruct (t_graph t); [|intros [H|H]; discriminate]. destruct (g_apply GO g m); intros [H|H]; try discriminate. injection H as <-. reflexivity.
  - destruct (t_graph t); intros [H|H]; try discriminate. injection H as <-. reflexivity.
Qed.

Lemma handle_all_split q : forall t t' rest, handle_all GO t q = Some (t', rest) ->
  exists q1, q = q1 ++ rest /\ handle_all GO t q1 = Some (t', []).
Proof.
  induction q as [|m q IH]; intros t t' rest; cbn [handle_all].
  - intros H. injection H as <- <-. exists []. auto.
  - destruct (handle_control_message GO t m) as [[t1|t1]|] eqn:E; intros H; [| |discriminate].
    + apply IH in H. destruct H as (q1 & -> & H). exists (m :: q1). cbn [app handle_all]. rewrite E. auto.
    + injection H as <- <-. exists [m]. cbn [app handle_all]. rewrite E. auto.
Qed.

Lemma handle_all_core q : forall t t' rest, handle_all GO t q = Some (t', rest) ->
  handle_all GO (core t) q = Some (core t', rest) /\ t_offset t' = t_offset t.
Proof.
  intros t t' rest. revert t. induction q as [|m q IH]; intros t; cbn [handle_all].
  - intros H. injection H as <- <-. auto.
  - rewrite hcm_core. destruct (handle_control_message GO t m) as [[t1|t1]|] eqn:E; intros H; [| |discriminate].
    + apply IH in H. destruct H as [H1 H2]. split; [exact H1|]. rewrite H2. eapply hcm_offset. eauto.
    + injection H as <- <-. split; [reflexivity|]. eapply hcm_offset. eauto.
Qed.

Lemma handle_happens q t t' rest : handle_control_messages GO t q = Some (t', rest) ->
  exists q1, q = q1 ++ rest /\ happens GO RQ t (Receive q1) t' /\ happens GO RQ (core t) (Receive q1) (core t') /\ t_offset t' = t_offset t.
Proof.
  unfold handle_control_messages. destruct (t_listening t) eqn:EL.
  - intros H. apply handle_all_split in H. destruct H as (q1 & -> & H). exists q1. split; [reflexivity|].
    pose proof H as H'. apply handle_all_core in H'. destruct H' as [H1 H2].
    split; [apply H_receive; auto|]. split; [apply H_receive; auto|exact H2].
  - intros H. injection H as <- <-. exists []. split; [reflexivity|]. split; [apply H_receive; auto|]. split; [apply H_receive; auto|reflexivity].
Qed.

Lemma receive_history t rest bs t' rest' bs' : receive GO t rest bs = Some (t', rest', bs') ->
  exists q, history GO RQ (core t) [Receive q] (core t') /\ t_offset t' = t_offset t /\
    rest ++ concat bs = q ++ rest' ++ concat bs'.
Proof.
  unfold receive. destruct (handle_control_messages GO t (rest ++ hd [] bs)) as [[t1 r1]|] eqn:E; [|discriminate].
  intros H. injection H as <- <- <-. apply handle_happens in E. destruct E as (q1 & E0 & _ & E1 & E2).
  exists q1. split; [apply history_one; exact E1|]. split; [exact E2|].
  rewrite app_assoc, <- E0, <- app_assoc. f_equal. destruct bs; reflexivity.
Qed.

Lemma render_core t t' q : render_quantum GO RQ t = Some (t', q) ->
  render_quantum GO RQ (core t) = Some (core t', q) /\ t_offset t' = t_offset t /\ well_formed RQ q.
Proof.
  unfold render_quantum. cbn [core set_offset t_graph t_frames].
  destruct (t_graph t) as [g|]; [|discriminate]. destruct (g_render GO g (t_frames t)) as [[g' q']|] eqn:E; [|discriminate].
  intros H. injection H as <- <-. split; [reflexivity|]. split; [reflexivity|]. eapply GOK. exact E.
Qed.

Notation flow rest bs es rest' bs' := (rest ++ concat bs = handled es ++ rest' ++ concat bs').
Lemma handled_app es1 es2 : handled (G:=G) (M:=M) (V:=V) (es1 ++ es2) = handled es1 ++ handled es2.
Proof. unfold handled. apply flat_map_app. Qed.

Notation heard n es := (concat (map (sound (M:=M) zero conv RQ n) es)).

(** ** Rendering the chunks of a buffer *)
Lemma chunks_stream n : 0 < n -> forall fuel buf m t rest bs t' out rest' bs',
  length buf = m * n -> length buf <= fuel ->
  t_offset t = None ->
  render_chunks GO zero conv RQ n t (chunks_fuel fuel (RQ * n) buf) rest bs = Some (t', out, rest', bs') ->
  exists es, history GO RQ (core t) es (core t') /\
    out ++ undelivered zero conv RQ n t' = heard n es /\ length out = length buf /\ offset_ok RQ n t' /\ flow rest bs es rest' bs'.
Proof.
  intros Hn. induction fuel as [|fuel IH]; intros buf m t rest bs t' out rest' bs' Hm Hf Ho H; cbn [chunks_fuel render_chunks] in H.
  - injection H as <- <- <- <-. destruct buf; [|cbn in Hf; lia]. exists []. split; [constructor|].
    unfold undelivered, offset_ok. rewrite Ho. auto.
  - destruct buf as [|x buf'].
    { cbn [render_chunks] in H. injection H as <- <- <- <-. exists []. split; [constructor|].
      unfold undelivered, offset_ok. rewrite Ho. auto. }
    remember (x :: buf') as buf eqn:Eb. cbn [render_chunks] in H.
    destruct (render_quantum GO RQ t) as [[t1 q]|] eqn:ER; [|discriminate].
    apply render_core in ER. destruct ER as (ER & EO & Hq). rewrite Ho in EO.
    destruct (pad_ok n q Hq) as [Hp1 Hp2].
    assert (Hmpos : 0 < m) by (destruct m; [subst buf; cbn in Hm; lia|lia]).
    assert (Hlen : length (firstn (RQ * n) buf) = Nat.min RQ m * n).
    { rewrite firstn_length, Hm, Nat.mul_min_distr_r. reflexivity. }
    rewrite (copy_all n 0 (pad zero RQ n q) (Nat.min RQ m)) in H by (auto; lia).
    rewrite frames_pad in H.
    set (t2 := if Nat.eqb (length (firstn (RQ * n) buf)) (RQ * n) then t1 else _) in H.
    destruct (receive GO t2 rest bs) as [[[t3 r3] b3]|] eqn:EC; [|discriminate].
    apply receive_history in EC. destruct EC as (rq & EC1 & EC2 & EC3).
    assert (E2 : core t2 = core t1).
    { unfold t2. destruct (Nat.eqb _ _); reflexivity. }
    rewrite E2 in EC1.
    destruct (render_chunks GO zero conv RQ n t3 (chunks_fuel fuel (RQ * n) (skipn (RQ * n) buf)) r3 b3) as [[[[t4 o4] r4] b4]|] eqn:EI; [|discriminate].
    injection H as <- <- <- <-.
    destruct (le_lt_dec RQ m) as [Hfull|Hpart].
    + rewrite Nat.min_l in Hlen by lia.
      eapply (IH _ (m - RQ)) in EI.
      2:{ rewrite skipn_length, Hm. nia. }
      2:{ rewrite skipn_length. subst buf. cbn [length] in *. nia. }
      2:{ rewrite EC2. unfold t2. rewrite Hlen, Nat.eqb_refl. exact EO. }
      destruct EI as (es & I1 & I2 & I3 & I4 & I5).
      exists (Quantum q :: Receive rq :: es). split.
      { econstructor; [apply H_quantum; exact ER|]. eapply (history_app _ [_]); [exact EC1|exact I1]. }
      split; [|split; [|split; [exact I4|]]].
      * rewrite Nat.min_l by lia. rewrite firstn_all2 by (rewrite frames_length; lia). rewrite <- app_assoc, I2. reflexivity.
      * rewrite Nat.min_l by lia. rewrite firstn_all2 by (rewrite frames_length; lia).
        rewrite app_length, I3, frames_length, skipn_length, Hm. nia.
      * rewrite EC3, I5. unfold handled. cbn [flat_map]. cbn [app]. rewrite <- app_assoc. reflexivity.
    + rewrite Nat.min_r in Hlen by lia.
      assert (Hsk : skipn (RQ * n) buf = []) by (apply skipn_all2; rewrite Hm; nia).
      rewrite Hsk in EI. assert (EI' : Some (t3, [], r3, b3) = Some (t4, o4, r4, b4)) by (destruct fuel; exact EI).
      injection EI' as <- <- <- <-.
      assert (Hne : Nat.eqb (length (firstn (RQ * n) buf)) (RQ * n) = false) by (apply Nat.eqb_neq; rewrite Hlen; nia).
      assert (Ht3 : t_offset t3 = Some (m, pad zero RQ n q)).
      { rewrite EC2. unfold t2. rewrite Hne. cbn. rewrite Hlen, Nat.div_mul by lia. reflexivity. }
      exists [Quantum q; Receive rq]. split.
      { econstructor; [apply H_quantum; exact ER|]. exact EC1. }
      rewrite Nat.min_r by lia. split; [|split; [|split]].
      * unfold undelivered. rewrite Ht3, frames_pad, app_nil_r. cbn [map concat sound app]. rewrite ?app_nil_r.
        symmetry. apply (frames_split n q 0 m). lia.
      * rewrite app_nil_r, firstn_length, frames_length, Hm. nia.
      * unfold offset_ok. rewrite Ht3. split; [lia|auto].
      * rewrite EC3. unfold handled. cbn [flat_map app]. rewrite app_nil_r. reflexivity.
Qed.

Lemma next_stream n : 0 < n -> forall t buf rest bs t' out rest' bs' m,
  length buf = m * n -> t_offset t = None ->
  render_next GO zero conv RQ n t buf rest bs = Some (t', out, rest', bs') ->
  exists es, history GO RQ (core t) es (core t') /\
    out ++ undelivered zero conv RQ n t' = heard n es /\ length out = length buf /\ offset_ok RQ n t' /\ flow rest bs es rest' bs'.
Proof.
  intros Hn t b rest bs t' out rest' bs' m Hm Ho H. unfold render_next in H.
  destruct (receive GO t rest bs) as [[[t1 r1] b1]|] eqn:EC; [|discriminate].
  apply receive_history in EC. destruct EC as (rq & EC1 & EC2 & EC3). rewrite Ho in EC2.
  destruct (t_suspended t1 || _) eqn:ES.
  - injection H as <- <- <- <-. exists [Receive rq; Silence (length b)]. split.
    { eapply (history_app _ [_] _ [_]); [exact EC1|]. apply history_one. apply H_silence.
      unfold inactive. cbn [core set_offset t_suspended t_graph].
      apply orb_prop in ES. destruct ES as [ES|ES]; [left; exact ES|right].
      destruct (t_graph t1); [|exact I]. apply negb_true_iff in ES. exact ES. }
    unfold undelivered, offset_ok. rewrite EC2. split; [|split; [apply map_length|split; [exact I|]]].
    + cbn [map concat sound app]. rewrite ?app_nil_r. clear. induction b as [|x b IH]; cbn; [reflexivity|]. f_equal. exact IH.
    + rewrite EC3. unfold handled. cbn [flat_map app]. rewrite ?app_nil_r. reflexivity.
  - unfold chunks in H. eapply (chunks_stream n Hn) in H; eauto. destruct H as (es & H1 & H2 & H3 & H4 & H5).
    exists (Receive rq :: es). split; [eapply (history_app _ [_]); eauto|]. split; [exact H2|]. split; [exact H3|]. split; [exact H4|].
    rewrite EC3, H5. unfold handled. cbn [flat_map]. cbn [app]. rewrite <- app_assoc. reflexivity.
Qed.

Lemma inner_stream n : 0 < n -> forall t buf rest bs t' out rest' bs' m,
  length buf = m * n -> offset_ok RQ n t ->
  render_inner GO zero conv RQ n t buf rest bs = Some (t', out, rest', bs') ->
  exists es, history GO RQ (core t) es (core t') /\
    out ++ undelivered zero conv RQ n t' = undelivered zero conv RQ n t ++ heard n es /\
    length out = length buf /\ offset_ok RQ n t' /\ flow rest bs es rest' bs'.
Proof.
  intros Hn t buf rest bs t' out rest' bs' m Hm Hok H. unfold render_inner in H.
  destruct (t_offset t) as [[o prev]|] eqn:EO.
  - unfold offset_ok in Hok. rewrite EO in Hok. destruct Hok as (Ho & Hp1 & Hp2).
    set (k := Nat.min (RQ - o) m).
    assert (Hk : Nat.min ((RQ - o) * n) (length buf) = k * n) by (rewrite Hm, Nat.mul_min_distr_r; reflexivity).
    rewrite Hk in H.
    assert (Hfl : length (firstn (k * n) buf) = k * n) by (rewrite firstn_length, Hm; unfold k; nia).
    rewrite (copy_all n o prev k) in H by (auto; unfold k; lia).
    assert (Hfr : length (firstn (k * n) (frames_from n prev o)) = k * n).
    { rewrite firstn_length, frames_length. unfold k. nia. }
    assert (Hskl : length (skipn (k * n) buf) = (m - k) * n) by (rewrite skipn_length, Hm; nia).
    destruct (skipn (k * n) buf) as [|y next] eqn:EN.
    + injection H as <- <- <- <-. exists []. split; [constructor|].
      unfold undelivered at 1 2. cbn [set_offset t_offset]. rewrite EO. rewrite Hfl, Nat.div_mul by lia.
      assert (Hmk : m = k) by (cbn in Hskl; unfold k in *; nia).
      split; [|split; [|split; [|reflexivity]]].
      * cbn [map concat]. rewrite app_nil_r. symmetry. apply frames_split. unfold k. lia.
      * rewrite Hfr, Hm, <- Hmk. reflexivity.
      * unfold offset_ok. cbn. split; [unfold k; lia|auto].
    + destruct (render_next GO zero conv RQ n (set_offset t None) (y :: next) rest bs) as [[[[t1 o1] r1] b1]|] eqn:EI; [|discriminate].
      injection H as <- <- <- <-.
      eapply next_stream in EI; [|exact Hn|exact Hskl|reflexivity]. destruct EI as (es & I1 & I2 & I3 & I4 & I5).
      exists es. split; [exact I1|]. split; [|split; [|split; [exact I4|exact I5]]].
      * rewrite <- app_assoc, I2. f_equal. unfold undelivered. rewrite EO.
        apply firstn_all2. rewrite frames_length.
        assert (k <> m) by (intros X; rewrite X, Nat.sub_diag in Hskl; discriminate). unfold k in *. nia.
      * rewrite app_length, I3, Hfr, Hskl, Hm. unfold k. nia.
  - eapply next_stream in H; [|exact Hn|exact Hm|exact EO]. destruct H as (es & H1 & H2 & H3 & H4). exists es.
    split; [exact H1|]. split; [|auto]. unfold undelivered at 2. rewrite EO. exact H2.
Qed.

Lemma callbacks_stream n : 0 < n -> forall bufs t rest bs t' outs rest' bs',
  Forall (fun buf => exists m, length buf = m * n) bufs -> offset_ok RQ n t ->
  callbacks GO zero conv RQ n t bufs rest bs = Some (t', outs, rest', bs') ->
  exists es, history GO RQ (core t) es (core t') /\
    concat outs ++ undelivered zero conv RQ n t' = undelivered zero conv RQ n t ++ heard n es /\
    map (@length T) outs = map (@length T) bufs /\ offset_ok RQ n t' /\ flow rest bs es rest' bs'.
Proof.
  intros Hn. induction bufs as [|buf bufs IH]; intros t rest bs t' outs rest' bs' HF Hok H; cbn [callbacks] in H.
  - injection H as <- <- <- <-. exists []. split; [constructor|]. cbn. rewrite app_nil_r. auto.
  - inversion HF as [|? ? [m Hm] HF']; subst.
    destruct (render_inner GO zero conv RQ n t buf rest bs) as [[[[t1 o1] r1] b1]|] eqn:EI; [|discriminate].
    eapply inner_stream in EI; eauto. destruct EI as (es1 & A1 & A2 & A3 & A4 & A5).
    destruct (callbacks GO zero conv RQ n t1 bufs r1 b1) as [[[[t2 o2] r2] b2]|] eqn:EC; [|discriminate].
    injection H as <- <- <- <-. eapply IH in EC; eauto. destruct EC as (es2 & B1 & B2 & B3 & B4 & B5).
    exists (es1 ++ es2). split; [eapply history_app; eauto|]. split; [|split; [|split; [exact B4|]]].
    + cbn [concat]. rewrite <- app_assoc, B2, app_assoc, A2, map_app, concat_app, app_assoc. reflexivity.
    + cbn. rewrite A3, B3. reflexivity.
    + rewrite A5, B5, handled_app, <- app_assoc. reflexivity.
Qed.

(** ** An undisturbed thread *)
Notation live := (live GO).
Hypothesis SA : stays_active GO.

Lemma live_render t t' q : live t -> render_quantum GO RQ t = Some (t', q) -> live t' /\ t_frames t' = t_frames t + RQ.
Proof.
  intros [L1 (g & L2 & L3)]. unfold render_quantum. rewrite L2. destruct (g_render GO g (t_frames t)) as [[g' q']|] eqn:E; [|discriminate].
  intros H. injection H as <- <-. split; [|reflexivity]. split; [exact L1|]. exists g'. split; [reflexivity|]. eapply SA; eauto.
Qed.

Lemma live_history t es t' : live t -> handled es = [] -> history GO RQ t es t' ->
  quanta GO RQ (length (quanta_of es)) t = Some (quanta_of es) /\
  heard 0 es = heard 0 es /\
  (forall n, heard n es = concat (map (fun q => frames_from n q 0) (quanta_of es))) /\
  t_frames t' = t_frames t + length (quanta_of es) * RQ.
Proof.
  intros HL HH H. revert HL HH. induction H as [t|t e t1 es t2 He Hes IH]; intros HL HH.
  - cbn. auto with arith.
  - inversion He; subst.
    + assert (q = [] /\ handled es = []) as [-> HH'].
      { unfold handled in HH. cbn [flat_map] in HH. apply app_eq_nil in HH. exact HH. }
      assert (t1 = t) as ->. { match goal with X : handle_all _ _ [] = _ |- _ => cbn in X; injection X as <- end. reflexivity. }
      apply IH in HL; [|exact HH']. exact HL.
    + destruct (live_render _ _ _ HL H) as [HL' HF]. destruct (IH HL' HH) as (A & _ & B & C).
      unfold quanta_of in *. cbn [flat_map app length quanta]. rewrite H, A. cbn [option_map]. split; [reflexivity|]. split; [reflexivity|].
      split; [|lia]. intros n. cbn [map concat sound]. rewrite B. reflexivity.
    + exfalso. destruct HL as [L1 (g & L2 & L3)]. destruct H as [H|H]; [congruence|]. rewrite L2 in H. congruence.
Qed.

Lemma quanta_length k : forall t qs, quanta GO RQ k t = Some qs -> length qs = k.
Proof.
  induction k as [|k IH]; intros t qs; cbn [quanta]; [intros H; injection H as <-; reflexivity|].
  destruct (render_quantum GO RQ t) as [[t1 q]|]; [|discriminate]. destruct (quanta GO RQ k t1) as [qs'|] eqn:E; [|discriminate].
  intros H. injection H as <-. cbn. f_equal. eapply IH. exact E.
Qed.

Lemma quanta_prefix k1 : forall k2 t qs1 qs2, quanta GO RQ k1 t = Some qs1 -> quanta GO RQ k2 t = Some qs2 -> k1 <= k2 ->
  exists r, qs2 = qs1 ++ r.
Proof.
  induction k1 as [|k1 IH]; intros k2 t qs1 qs2; cbn [quanta].
  - intros H _ _. injection H as <-. exists qs2. reflexivity.
  - intros H1 H2 Hle. destruct k2 as [|k2]; [lia|]. cbn [quanta] in H2.
    destruct (render_quantum GO RQ t) as [[t1 q]|]; [|discriminate].
    destruct (quanta GO RQ k1 t1) as [a|] eqn:E1; [|discriminate]. destruct (quanta GO RQ k2 t1) as [b|] eqn:E2; [|discriminate].
    injection H1 as <-. injection H2 as <-. destruct (IH k2 t1 a b E1 E2) as [r ->]; [lia|]. exists r. reflexivity.
Qed.

Lemma stream_length n qs : length (concat (map (fun q => frames_from n q 0) qs)) = length qs * (RQ * n).
Proof.
  rewrite (concat_length (RQ * n)); [rewrite map_length; reflexivity|]. apply Forall_forall. intros l Hl.
  apply in_map_iff in Hl. destruct Hl as (q & <- & _). rewrite frames_length. nia.
Qed.

Lemma total_length {A B} (l1 : list (list A)) (l2 : list (list B)) : map (@length A) l1 = map (@length B) l2 -> length (concat l1) = length (concat l2).
Proof.
  revert l2. induction l1 as [|a l1 IH]; intros [|b l2] H; try discriminate; [reflexivity|].
  cbn in *. injection H as H1 H2. rewrite !app_length, H1. f_equal. apply IH. exact H2.
Qed.

Lemma live_core t : live t -> live (core t).
Proof. intros H. exact H. Qed.

Lemma callbacks_live n bufs t t' outs rest' bs' : 0 < n -> Forall (fun buf => exists m, length buf = m * n) bufs ->
  t_offset t = None -> live t ->
  callbacks GO zero conv RQ n t bufs [] [] = Some (t', outs, rest', bs') ->
  map (@length T) outs = map (@length T) bufs /\
  (exists k qs, quanta GO RQ k (core t) = Some qs /\
    length (concat bufs) <= k * (RQ * n) < length (concat bufs) + RQ * n /\
    t_frames t' = t_frames t + k * RQ) /\
  forall k qs, quanta GO RQ k (core t) = Some qs -> length (concat bufs) <= k * (RQ * n) ->
    concat outs = firstn (length (concat bufs)) (concat (map (fun q => frames_from n q 0) qs)).
Proof.
  intros Hn HF HO HL H. eapply callbacks_stream in H; eauto; [|unfold offset_ok; rewrite HO; exact I].
  destruct H as (es & H1 & H2 & H3 & H4 & H5). split; [exact H3|].
  assert (HH : handled es = []) by (cbn in H5; symmetry in H5; apply app_eq_nil in H5; exact (proj1 H5)).
  apply live_core in HL. destruct (live_history _ _ _ HL HH H1) as (Q1 & _ & Q2 & Q3). rewrite Q2 in H2.
  unfold undelivered at 2 in H2. rewrite HO in H2. cbn [app] in H2.
  pose proof (total_length _ _ H3) as HT.
  pose proof (f_equal (@length T) H2) as HT2. rewrite app_length, stream_length, HT in HT2.
  assert (HU : length (undelivered zero conv RQ n t') < RQ * n).
  { unfold undelivered. unfold offset_ok in H4. destruct (t_offset t') as [[o q]|]; [|cbn; nia].
    rewrite frames_length. nia. }
  split.
  { exists (length (quanta_of es)), (quanta_of es). split; [exact Q1|]. split; [lia|]. exact Q3. }
  intros k qs Hk Hle.
  assert (X : firstn (length (concat bufs)) (concat (map (fun q => frames_from n q 0) (quanta_of es))) = concat outs).
  { rewrite <- H2, firstn_app, HT, Nat.sub_diag. cbn [firstn]. rewrite app_nil_r. rewrite <- HT. apply firstn_all. }
  rewrite <- X. pose proof (quanta_length _ _ _ Hk) as Lk.
  destruct (le_lt_dec k (length (quanta_of es))) as [L|L].
  - destruct (quanta_prefix _ _ _ _ _ Hk Q1 L) as [r Er]. rewrite Er, map_app, concat_app, firstn_app, stream_length.
    replace (length (concat bufs) - length qs * (RQ * n)) with 0 by lia. cbn [firstn]. rewrite app_nil_r. reflexivity.
  - destruct (quanta_prefix _ _ _ _ _ Q1 Hk) as [r Er]; [lia|]. rewrite Er, map_app, concat_app, firstn_app, stream_length.
    replace (length (concat bufs) - length (quanta_of es) * (RQ * n)) with 0 by lia. cbn [firstn]. rewrite app_nil_r. reflexivity.
Qed.
End ThreadProofs.
