From Coq Require Import List Arith Bool Lia.
From Verif Require Import Graph_Model Graph_Spec Graph_OrderProofs Graph_RenderProofs
  Graph_TraceModel Graph_TraceSpec Graph_TraceProofs Flow_Spec Flow_Proofs
  Thread_Model Thread_Spec Thread_Proofs Thread_OfflineProofs Whole_Model Whole_Spec.
Import ListNotations.

Section Whole.
Context {P Q CFG V : Type}.
Variable E : env P Q CFG.
Variable chans : Q -> list (list V).
Variable zero : V.
Variable RQ : nat.
Hypothesis RQ_pos : 0 < RQ.
Hypothesis QOK : forall q, well_formed RQ (chans q).
Notation GO := (audio_graph E chans).
Notation thread := (@thread (graph P Q CFG) V).

(** ** The messages *)
Lemma apply_all : forall msgs g g' ls (t : thread), messages_only msgs -> t_graph t = Some g -> grun E msgs g = Some (g', ls) ->
  handle_all GO t (map GraphMsg msgs) = Some (set_graph t (Some g'), []).
Proof.
  induction msgs as [|m msgs IH]; intros g g' ls t HM HG H; cbn [map handle_all]; cbn [grun] in H.
  - injection H as <- <-. destruct t; cbn in *. subst. reflexivity.
  - destruct (gstep E m g) as [[g1 l1]|] eqn:E1; [|discriminate]. destruct (grun E msgs g1) as [[g2 l2]|] eqn:E2; [|discriminate]. injection H as <- <-.
    inversion HM as [|? ? H1 H2]; subst. cbn [handle_control_message]. rewrite HG. cbn [audio_graph g_apply]. rewrite E1. cbn [option_map fst].
    rewrite (IH g1 g2 l2 (set_graph t (Some g1)) H2 eq_refl E2). destruct t; reflexivity.
Qed.

Lemma started msgs g ls : messages_only msgs -> grun E msgs graph_new = Some (g, ls) ->
  exists t1, handle_control_messages GO new_thread (startup msgs) = Some (t1, []) /\ t_graph t1 = Some g /\ t_frames t1 = 0 /\ t_offset t1 = None /\
    t_suspended t1 = false /\ t_listening t1 = true.
Proof.
  intros HM H. unfold handle_control_messages. cbn [t_listening new_thread startup handle_all handle_control_message].
  erewrite apply_all; [|exact HM|reflexivity|exact H]. eexists. split; [reflexivity|]. repeat split.
Qed.

(** ** Quanta *)
Lemma clock_from k : forall f0, map (fun j => f0 + j * RQ) (seq 0 (S k)) = f0 :: map (fun j => f0 + RQ + j * RQ) (seq 0 k).
Proof.
  intros f0. cbn [seq map]. f_equal; [lia|]. rewrite <- seq_shift, map_map. apply map_ext. intros j. cbn. lia.
Qed.

Lemma loop_play k : forall quantum cap (t : thread) buffer g g' ll os L n,
  Forall (fun b => length b = L) buffer -> L = Nat.min cap (quantum * RQ) -> length buffer = n -> 0 < n ->
  t_graph t = Some g -> t_listening t = true -> play E g (map (fun j => t_frames t + j * RQ) (seq 0 k)) = Some (g', ll, os) ->
  exists t' buf, offline_loop GO zero RQ k quantum cap t buffer [] [] = Some (t', buf, []) /\ length buf = n /\
    (forall i b, nth_error buffer i = Some b -> nth_error buf i = Some (firstn cap (b ++ channel zero RQ i (map chans os)))) /\
    t_frames t' = t_frames t + k * RQ.
Proof.
  induction k as [|k IH]; intros quantum cap t buffer g g' ll os L n HF HL Hn Hp HG HT HP.
  - cbn [offline_loop]. cbn in HP. injection HP as <- <- <-. exists t, buffer. split; [reflexivity|]. split; [exact Hn|]. split; [|lia].
    intros i b Hb. rewrite Hb. unfold channel. cbn. rewrite app_nil_r. f_equal. symmetry. apply firstn_all2.
    assert (length b = L) by (apply nth_error_In in Hb; rewrite Forall_forall in HF; apply HF; exact Hb). lia.
  - rewrite clock_from in HP. cbn [play] in HP. destruct (render E (t_frames t) g) as [[[g1 lgs] o]|] eqn:ER; [|discriminate].
    destruct (play E g1 (map (fun j => t_frames t + RQ + j * RQ) (seq 0 k))) as [[[g2 ll2] os2]|] eqn:EP; [|discriminate]. injection HP as <- <- <-.
    cbn [offline_loop]. unfold handle_control_messages at 1. rewrite HT. cbn [handle_all]. unfold render_quantum. rewrite HG. cbn [audio_graph g_render]. rewrite ER.
    set (t2 := mk_thread (Some g1) (t_suspended t) (t_state t) (t_frames t + RQ) (t_listening t) (t_offset t) (t_events t) (t_notified t) (t_given t)).
    destruct (extend_offline zero RQ cap buffer (chans o)) as [buffer'|] eqn:EX; [|unfold extend_offline in EX; destruct buffer; [cbn in Hn; lia|discriminate]].
    destruct (extend_spec zero RQ RQ_pos cap buffer (chans o) buffer' L (QOK o) HF ltac:(lia) EX) as (L1 & F1 & N1).
    unfold handle_control_messages at 1. cbn [t_listening t2 hd handle_all]. rewrite HT.
    destruct (IH (S quantum) cap t2 buffer' g1 g2 ll2 os2 (Nat.min cap (L + RQ)) n F1) as (t' & buf & A1 & A2 & A3 & A4);
      [subst L; cbn; lia|congruence|exact Hp|reflexivity|exact HT|exact EP|].
    exists t', buf. cbn [tl]. fold t2. rewrite A1. split; [reflexivity|]. split; [exact A2|]. split.
    + intros i b Hb. rewrite (A3 i _ (N1 i b Hb)). f_equal. rewrite firstn_app_firstn. f_equal. unfold channel. cbn. rewrite app_nil_r, <- app_assoc. reflexivity.
    + rewrite A4. cbn. lia.
Qed.

Lemma play_length frames : forall g g' ll os, play E g frames = Some (g', ll, os) -> length os = length frames.
Proof.
  induction frames as [|f frames IH]; intros g g' ll os H; cbn [play] in H; [injection H as <- <- <-; reflexivity|].
  destruct (render E f g) as [[[g1 lgs] o]|]; [|discriminate]. destruct (play E g1 frames) as [[[g2 ll2] os2]|] eqn:EP; [|discriminate]. injection H as <- <- <-.
  cbn. f_equal. eapply IH; exact EP.
Qed.

Lemma shift_quantum j : RQ <= j -> j mod RQ = (j - RQ) mod RQ /\ j / RQ = S ((j - RQ) / RQ).
Proof.
  intros L. assert (X : j = j - RQ + 1 * RQ) by lia. split; [rewrite X at 1; apply Nat.mod_add; lia|]. rewrite X at 1. rewrite Nat.div_add by lia. apply Nat.add_1_r.
Qed.

(** sample [j] of a channel of well-formed quanta *)
Lemma channel_nth i j : forall qs, Forall (well_formed RQ) qs -> j < length qs * RQ ->
  nth_error (channel zero RQ i qs) j =
  option_map (fun q => match nth_error q i with Some ch => nth (j mod RQ) ch zero | None => zero end) (nth_error qs (j / RQ)).
Proof.
  intros qs. revert j. induction qs as [|q qs IH]; intros j HF Hj; [cbn in Hj; lia|].
  inversion HF as [|? ? [_ Hq] HF']; subst. unfold channel. cbn [map concat].
  set (c := match nth_error q i with Some ch => ch | None => repeat zero RQ end).
  assert (Lc : length c = RQ).
  { subst c. destruct (nth_error q i) as [ch|] eqn:Ei; [|apply repeat_length]. apply nth_error_In in Ei. rewrite Forall_forall in Hq. apply Hq; exact Ei. }
  destruct (le_lt_dec RQ j) as [L|L].
  - rewrite nth_error_app2 by lia. rewrite Lc. fold (channel zero RQ i qs). rewrite IH by (auto; cbn in Hj; lia).
    destruct (shift_quantum j L) as [-> ->]. reflexivity.
  - rewrite nth_error_app1 by lia. rewrite Nat.mod_small, Nat.div_small by lia. cbn [nth_error option_map].
    assert (N : nth_error c j = Some (nth j c zero)) by (apply nth_error_nth'; lia). rewrite N. f_equal. subst c.
    destruct (nth_error q i); [reflexivity|]. rewrite nth_repeat. reflexivity.
Qed.

Lemma heard_channel (state : nat -> @moment P Q) os i j : (forall k o, nth_error os k = Some o -> hd_error (outputs_of (state (S k)) 0) = Some o) ->
  j < length os * RQ -> nth_error (channel zero RQ i (map chans os)) j = Some (heard chans zero RQ state i j).
Proof.
  intros H Hj. rewrite channel_nth; [|apply Forall_map, Forall_forall; intros o _; apply QOK|rewrite map_length; exact Hj].
  assert (X : j / RQ < length os) by (apply Nat.div_lt_upper_bound; lia).
  rewrite nth_error_map. destruct (nth_error os (j / RQ)) as [o|] eqn:Eo; [|apply nth_error_None in Eo; lia]. cbn [option_map]. f_equal.
  unfold heard. specialize (H _ _ Eo). destruct (outputs_of (state (S (j / RQ))) 0) as [|o' l]; [discriminate|]. cbn in H. injection H as ->. reflexivity.
Qed.

Lemma clock_eq k (f0 : nat) : f0 = 0 -> map (fun j => f0 + j * RQ) (seq 0 k) = clock RQ k.
Proof. intros ->. reflexivity. Qed.

Lemma ceil_covers len : len <= div_ceil len RQ * RQ.
Proof.
  unfold div_ceil. pose proof (Nat.div_mod (len + (RQ - 1)) RQ ltac:(lia)). pose proof (Nat.mod_upper_bound (len + (RQ - 1)) RQ ltac:(lia)). nia.
Qed.

(** ** Offline rendering *)
Lemma messages_no_cycle msgs : messages_only msgs -> along E no_cycle_when_rendering graph_new msgs.
Proof.
  intros HM. generalize (@graph_new P Q CFG). induction HM as [|m msgs H1 H2 IH]; intros g0; cbn; [exact I|]. split; [destruct m; (exact I || destruct H1)|intros; apply IH].
Qed.

Lemma offline_play n len msgs g ls g' ll os : 0 < n -> messages_only msgs -> grun E msgs graph_new = Some (g, ls) ->
  play E g (clock RQ (div_ceil len RQ)) = Some (g', ll, os) ->
  exists t' buf, render_audiobuffer GO zero RQ n len new_thread (startup msgs) [] [] = Some (t', buf, []) /\ length buf = n /\    forall state : nat -> @moment P Q, (forall k o, nth_error os k = Some o -> hd_error (outputs_of (state (S k)) 0) = Some o) ->
    forall i, i < n -> exists ch, nth_error buf i = Some ch /\ length ch = len /\ forall j, j < len -> nth_error ch j = Some (heard chans zero RQ state i j).
Proof.
  intros Hn HM HR HP.
  destruct (started msgs g ls HM HR) as (t1 & S1 & S2 & S3 & _ & _ & S4).
  unfold render_audiobuffer. rewrite S1.
  destruct (loop_play (div_ceil len RQ) 0 len t1 (repeat [] n) g g' ll os 0 n) as (t' & buf & A1 & A2 & A3 & A4); auto.
  - apply Forall_forall. intros b Hb. apply repeat_spec in Hb. subst. reflexivity.
  - cbn. lia.
  - apply repeat_length.
  - rewrite clock_eq by exact S3. exact HP.
  - exists t', buf. rewrite A1. split; [reflexivity|]. split; [exact A2|].
    intros state D3 i Hi. eexists. split; [apply A3; apply nth_error_repeat; exact Hi|]. cbn [app].
    assert (LO : length os = div_ceil len RQ) by (rewrite (play_length _ _ _ _ _ HP); unfold clock; rewrite map_length, seq_length; reflexivity).
    assert (H : forall j, j < length os * RQ -> nth_error (channel zero RQ i (map chans os)) j = Some (heard chans zero RQ state i j)) by (intros; apply heard_channel; assumption).
    pose proof (ceil_covers len) as CC. rewrite <- LO in CC.
    assert (LC : len <= length (channel zero RQ i (map chans os))).
    { destruct (Nat.eq_dec len 0); [lia|]. assert (X : nth_error (channel zero RQ i (map chans os)) (len - 1) <> None) by (rewrite H by lia; discriminate).
      apply nth_error_Some in X. lia. }
    split; [rewrite firstn_length; lia|]. intros j Hj.
    assert (NF : nth_error (firstn len (channel zero RQ i (map chans os))) j = nth_error (channel zero RQ i (map chans os)) j).
    { clear - Hj. revert len Hj. generalize (channel zero RQ i (map chans os)) as l. induction j as [|j IH]; intros l len Hj; destruct len, l; try lia; cbn; auto. apply IH. lia. }
    rewrite NF. apply H. lia.
Qed.

Theorem offline_flow (EOK : env_ok E) n len msgs g ls g' ll os : 0 < n ->
  legal_run E graph_new msgs -> registrations_in_time msgs -> messages_only msgs -> grun E msgs graph_new = Some (g, ls) ->
  (forall i, Graph_Spec.live (g_nodes g) i -> handle_alive i msgs) -> (forall i, ~ on_delay_free_cycle (g_nodes g) i) ->
  play E g (clock RQ (div_ceil len RQ)) = Some (g', ll, os) -> Forall (Forall (fun lg => l_result lg <> None)) ll ->
  exists t' buf ns ord state,
    render_audiobuffer GO zero RQ n len new_thread (startup msgs) [] [] = Some (t', buf, []) /\    cut_at_breakers (g_nodes g) ns /\ dataflow E ns ord (clock RQ (div_ceil len RQ)) state /\ length buf = n /\    forall i, i < n -> exists ch, nth_error buf i = Some ch /\ length ch = len /\ forall j, j < len -> nth_error ch j = Some (heard chans zero RQ state i j).
Proof.
  intros Hn HL HT HM HR HA HC HP HN.
  destruct (flow_history E EOK msgs g ls _ g' ll os HL HT (messages_no_cycle msgs HM) HR HA HC HP HN) as (ns & ord & state & D1 & D2 & D3 & D4).
  destruct (offline_play n len msgs g ls g' ll os Hn HM HR HP) as (t' & buf & B1 & B2 & B3).
  exists t', buf, ns, ord, state. split; [exact B1|]. split; [exact D1|]. split; [exact D2|]. split; [exact B2|exact (B3 state D3)].
Qed.

(** a solution of the equations is what is rendered *)
Theorem offline_solved (EOK : env_ok E) n len msgs g ls : 0 < n ->
  legal_run E graph_new msgs -> registrations_in_time msgs -> messages_only msgs -> grun E msgs graph_new = Some (g, ls) ->
  (forall i, Graph_Spec.live (g_nodes g) i -> handle_alive i msgs) -> (forall i, ~ on_delay_free_cycle (g_nodes g) i) ->
  (exists d, get (g_nodes g) 0 = Some d /\ n_outputs d <> []) ->
  exists ns ord, cut_at_breakers (g_nodes g) ns /\ rendering_order ns ord /\ (forall i, Graph_Spec.live ns i -> In i ord) /\    forall state, reads_connected E ns state -> dataflow E ns ord (clock RQ (div_ceil len RQ)) state ->
    exists t' buf, render_audiobuffer GO zero RQ n len new_thread (startup msgs) [] [] = Some (t', buf, []) /\ length buf = n /\      forall i, i < n -> exists ch, nth_error buf i = Some ch /\ length ch = len /\ forall j, j < len -> nth_error ch j = Some (heard chans zero RQ state i j).
Proof.
  intros Hn HL HT HM HR HA HC HD.
  destruct (solved_history E EOK msgs g ls HL HT (messages_no_cycle msgs HM) HR HA HC HD) as (ns & ord & D1 & D2 & D3 & D4).
  exists ns, ord. split; [exact D1|]. split; [exact D2|]. split; [exact D3|]. intros state R F.
  destruct (D4 _ state R F) as (g' & ll & os & P1 & P2 & P3).
  destruct (offline_play n len msgs g ls g' ll os Hn HM HR P1) as (t' & buf & B1 & B2 & B3).
  exists t', buf. split; [exact B1|]. split; [exact B2|exact (B3 state P3)].
Qed.

(** ** Hardware callbacks *)
Lemma graph_ok_whole : graph_ok GO RQ.
Proof. intros g f g' q H. cbn in H. destruct (render E f g) as [[[g1 lgs] o]|]; [|discriminate]. injection H as <- <-. apply QOK. Qed.
Lemma stays_active_whole : stays_active GO.
Proof.
  intros g f g' q _ H. cbn in H. destruct (render E f g) as [[[g1 lgs] o]|] eqn:ER; [|discriminate]. injection H as <- <-.
  unfold render in ER. destruct (match g_ordered g with [] => _ | _ => _ end) as [[gn ord]|]; [|discriminate].
  destruct (render_nodes E f gn ord) as [[gn' lgs']|]; [|discriminate]. destruct (get gn' 0) as [d|] eqn:Ed; [|discriminate].
  destruct (n_outputs d); [discriminate|]. injection ER as <- <- <-. cbn [audio_graph g_active is_active g_nodes]. unfold is_active. cbn. rewrite Ed. reflexivity.
Qed.
Lemma quanta_play k : forall (t : thread) g g' ll os, t_graph t = Some g -> play E g (map (fun j => t_frames t + j * RQ) (seq 0 k)) = Some (g', ll, os) ->
  quanta GO RQ k t = Some (map chans os).
Proof.
  induction k as [|k IH]; intros t g g' ll os HG HP.
  - cbn in HP. injection HP as <- <- <-. reflexivity.
  - rewrite clock_from in HP. cbn [play] in HP. destruct (render E (t_frames t) g) as [[[g1 lgs] o]|] eqn:ER; [|discriminate].
    destruct (play E g1 (map (fun j => t_frames t + RQ + j * RQ) (seq 0 k))) as [[[g2 ll2] os2]|] eqn:EP; [|discriminate]. injection HP as <- <- <-.
    cbn [quanta]. unfold render_quantum. rewrite HG. cbn [audio_graph g_render]. rewrite ER. cbn [map].
    rewrite (IH (mk_thread (Some g1) (t_suspended t) (t_state t) (t_frames t + RQ) (t_listening t) (t_offset t) (t_events t) (t_notified t) (t_given t)) g1 g2 ll2 os2); [reflexivity|reflexivity|exact EP].
Qed.

Context {T : Type}.
Variable conv : V -> T.
Lemma frames_nth n i : i < n -> forall qs j, j < length qs * RQ ->
  nth_error (concat (map (fun q => frames_from zero conv RQ n q 0) qs)) (j * n + i) =
  option_map (fun q => conv (nth (j mod RQ) (nth i q []) zero)) (nth_error qs (j / RQ)).
Proof.
  intros Hi. induction qs as [|q qs IH]; intros j Hj; [cbn in Hj; lia|]. cbn [map concat].
  assert (FL : forall k m (q0 : list (list V)), length (concat (map (frame zero conv n q0) (seq k m))) = m * n).
  { intros k m q0. revert k. induction m as [|m IHm]; intros k; [reflexivity|]. cbn [seq map concat]. rewrite app_length, IHm. unfold frame at 1. rewrite map_length, seq_length. lia. }
  assert (FN : forall m k j0, j0 < m -> nth_error (concat (map (frame zero conv n q) (seq k m))) (j0 * n + i) = Some (conv (nth (k + j0) (nth i q []) zero))).
  { induction m as [|m IHm]; intros k j0 Hj0; [lia|]. cbn [seq map concat].
    assert (LF : length (frame zero conv n q k) = n) by (unfold frame; rewrite map_length, seq_length; reflexivity).
    destruct j0 as [|j0].
    - rewrite nth_error_app1 by (rewrite LF; cbn; lia). unfold frame. cbn [Nat.mul Nat.add]. rewrite nth_error_map.
      assert (SQ : nth_error (seq 0 n) i = Some i) by (rewrite (nth_error_nth' _ 0) by (rewrite seq_length; exact Hi); rewrite seq_nth by exact Hi; reflexivity).
      rewrite SQ. cbn. rewrite Nat.add_0_r. reflexivity.
    - rewrite nth_error_app2 by (rewrite LF; cbn; lia). rewrite LF. replace (S j0 * n + i - n) with (j0 * n + i) by (cbn; lia).
      rewrite IHm by lia. f_equal. f_equal. f_equal. lia. }
  assert (LQ : length (frames_from zero conv RQ n q 0) = RQ * n) by (unfold frames_from; rewrite FL; f_equal; lia).
  destruct (le_lt_dec RQ j) as [L|L].
  - rewrite nth_error_app2 by (rewrite LQ; nia). rewrite LQ. replace (j * n + i - RQ * n) with ((j - RQ) * n + i) by nia.
    rewrite IH by (cbn in Hj; lia). destruct (shift_quantum j L) as [-> ->]. reflexivity.
  - rewrite nth_error_app1 by (rewrite LQ; nia). rewrite Nat.mod_small, Nat.div_small by lia. cbn [nth_error option_map]. unfold frames_from. rewrite FN by lia. reflexivity.
Qed.

Theorem callbacks_flow (EOK : env_ok E) n bufs msgs g ls t t' outs rest' bs' k g' ll os : 0 < n ->
  legal_run E graph_new msgs -> registrations_in_time msgs -> messages_only msgs -> grun E msgs graph_new = Some (g, ls) ->
  (forall i, Graph_Spec.live (g_nodes g) i -> handle_alive i msgs) -> (forall i, ~ on_delay_free_cycle (g_nodes g) i) ->
  handle_control_messages GO new_thread (startup msgs) = Some (t, []) -> is_active g = true ->
  Forall (fun buf => exists m, length buf = m * n) bufs ->
  callbacks GO zero conv RQ n t bufs [] [] = Some (t', outs, rest', bs') ->
  length (concat bufs) <= k * (RQ * n) ->
  play E g (clock RQ k) = Some (g', ll, os) -> Forall (Forall (fun lg => l_result lg <> None)) ll ->
  exists ns ord state,
    cut_at_breakers (g_nodes g) ns /\ dataflow E ns ord (clock RQ k) state /\ map (@length T) outs = map (@length T) bufs /\
    forall i j, i < n -> j * n + i < length (concat bufs) -> nth_error (concat outs) (j * n + i) = Some (conv (heard chans zero RQ state i j)).
Proof.
  intros Hn HL HT HM HR HA HC HH Hact HB HCB HK HP HN.
  assert (HNC : along E no_cycle_when_rendering graph_new msgs).
  { clear - HM. generalize (@graph_new P Q CFG). induction HM as [|m msgs H1 H2 IH]; intros g0; cbn; [exact I|]. split; [destruct m; (exact I || destruct H1)|intros; apply IH]. }
  destruct (flow_history E EOK msgs g ls _ g' ll os HL HT HNC HR HA HC HP HN) as (ns & ord & state & D1 & D2 & D3 & D4).
  destruct (started msgs g ls HM HR) as (t1 & S1 & S2 & S3 & S5 & S6 & S4). rewrite HH in S1. injection S1 as <-.
  destruct (callbacks_live GO zero conv RQ RQ_pos graph_ok_whole stays_active_whole n bufs t t' outs rest' bs' Hn HB S5) as (C1 & _ & C3);
    [split; [exact S6|exists g; split; [exact S2|exact Hact]]|exact HCB|].
  assert (Core : t_graph (core t) = Some g /\ t_frames (core t) = 0) by (destruct t; cbn in *; auto). destruct Core as [K1 K2].
  assert (HQ : quanta GO RQ k (core t) = Some (map chans os)) by (apply (quanta_play k (core t) g g' ll os K1); rewrite clock_eq by exact K2; exact HP).
  exists ns, ord, state. split; [exact D1|]. split; [exact D2|]. split; [exact C1|].
  intros i j Hi Hj. rewrite (C3 k (map chans os) HQ HK).
  assert (NF : forall A (l : list A) m x, x < m -> nth_error (firstn m l) x = nth_error l x).
  { clear. intros A l m x. revert l m. induction x as [|x IH]; intros l m H; destruct m, l; try lia; cbn; auto. apply IH. lia. }
  assert (LO : length os = k) by (rewrite D4; unfold clock; rewrite map_length, seq_length; reflexivity).
  rewrite NF by exact Hj. rewrite frames_nth; [|exact Hi|rewrite map_length, LO; nia].
  assert (X : j / RQ < length os) by (apply Nat.div_lt_upper_bound; nia).
  rewrite nth_error_map. destruct (nth_error os (j / RQ)) as [o|] eqn:Eo; [|apply nth_error_None in Eo; lia]. cbn [option_map]. f_equal.
  unfold heard. specialize (D3 _ _ Eo). destruct (outputs_of (state (S (j / RQ))) 0) as [|o' l]; [discriminate|]. cbn in D3. injection D3 as ->. f_equal.
  destruct (nth_error (chans o) i) as [ch|] eqn:Ei.
  - rewrite (nth_error_nth _ _ [] Ei). reflexivity.
  - apply nth_error_None in Ei. rewrite (nth_overflow (chans o)) by exact Ei. destruct (j mod RQ); reflexivity.
Qed.
End Whole.
