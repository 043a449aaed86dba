(** Hardware callbacks and offline rendering produce the same sound. *)
From Coq Require Import List Arith Bool Lia.
From Verif Require Import Thread_Model Thread_Spec Thread_Proofs Thread_OfflineProofs.
Import ListNotations.

Section Twin.
Context {G M V T : Type}.
Variable GO : @graph_ops G M V.
Variable zero : V.
Variable conv : V -> T.
Variable RQ : nat.
Hypothesis RQ_pos : 0 < RQ.
Hypothesis GOK : graph_ok GO RQ.
Notation thread := (@thread G V).
Notation cmsg := (@cmsg G M).

(** ** Without messages *)
Lemma receive_none (t : thread) : receive GO t [] [] = Some (t, [], []).
Proof. unfold receive, handle_control_messages. cbn. destruct (t_listening t); reflexivity. Qed.

Lemma quanta_ext k : forall t t' : thread, t_graph t = t_graph t' -> t_frames t = t_frames t' -> quanta GO RQ k t = quanta GO RQ k t'.
Proof.
  induction k as [|k IH]; intros t t' H1 H2; cbn [quanta]; [reflexivity|].
  unfold render_quantum. rewrite H1, H2. destruct (t_graph t') as [g|]; [|reflexivity].
  destruct (g_render GO g (t_frames t')) as [[g' q]|]; [|reflexivity].
  f_equal. apply IH; reflexivity.
Qed.

Lemma chunks_ok n : 0 < n -> forall cs (t : thread) k, length cs <= k -> quanta GO RQ k t <> None ->
  exists t' out, render_chunks GO zero conv RQ n t cs [] [] = Some (t', out, [], []) /\
    t_frames t' = t_frames t + length cs * RQ /\ quanta GO RQ (k - length cs) t' <> None.
Proof.
  intros Hn. induction cs as [|data cs IH]; intros t k Hk HQ; cbn [render_chunks].
  - eexists _, _. split; [reflexivity|]. cbn [length]. rewrite Nat.sub_0_r. split; [lia|exact HQ].
  - cbn [length] in Hk. destruct k as [|k]; [lia|]. cbn [quanta] in HQ.
    destruct (render_quantum GO RQ t) as [[t1 q]|] eqn:ER; [|congruence].
    destruct (render_wf GO RQ GOK _ _ _ ER) as (W & F & _).
    destruct (pad_ok zero RQ RQ_pos n q W) as [P1 P2].
    destruct (copy_channels conv n 0 n 0 (pad zero RQ n q) data) as [d'|] eqn:EC; [|exfalso; eapply (@copy_total V RQ RQ_pos T conv n 0 _ data P2 P1 n 0 data); eauto].
    rewrite receive_none.
    match goal with |- context [render_chunks GO zero conv RQ n ?t2 cs [] []] => destruct (IH t2 k) as (t3 & o3 & E3 & F3 & Q3) end; [lia| |].
    { rewrite (quanta_ext k _ t1); [intros X; apply HQ; rewrite X; reflexivity| |]; destruct (Nat.eqb _ _); reflexivity. }
    rewrite E3. eexists _, _. split; [reflexivity|]. split; [|cbn [length Nat.sub]; exact Q3].
    cbn [length]. rewrite F3. destruct (Nat.eqb _ _); cbn [set_offset t_frames]; lia.
Qed.

Lemma chunks_count {A} n : 0 < n -> forall fuel k (l : list A), length l <= k * n -> length (chunks_fuel fuel n l) <= k.
Proof.
  intros Hn. induction fuel as [|fuel IH]; intros k l H; cbn [chunks_fuel]; [cbn; lia|].
  destruct l as [|a l]; [cbn; lia|]. destruct k as [|k]; [cbn in H; lia|]. cbn [length]. apply le_n_S. apply IH.
  rewrite skipn_length. cbn [length] in *. nia.
Qed.

Hypothesis SA : stays_active GO.
Notation live := (live GO).

Lemma inner_ok n : 0 < n -> forall (t : thread) (buf : list T) k m, length buf = m * n -> live t -> offset_ok RQ n t ->
  quanta GO RQ k (core t) <> None -> length buf <= length (undelivered zero conv RQ n t) + k * (RQ * n) ->
  exists t' out c, render_inner GO zero conv RQ n t buf [] [] = Some (t', out, [], []) /\ c <= k /\
    t_frames t' = t_frames t + c * RQ /\ quanta GO RQ (k - c) (core t') <> None.
Proof.
  intros Hn t buf k m Hm HL HO HQ Hlen.
  assert (HN : forall (t0 : thread) b, t_graph t0 = t_graph t -> t_suspended t0 = t_suspended t -> t_frames t0 = t_frames t -> length b <= k * (RQ * n) ->
    exists t' out c, render_next GO zero conv RQ n t0 b [] [] = Some (t', out, [], []) /\ c <= k /\
    t_frames t' = t_frames t + c * RQ /\ quanta GO RQ (k - c) (core t') <> None).
  { intros t0 b G0 S0 F0 Hb. unfold render_next. rewrite receive_none. destruct HL as [L1 (g & L2 & L3)].
    rewrite S0, G0, L1, L2, L3. cbn [orb negb].
    assert (CC : length (chunks (RQ * n) b) <= k) by (apply chunks_count; nia).
    destruct (chunks_ok n Hn (chunks (RQ * n) b) t0 k CC) as (t' & out & E & F & Q').
    { rewrite (quanta_ext k t0 (core t)); [exact HQ|exact G0|exact F0]. }
    exists t', out, (length (chunks (RQ * n) b)). split; [exact E|]. split; [exact CC|]. split; [lia|].
    rewrite (quanta_ext _ (core t') t'); [exact Q'|reflexivity|reflexivity]. }
  unfold render_inner. unfold undelivered in Hlen. destruct (t_offset t) as [[o prev]|] eqn:EO.
  2: { apply HN; auto. }
  unfold offset_ok in HO. rewrite EO in HO. destruct HO as (O0 & O1 & O2). rewrite (frames_length zero conv RQ) in Hlen.
  destruct (copy_channels conv n 0 n o prev _) as [d|] eqn:EC; [|exfalso; exact (@copy_total V RQ RQ_pos T conv n o prev [] O2 O1 n 0 _ (le_n _) (or_intror I) EC)].
  destruct (skipn _ buf) as [|y ys] eqn:ES.
  { eexists _, _, 0. split; [reflexivity|]. split; [lia|]. split; [cbn; lia|]. rewrite Nat.sub_0_r. rewrite (quanta_ext k _ (core t)); [exact HQ|reflexivity|reflexivity]. }
  destruct (HN (set_offset t None) (y :: ys)) as (t1 & o1 & c & -> & X); try reflexivity.
  { rewrite <- ES, skipn_length. lia. }
  eexists _, _, c. split; [reflexivity|exact X].
Qed.

Lemma callbacks_ok n : 0 < n -> forall bufs (t : thread) k,
  Forall (fun buf : list T => exists m, length buf = m * n) bufs -> live t -> offset_ok RQ n t ->
  quanta GO RQ k (core t) <> None -> length (concat bufs) <= length (undelivered zero conv RQ n t) + k * (RQ * n) ->
  exists t' outs, callbacks GO zero conv RQ n t bufs [] [] = Some (t', outs, [], []).
Proof.
  intros Hn. induction bufs as [|buf bufs IH]; intros t k HF HL HO HQ Hlen; cbn [callbacks]; [eexists _, _; reflexivity|].
  pose proof (Forall_inv HF) as [m Hm]. pose proof (Forall_inv_tail HF) as HF'. cbn [concat] in Hlen. rewrite app_length in Hlen.
  destruct (inner_ok n Hn t buf k m Hm HL HO HQ) as (t1 & out & c & E & Hc & F & Q'); [lia|]. rewrite E.
  destruct (inner_stream GO zero conv RQ RQ_pos GOK n Hn t buf [] [] t1 out [] [] m Hm HO E) as (es & H1 & H2 & H3 & H4 & H5).
  assert (HH : handled es = []) by (cbn in H5; rewrite app_nil_r in H5; symmetry; exact H5).
  assert (HLc : live (core t)) by exact HL.
  destruct (live_history GO zero conv RQ RQ_pos SA (core t) es (core t1) HLc HH H1) as (_ & _ & Q2 & Q3). rewrite Q2 in H2.
  assert (HL1 : live t1).
  { change (live (core t1)). clear - H1 HH HLc SA. revert HLc HH. generalize dependent (core t1). generalize dependent (core t). intros s s1 H1. induction H1 as [u|u e u1 es u2 He Hes IH]; intros HL HH; [exact HL|]. inversion He; subst.
    - unfold handled in HH. cbn [flat_map] in HH. apply app_eq_nil in HH. destruct HH as [-> HH]. cbn in *.
      match goal with X : Some _ = Some _ |- _ => injection X as <- end. apply IH; assumption.
    - apply IH; [|exact HH]. eapply live_render; eauto.
    - exfalso. destruct HL as [L1 (g & L2 & L3)]. destruct H as [H|H]; [congruence|]. rewrite L2 in H. congruence. }
  pose proof (f_equal (@length T) H2) as HT. rewrite !app_length, (stream_length zero conv RQ RQ_pos), H3 in HT.
  assert (length (quanta_of es) = c) as EC.
  { cbn [core set_offset t_frames] in Q3. nia. }
  rewrite EC in HT.
  destruct (IH t1 (k - c) HF' HL1 H4 Q') as (t2 & outs & E2).
  { pose proof (Nat.mul_le_mono_r _ _ (RQ * n) Hc). rewrite Nat.mul_sub_distr_r. lia. }
  rewrite E2. eexists _, _. reflexivity.
Qed.

(** the quanta of an offline rendering *)
Lemma offline_quanta cap k : forall quantum (t : thread) buffer t' buf ran,
  offline_loop GO zero RQ k quantum cap t buffer [] [] = Some (t', buf, ran) -> exists qs, quanta GO RQ k t = Some qs.
Proof.
  induction k as [|k IH]; intros quantum t buffer t' buf ran H; [exists []; reflexivity|]. cbn [offline_loop hd tl] in H.
  assert (HN : forall t0 : thread, handle_control_messages GO t0 [] = Some (t0, [])) by (intros t0; unfold handle_control_messages; destruct (t_listening t0); reflexivity).
  rewrite HN in H. cbn [quanta]. destruct (render_quantum GO RQ t) as [[t2 q]|]; [|discriminate].
  destruct (extend_offline zero RQ cap buffer q) as [b'|]; [|discriminate]. rewrite HN in H.
  destruct (offline_loop GO zero RQ k (S quantum) cap t2 b' [] []) as [[[t4 b4] r4]|] eqn:E; [|discriminate].
  destruct (IH _ _ _ _ _ _ E) as [qs Q]. rewrite Q. eexists. reflexivity.
Qed.

Lemma offline_channels n len (t t' : thread) buf ran qs : t_listening t = true -> live t ->
  offline_loop GO zero RQ (div_ceil len RQ) 0 len t (repeat [] n) [] [] = Some (t', buf, ran) -> quanta GO RQ (div_ceil len RQ) t = Some qs ->
  Forall (well_formed RQ) qs /\ length buf = n /\ forall i, i < n -> nth_error buf i = Some (firstn len (channel zero RQ i qs)).
Proof.
  intros LS HL H HQ.
  eapply (loop_spec GO zero RQ RQ_pos GOK len n _ 0 t (repeat [] n) [] [] t' buf ran 0) in H; [|apply Forall_forall; intros b Hb; apply repeat_spec in Hb; subst; reflexivity|cbn; lia|apply repeat_length|constructor|constructor].
  destruct H as (qs' & I1 & I2 & I3 & I4 & I5 & I6 & I7). destruct (I7 LS) as [_ HH]; [constructor|constructor|].
  assert (X : forall l (j : nat), quanta_of (G:=G) (M:=M) (flat_map (fun jq : nat * list (list V) => [Receive (messages_at [] (fst jq)); Quantum (snd jq); Receive (nth (fst jq - 0) [] [])]) (combine (seq j (length l)) l)) = l /\
    handled (G:=G) (M:=M) (flat_map (fun jq : nat * list (list V) => [Receive (messages_at [] (fst jq)); Quantum (snd jq); Receive (nth (fst jq - 0) [] [])]) (combine (seq j (length l)) l)) = []).
  { induction l as [|q l IH]; intros j; [split; reflexivity|]. destruct (IH (S j)) as [X1 X2]. cbn [length seq combine flat_map]. unfold quanta_of, handled in *. cbn [flat_map app fst snd messages_at find].
    split; [f_equal; exact X1|]. destruct (j - 0); cbn [nth app]; exact X2. }
  rewrite <- I1 in HH. destruct (X qs' 0) as [X1 X2].
  destruct (live_history GO zero (fun v => v) RQ RQ_pos SA t _ t' HL X2 HH) as (Y & _). rewrite X1, I1, HQ in Y. injection Y as <-.
  split; [exact I2|]. split; [exact I3|]. intros i Hi. rewrite (I4 i []); [reflexivity|].
  clear -Hi. revert n Hi. induction i; intros [|n] Hi; try lia; cbn; [reflexivity|]. apply IHi. lia.
Qed.

Lemma stream_nth n i : i < n -> forall qs j, Forall (well_formed RQ) qs -> j < length qs * RQ ->
  nth_error (concat (map (fun q => frames_from zero conv RQ n q 0) qs)) (j * n + i) = option_map conv (nth_error (channel zero RQ i qs) j).
Proof.
  intros Hi. induction qs as [|q qs IH]; intros j HW Hj; [cbn in Hj; lia|].
  pose proof (Forall_inv HW) as W1. pose proof (Forall_inv_tail HW) as W2.
  cbn [map concat]. rewrite (channel_cons zero RQ i q qs).
  pose proof (frames_length zero conv RQ n q 0) as FL. rewrite Nat.sub_0_r in FL.
  assert (CL : length (channel zero RQ i [q]) = RQ) by (rewrite channel_length by (constructor; [exact W1|constructor]); cbn; lia).
  destruct (le_lt_dec RQ j) as [L|L].
  - rewrite nth_error_app2 by (rewrite FL; nia). rewrite FL. rewrite (nth_error_app2 (channel zero RQ i [q])) by lia. rewrite CL.
    replace (j * n + i - RQ * n) with ((j - RQ) * n + i) by nia. apply IH; [exact W2|cbn in Hj; lia].
  - rewrite nth_error_app1 by (rewrite FL; nia). rewrite (nth_error_app1 (channel zero RQ i [q])) by lia.
    rewrite (frames_nth zero conv RQ RQ_pos n q 0 (j * n + i)) by nia.
    assert (D : (j * n + i) / n = j) by (rewrite (Nat.div_add_l j n i) by lia; rewrite Nat.div_small by exact Hi; lia).
    assert (MD : (j * n + i) mod n = i) by (rewrite Nat.add_comm, Nat.mod_add by lia; apply Nat.mod_small; exact Hi).
    rewrite D, MD. unfold channel. cbn [map concat]. rewrite app_nil_r. destruct W1 as [_ W1].
    destruct (nth_error q i) as [ch|] eqn:Ei.
    + rewrite (nth_error_nth _ _ [] Ei). assert (LC : length ch = RQ) by (rewrite Forall_forall in W1; apply W1; eapply nth_error_In; exact Ei).
      rewrite (nth_error_nth' ch zero) by lia. reflexivity.
    + apply nth_error_None in Ei. rewrite (nth_overflow q) by exact Ei. rewrite (nth_error_nth' _ zero) by (rewrite repeat_length; lia). cbn [option_map]. do 2 f_equal.
      rewrite nth_repeat. destruct (0 + j); reflexivity.
Qed.

Theorem same_sound n len (t0 t t1 : thread) init buf ran bufs : 0 < n ->
  t_listening t = true -> t_offset t = None -> live t -> handle_control_messages GO t0 init = Some (t, []) ->
  render_audiobuffer GO zero RQ n len t0 init [] [] = Some (t1, buf, ran) ->
  Forall (fun b : list T => exists m, length b = m * n) bufs -> length (concat bufs) <= len * n ->
  exists t2 outs, callbacks GO zero conv RQ n t bufs [] [] = Some (t2, outs, [], []) /\ map (@length T) outs = map (@length T) bufs /\
    forall i j, i < n -> j * n + i < length (concat bufs) ->
      nth_error (concat outs) (j * n + i) = option_map conv (nth_error (nth i buf []) j).
Proof.
  intros Hn LS HO HL H0 HR HF Hlen. unfold render_audiobuffer in HR. rewrite H0 in HR.
  destruct (offline_quanta _ _ _ _ _ _ _ _ HR) as [qs HQ].
  destruct (offline_channels n len t t1 buf ran qs LS HL HR HQ) as (W & LB & CH).
  pose proof (div_ceil_enough RQ RQ_pos len) as CE.
  assert (HQc : quanta GO RQ (div_ceil len RQ) (core t) = Some qs) by (rewrite (quanta_ext _ (core t) t); [exact HQ|reflexivity|reflexivity]).
  assert (HOK : offset_ok RQ n t) by (unfold offset_ok; rewrite HO; exact I).
  destruct (callbacks_ok n Hn bufs t (div_ceil len RQ) HF HL HOK) as (t2 & outs & E); [congruence|nia|].
  exists t2, outs. split; [exact E|].
  destruct (callbacks_live GO zero conv RQ RQ_pos GOK SA n bufs t t2 outs [] [] Hn HF HO HL E) as (C1 & _ & C3). split; [exact C1|].
  intros i j Hi Hj. rewrite (C3 _ _ HQc) by nia.
  pose proof (quanta_length GO RQ _ _ _ HQ) as LQ.
  assert (NF : forall A (l : list A) m x, x < m -> nth_error (firstn m l) x = nth_error l x).
  { clear. intros A l m x. revert l m. induction x as [|x IH]; intros l m H; destruct m, l; try lia; cbn; auto. apply IH. lia. }
  rewrite NF by exact Hj. rewrite stream_nth; [|exact Hi|exact W|rewrite LQ; nia]. rewrite (nth_error_nth _ _ [] (CH i Hi)). rewrite NF by nia. reflexivity.
Qed.

(** ** With messages: callbacks of one quantum *)
(** messages that neither stop the thread nor make its graph inactive *)
Definition harmless (m : cmsg) : Prop :=
  match m with GraphMsg gm => forall g g', g_active GO g = true -> g_apply GO g gm = Some g' -> g_active GO g' = true | _ => False end.

Lemma harmless_handle ms : Forall harmless ms -> forall t t' rest : _, t_listening t = true -> live t -> handle_control_messages GO t ms = Some (t', rest) ->
  rest = [] /\ t_listening t' = true /\ live t' /\ t_offset t' = t_offset t.
Proof.
  intros HM t t' rest LS HL. unfold handle_control_messages. rewrite LS. revert t LS HL. induction HM as [|m ms Hm HM IH]; intros t LS HL H; cbn [handle_all] in H.
  - injection H as <- <-. auto.
  - destruct m as [gm| | | | |]; try contradiction. cbn [handle_control_message] in H. destruct HL as [L1 (g & L2 & L3)]. rewrite L2 in H.
    destruct (g_apply GO g gm) as [g'|] eqn:EA; [|discriminate]. destruct (IH (set_graph t (Some g'))) as (X1 & X2 & X3 & X4); auto.
    split; [exact L1|]. exists g'. split; [reflexivity|]. eapply Hm; eauto.
Qed.

Lemma nth_hd_tl {A} (d : A) l j : nth (S j) l d = nth j (tl l) d.
Proof. destruct l; destruct j; reflexivity. Qed.

Lemma step_by_step n : 0 < n -> forall k (t : thread) quantum cap buffer susp evs t' buf ran bufs,
  Forall (fun b : list T => length b = RQ * n) bufs -> length bufs = k ->
  ordered susp -> Forall (fun s => quantum <= fst s) susp ->
  Forall (fun s => Forall harmless (snd s)) susp -> Forall (Forall harmless) evs ->
  t_listening t = true -> t_offset t = None -> live t ->
  offline_loop GO zero RQ k quantum cap t buffer susp evs = Some (t', buf, ran) ->
  exists t2 outs qs, callbacks GO zero conv RQ n t bufs [] (flat_map (fun j => [messages_at susp j; nth (j - quantum) evs []]) (seq quantum k)) = Some (t2, outs, [], []) /\
    length qs = k /\ outs = map (fun q => frames_from zero conv RQ n q 0) qs /\ Forall (well_formed RQ) qs /\
    (forall L, Forall (fun b => length b = L) buffer -> L = Nat.min cap (quantum * RQ) -> forall i b, nth_error buffer i = Some b -> nth_error buf i = Some (firstn cap (b ++ channel zero RQ i qs))).
Proof.
  intros Hn. induction k as [|k IH]; intros t quantum cap buffer susp evs t' buf ran bufs HB HK HS HG HM HE LS HO HL H; cbn [offline_loop] in H.
  - injection H as <- <- <-. destruct bufs; [|discriminate]. eexists _, _, []. split; [reflexivity|]. split; [reflexivity|]. split; [reflexivity|]. split; [constructor|].
    intros L HF HLc i b Hi. cbn. rewrite app_nil_r, firstn_all2; [exact Hi|]. rewrite Forall_forall in HF. rewrite (HF b) by (eapply nth_error_In; exact Hi). lia.
  - destruct bufs as [|data bufs]; [discriminate|]. injection HK as HK. pose proof (Forall_inv HB) as HD. pose proof (Forall_inv_tail HB) as HB'.
    match type of H with (match ?x with (_, _) => _ end) = _ => destruct x as [[ms rn] susp'] eqn:EH end.
    destruct (handle_control_messages GO t ms) as [[t1 r1]|] eqn:E1; [|discriminate].
    destruct (render_quantum GO RQ t1) as [[t2 q]|] eqn:E2; [|discriminate].
    destruct (extend_offline zero RQ cap buffer q) as [buffer'|] eqn:E3; [|discriminate].
    destruct (handle_control_messages GO t2 (hd [] evs)) as [[t3 r3]|] eqn:E4; [|discriminate].
    destruct (offline_loop GO zero RQ k (S quantum) cap t3 buffer' susp' (tl evs)) as [[[t4 b4] ran4]|] eqn:E5; [|discriminate].
    injection H as <- <- <-.
    assert (HS' : ordered susp' /\ Forall (fun s => S quantum <= fst s) susp' /\ Forall (fun s => Forall harmless (snd s)) susp' /\ Forall harmless ms /\
       messages_at susp quantum = ms /\ (forall j, quantum < j -> messages_at susp j = messages_at susp' j)).
    { destruct susp as [|[q0 m0] susp0].
      - injection EH as <- <- <-. repeat split; auto.
      - inversion HG as [|? ? G1 G2]; subst. cbn [fst] in G1. unfold ordered in HS. cbn [map fst] in HS.
        inversion HS as [|? ? S1 S2]; subst. inversion HM as [|? ? M1 M2]; subst. cbn [snd] in M1.
        assert (S2' : Forall (fun s : nat * list cmsg => q0 < fst s) susp0).
        { clear -S2. induction susp0 as [|s l IHl]; [constructor|]. cbn in S2. inversion S2; subst. constructor; auto. }
        destruct (Nat.eqb_spec q0 quantum) as [->|Hne]; injection EH as <- <- <-.
        + split; [exact S1|]. split. { eapply Forall_impl; [|exact S2']. cbn. intros; lia. }
          split; [exact M2|]. split; [exact M1|].
          split. { unfold messages_at. cbn [find fst]. rewrite Nat.eqb_refl. reflexivity. }
          intros j Hj. unfold messages_at. cbn [find fst]. rewrite (proj2 (Nat.eqb_neq _ _)) by lia. reflexivity.
        + split; [exact HS|]. split. { constructor; [cbn; lia|]. eapply Forall_impl; [|exact S2']. cbn. intros; lia. }
          split; [exact HM|]. split; [constructor|].
          split. { unfold messages_at. cbn [find fst]. rewrite (proj2 (Nat.eqb_neq _ _)) by lia.
            replace (find (fun s => Nat.eqb (fst s) quantum) susp0) with (@None (nat * list cmsg)); [reflexivity|].
            clear -S2' G1. induction S2' as [|s l Hs HG IHl]; [reflexivity|]. cbn [find]. rewrite (proj2 (Nat.eqb_neq _ _)) by lia. exact IHl. }
          reflexivity. }
    destruct HS' as (HS1 & HS2 & HS3 & HS4 & HS5 & HS6).
    destruct (harmless_handle ms HS4 t t1 r1 LS HL E1) as (-> & LS1 & HL1 & HO1).
    destruct (render_wf GO RQ GOK _ _ _ E2) as (Wq & F2 & LS2).
    destruct (live_render GO RQ SA _ _ _ HL1 E2) as [HL2 _].
    assert (HO2 : t_offset t2 = None).
    { revert E2. unfold render_quantum. destruct (t_graph t1); [|discriminate]. destruct (g_render GO g (t_frames t1)) as [[g' q']|]; [|discriminate]. intros X; injection X as <- <-. cbn. congruence. }
    assert (HE0 : Forall harmless (hd [] evs) /\ Forall (Forall harmless) (tl evs)) by (destruct HE; split; try constructor; assumption).
    destruct HE0 as [HE0 HE1].
    destruct (harmless_handle _ HE0 t2 t3 r3 (eq_trans LS2 LS1) HL2 E4) as (-> & LS3 & HL3 & HO3).
    destruct (pad_ok zero RQ RQ_pos n q Wq) as [P1 P2].
    destruct (IH t3 (S quantum) cap buffer' susp' (tl evs) t4 b4 ran4 bufs HB' HK HS1 HS2 HS3 HE1 LS3 (eq_trans HO3 HO2) HL3 E5) as (t5 & outs & qs & C & Lq & Ho & Wqs & Hb).
    exists t5, (frames_from zero conv RQ n q 0 :: outs), (q :: qs). split; [|split; [cbn; lia|split; [rewrite Ho; reflexivity|split; [constructor; assumption|]]]].
    + cbn [callbacks]. cbn [seq flat_map app]. rewrite Nat.sub_diag, HS5.
      unfold render_inner. rewrite HO. unfold render_next, receive at 1. cbn [hd tl app]. rewrite E1.
      destruct HL1 as [A1 (g1 & A2 & A3)]. rewrite A1, A2, A3. cbn [orb negb].
      assert (CH : chunks (RQ * n) data = [data]).
      { unfold chunks. rewrite HD. destruct (RQ * n) as [|z] eqn:EZ; [nia|]. cbn [chunks_fuel]. destruct data as [|d0 data0]; [cbn in HD; lia|].
        rewrite firstn_all2 by (rewrite HD; lia). rewrite skipn_all2 by (rewrite HD; lia). destruct z; reflexivity. }
      rewrite CH. cbn [render_chunks]. rewrite E2.
      pose proof (copy_all zero conv RQ RQ_pos n 0 (pad zero RQ n q) RQ data Hn) as CA.
      rewrite CA; [|lia|exact P2|exact P1|rewrite HD; reflexivity].
      rewrite (frames_pad zero conv RQ RQ_pos n q 0).
      rewrite (firstn_all2 (frames_from zero conv RQ n q 0)) by (rewrite (frames_length zero conv RQ); lia).
      rewrite HD, Nat.eqb_refl. unfold receive at 1. cbn [hd tl app].
      replace (nth 0 evs []) with (hd [] evs) by (destruct evs; reflexivity). rewrite E4. cbn [render_chunks]. rewrite app_nil_r.
      replace (flat_map (fun j => [messages_at susp j; nth (j - quantum) evs []]) (seq (S quantum) k)) with (flat_map (fun j => [messages_at susp' j; nth (j - S quantum) (tl evs) []]) (seq (S quantum) k)).
      2: { rewrite !flat_map_concat_map. f_equal. apply map_ext_in. intros j Hj. apply in_seq in Hj. rewrite HS6 by lia. replace (j - quantum) with (S (j - S quantum)) by lia. rewrite nth_hd_tl. reflexivity. }
      rewrite C. reflexivity.
    + intros L HF HLc i b Hi. destruct (extend_spec zero RQ RQ_pos cap buffer q buffer' L Wq HF) as (X1 & X2 & X3); [lia|exact E3|].
      rewrite (Hb (Nat.min cap (L + RQ)) X2 ltac:(lia) i _ (X3 i b Hi)). rewrite firstn_app_firstn, <- app_assoc, <- channel_cons. reflexivity.
Qed.
End Twin.

(** ** The audio graph *)
From Verif Require Import Graph_Model Graph_OrderProofs Graph_TraceModel Graph_TraceProofs Whole_Model Whole_Proofs.
Section TwinGraph.
Context {P Q CFG V T : Type}.
Variable E : env P Q CFG.
Variable chans : Q -> list (list V).
Variable zero : V.
Variable conv : V -> T.
Variable RQ : nat.
Hypothesis RQ_pos : 0 < RQ.
Hypothesis QOK : forall q, well_formed RQ (chans q).
Notation GO := (audio_graph E chans).

Lemma update_keeps (ns : list (option (node P Q CFG))) id f : (exists n, get ns 0 = Some n) -> exists n, get (update ns id f) 0 = Some n.
Proof.
  intros [n H]. destruct (Nat.eq_dec id 0) as [->|H0].
  - rewrite get_update_eq, H. eexists. reflexivity.
  - rewrite get_update_neq by exact H0. exists n. exact H.
Qed.

Lemma active_get (g : graph P Q CFG) : is_active g = true <-> exists n, get (g_nodes g) 0 = Some n.
Proof.
  unfold is_active. destruct (get (g_nodes g) 0) as [n|]; split; intros H; [exists n; reflexivity|reflexivity|discriminate|].
  destruct H as [n H]. discriminate.
Qed.

(** no message makes the graph inactive *)
Lemma message_harmless (m : gop P CFG) : harmless GO (GraphMsg m).
Proof.
  cbn [harmless audio_graph g_active g_apply]. intros g g' HA H. rewrite active_get in *.
  assert (K : forall id (f : node P Q CFG -> node P Q CFG) ord, exists n, get (g_nodes (mk_graph (update (g_nodes g) id f) ord)) 0 = Some n) by (intros; apply update_keeps; exact HA).
  destruct m as [id p ins outs cfg|src out dst port|src out dst port|id|id|id f|id onm|frame]; cbn [gstep] in H.
  - injection H as <-. unfold add_node. cbn [g_nodes]. rewrite get_insert. destruct (Nat.eqb id 0); [eexists; reflexivity|exact HA].
  - unfold add_edge in H. destruct (get (g_nodes g) src); [|discriminate]. injection H as <-. apply K.
  - unfold remove_edge in H. destruct (get (g_nodes g) src); [|discriminate]. injection H as <-. apply K.
  - unfold mark_dropped in H. destruct (Nat.ltb id _); [|discriminate]. injection H as <-. apply K.
  - unfold mark_breaker in H. destruct (get (g_nodes g) id); [|discriminate]. injection H as <-. apply K.
  - unfold set_cfg in H. destruct (get (g_nodes g) id); [|discriminate]. injection H as <-. apply K.
  - unfold route_message in H. destruct (get (g_nodes g) id); [|discriminate]. destruct (onm (n_proc n)); [|discriminate]. injection H as <-. apply K.
  - destruct (render E frame g) as [[[g1 lgs] o]|] eqn:ER; [|discriminate]. injection H as <-. apply active_get.
    apply (stays_active_whole E chans g frame g1 (chans o)); [apply active_get; exact HA|]. cbn [audio_graph g_render]. rewrite ER. reflexivity.
Qed.

Lemma all_harmless ms : Forall (harmless GO) (map GraphMsg ms).
Proof. induction ms as [|m ms IH]; constructor; [apply message_harmless|exact IH]. Qed.

(** once the destination is registered, the thread renders *)
Lemma startup_live msgs p ins outs cfg t rest : In (OpAdd 0 p ins outs cfg) msgs ->
  handle_control_messages GO new_thread (startup msgs) = Some (t, rest) ->
  rest = [] /\ t_listening t = true /\ live GO t /\ t_offset t = None.
Proof.
  intros HI. unfold handle_control_messages. cbn [new_thread t_listening startup handle_all handle_control_message].
  match goal with |- handle_all _ ?u _ = _ -> _ => assert (H0 : t_listening u = true /\ t_suspended u = false /\ t_offset u = None /\ exists g, t_graph u = Some g) by (cbn; eauto); generalize dependent u end.
  intros t0 (A1 & A2 & A3 & g & A4).
  revert t0 g A1 A2 A3 A4. induction msgs as [|m msgs IH]; intros t0 g A1 A2 A3 A4 H; [destruct HI|].
  cbn [map handle_all handle_control_message] in H. rewrite A4 in H. destruct HI as [->|HI].
  - cbn [audio_graph g_apply gstep option_map fst] in H.
    match type of H with handle_all _ ?u _ = _ => assert (LU : live GO u) end.
    { split; [exact A2|]. eexists. split; [reflexivity|]. apply active_get. unfold add_node. cbn [g_nodes]. rewrite get_insert. cbn [Nat.eqb]. eexists. reflexivity. }
    match type of H with handle_all _ ?u ?q = _ => assert (HH : handle_control_messages GO u q = Some (t, rest)) by (unfold handle_control_messages; cbn [set_graph t_listening]; rewrite A1; exact H) end.
    destruct (harmless_handle GO _ (all_harmless msgs) (set_graph t0 (Some (add_node E g 0 p ins outs cfg))) _ _ A1 LU HH) as (X1 & X2 & X3 & X4). split; [exact X1|]. split; [exact X2|]. split; [exact X3|]. rewrite X4. exact A3.
  - destruct (g_apply GO g m) as [g'|]; [|discriminate]. apply (IH HI (set_graph t0 (Some g')) g'); auto.
Qed.

Theorem realtime_is_offline n len msgs p ins outs cfg t1 buf ran bufs : 0 < n -> In (OpAdd 0 p ins outs cfg) msgs ->
  render_audiobuffer GO zero RQ n len new_thread (startup msgs) [] [] = Some (t1, buf, ran) ->
  Forall (fun b : list T => exists m, length b = m * n) bufs -> length (concat bufs) <= len * n ->
  exists t t2 outs, handle_control_messages GO new_thread (startup msgs) = Some (t, []) /\
    callbacks GO zero conv RQ n t bufs [] [] = Some (t2, outs, [], []) /\ map (@length T) outs = map (@length T) bufs /\
    forall i j, i < n -> j * n + i < length (concat bufs) ->
      nth_error (concat outs) (j * n + i) = option_map conv (nth_error (nth i buf []) j).
Proof.
  intros Hn HI HR HF HL. pose proof HR as HR0. unfold render_audiobuffer in HR0.
  destruct (handle_control_messages GO new_thread (startup msgs)) as [[t rest]|] eqn:EH; [|discriminate].
  destruct (startup_live _ _ _ _ _ _ _ HI EH) as (-> & A1 & A2 & A3).
  destruct (same_sound GO zero conv RQ RQ_pos (graph_ok_whole E chans RQ QOK) (stays_active_whole E chans) n len _ t t1 _ buf ran bufs Hn A1 A3 A2 EH HR HF HL) as (t2 & os & X).
  exists t, t2, os. split; [reflexivity|exact X].
Qed.

Theorem realtime_is_offline_steps n len msgs p ins outs cfg susp evs t1 buf ran bufs : 0 < n -> In (OpAdd 0 p ins outs cfg) msgs -> ordered susp ->
  render_audiobuffer GO zero RQ n len new_thread (startup msgs) (map (fun s => (fst s, map GraphMsg (snd s))) susp) (map (map GraphMsg) evs) = Some (t1, buf, ran) ->
  Forall (fun b : list T => length b = RQ * n) bufs -> length bufs = div_ceil len RQ ->
  exists t t2 os, handle_control_messages GO new_thread (startup msgs) = Some (t, []) /\
    callbacks GO zero conv RQ n t bufs []
      (flat_map (fun k => [messages_at (map (fun s => (fst s, map GraphMsg (snd s))) susp) k; nth k (map (map GraphMsg) evs) []]) (seq 0 (div_ceil len RQ))) = Some (t2, os, [], []) /\
    forall i j, i < n -> j < len -> nth_error (concat os) (j * n + i) = option_map conv (nth_error (nth i buf []) j).
Proof.
  intros Hn HI HO HR HF HL. unfold render_audiobuffer in HR.
  destruct (handle_control_messages GO new_thread (startup msgs)) as [[t rest]|] eqn:EH; [|discriminate].
  destruct (startup_live _ _ _ _ _ _ _ HI EH) as (-> & A1 & A2 & A3).
  destruct (step_by_step GO zero conv RQ RQ_pos (graph_ok_whole E chans RQ QOK) (stays_active_whole E chans) n Hn _ t 0 len (repeat [] n) (map (fun s => (fst s, map GraphMsg (snd s))) susp) (map (map GraphMsg) evs) t1 buf ran bufs HF HL) as (t2 & os & qs & C & Lq & Ho & Wq & Hb); try exact HR; auto.
  { unfold ordered in *. rewrite map_map. exact HO. }
  { apply Forall_forall. intros; lia. }
  { apply Forall_forall. intros s Hs. apply in_map_iff in Hs. destruct Hs as (s0 & <- & _). apply all_harmless. }
  { apply Forall_forall. intros s Hs. apply in_map_iff in Hs. destruct Hs as (s0 & <- & _). apply all_harmless. }
  exists t, t2, os. split; [reflexivity|]. split.
  { match type of C with callbacks _ _ _ _ _ _ _ _ ?a = _ => match goal with |- callbacks _ _ _ _ _ _ _ _ ?b = _ => replace b with a; [exact C|] end end.
    rewrite !flat_map_concat_map. f_equal. apply map_ext. intros k. rewrite Nat.sub_0_r. reflexivity. }
  intros i j Hi Hj. pose proof (div_ceil_enough RQ RQ_pos len) as CE. rewrite Ho, (stream_nth zero conv RQ RQ_pos n i Hi qs j Wq) by (rewrite Lq; lia).
  assert (HB : nth_error buf i = Some (firstn len ([] ++ channel zero RQ i qs))).
  { apply (Hb 0); [apply Forall_forall; intros b Hb0; apply repeat_spec in Hb0; subst; reflexivity|cbn; lia|].
    clear -Hi. revert n Hi. induction i; intros [|n] Hi; try lia; cbn; [reflexivity|]. apply IHi. lia. }
  rewrite (nth_error_nth _ _ [] HB). cbn [app].
  assert (NF : forall A (l : list A) m x, x < m -> nth_error (firstn m l) x = nth_error l x).
  { clear. intros A l m x. revert l m. induction x as [|x IH]; intros l m H; destruct m, l; try lia; cbn; auto. apply IH. lia. }
  rewrite NF by exact Hj. reflexivity.
Qed.
End TwinGraph.
