(** The online context: messages reach the graph in order, and every call can complete. *)
From Coq Require Import List Arith Bool Lia.
From Verif Require Import Context_Model Context_Spec Context_Proofs.
Import ListNotations.

Section Progress.
Context {M : Type}.
Notation world := (world M). Notation msg := (msg M). Notation stream := (stream M). Notation pc := (pc M).
Variable active : list M -> bool.
Variable RQ : nat.

Theorem messages b (w : world) : Inv b w ->
  (forall g, graph_of w = Some g -> prefix_of g (w_issued w)) /\ (w_lock w = None -> w_chan w = [] -> stored w = [] -> graph_of w = Some (w_issued w)).
Proof.
  intros (old & s & t & p & E & Ro & Nb & Pc & H & Wl & Ph). assert (G : graph_of w = s_graph s) by (unfold graph_of; rewrite (current_last w old s E), E, nth_last; reflexivity). rewrite G.
  destruct Ph as [(g & st & susp & lf & d & bs & x & Sh & Co & Fi & Ap)|[(_ & (_ & _ & _ & Y & _) & _ & _ & _ & _ & g & ms & Ec & _)|(_ & _ & _ & _ & _ & g & _ & Mp)]].
  - destruct Co as (_ & _ & C3 & _ & _ & _ & _ & _ & _ & _ & C11). rewrite C3. split; [intros g' Q; injection Q as <-; exists (applies (w_chan w) ++ applies (stored w)); symmetry; exact C11|]. intros _ Q1 Q2. rewrite Q1, Q2 in C11. cbn in C11. rewrite app_nil_r in C11. rewrite C11. reflexivity.
  - split; [intros g' Q; congruence|]. intros _ Q. rewrite Q in Ec. discriminate.
  - assert (N : p <> Idle) by (intros ->; contradiction). split; [|intros Q; destruct H as [(_ & Q' & _)|(Q' & _)]; [contradiction|congruence]].
    intros g' Q. exfalso. assert (Z : s_graph s = None); [|congruence]. destruct p as [| | | | | | | | | | | | | | | | |st|st p|st p|st p|st p|st g0 p|st g0 p|st g0 p|st g0 p|p| ]; try contradiction; destruct st; try contradiction; destruct p; try contradiction.
    + apply (proj1 (proj1 (proj2 Mp))). + apply (proj1 (proj1 (proj2 (proj2 Mp)))). + apply (proj1 (proj2 (proj2 Mp))). + destruct Mp as (_ & _ & (_ & _ & _ & Z & _)). exact Z.
Qed.

Lemma helped_inv b t (w w' : world) : helped active RQ b t w w' -> Inv b w -> Inv b w'.
Proof. intros H I. induction H as [|w1 l w2 _ IH _ A C]; [exact I|]. apply (step_inv active RQ b w1 w2 l IH A C). Qed.
Lemma helped_trans b t (w w1 w2 : world) : helped active RQ b t w w1 -> helped active RQ b t w1 w2 -> helped active RQ b t w w2.
Proof. intros H1 H2. induction H2 as [|w2 l w3 _ IH Hl A C]; [exact H1|]. apply (helped_step _ _ _ _ _ w2 l w3 IH Hl A C). Qed.
Lemma helped_one b t (w w1 : world) l : helps t l -> allowed b w l -> step active RQ w l = Some w1 -> helped active RQ b t w w1.
Proof. intros H A C. apply (helped_step _ _ _ _ _ w l w1); [apply helped_refl|exact H|exact A|exact C]. Qed.

(** the parts of the world a render step leaves alone *)
Definition aside (w w' : world) : Prop := w_pcs w' = w_pcs w /\ w_lock w' = w_lock w.
Definition same_stream (s s' : stream) : Prop := s_alive s' = s_alive s /\ s_queue s' = s_queue s /\ s_running s' = s_running s.
Lemma handle_effect (w : world) old s m : w_streams w = old ++ [s] -> exists s', w_streams (handle w (length old) s m) = old ++ [s'] /\ same_stream s s' /\ aside w (handle w (length old) s m) /\ w_chan (handle w (length old) s m) = w_chan w /\ (s_pc s' = s_pc s \/ s_pc s' = RCrash).
Proof.
  intros E. destruct m; cbn [handle]; try (destruct (s_graph s)); (eexists; split; [cbn; rewrite E; apply set_last|]; split; [repeat split|]; split; [split; reflexivity|]; split; [reflexivity|]; (left; reflexivity) || (right; reflexivity)).
Qed.
Lemma last_pc b (w : world) old s : Inv b w -> w_streams w = old ++ [s] -> pc_ok b s.
Proof. intros (old0 & s0 & t & p & E & _ & _ & Pc & _) E'. rewrite E in E'. apply app_inj_tail in E'. destruct E' as [_ ->]. exact Pc. Qed.
Lemma deaf_empty b (w : world) old s : Inv b w -> w_streams w = old ++ [s] -> s_listening s = false -> w_chan w = [].
Proof.
  intros (old0 & s0 & t & p & E & _ & _ & Pc & _ & _ & Ph) E' L. rewrite E in E'. apply app_inj_tail in E'. destruct E' as [_ ->].
  destruct Ph as [(g & st & susp & lf & d & bs & x & _ & (_ & _ & _ & C4 & _) & _)|[(_ & (_ & _ & _ & _ & _ & N6 & _) & _)|(_ & _ & _ & _ & Q & _)]]; [congruence|congruence|exact Q].
Qed.
Definition rank (p : rpc) : nat := match p with ROff | RCrash => 0 | RFirst k => 2 * k + 2 | RChunk k => 2 * k + 1 | RNext k => 2 * k + 2 end.
Lemma step_last (w w' : world) old s : w_streams w = old ++ [s] -> s_alive s = true -> render_step active RQ w (length old) s = Some w' -> step active RQ w (LRender (length old)) = Some w'.
Proof. intros E A C. cbn [step]. rewrite E, nth_last, A. exact C. Qed.
Lemma render_once b (w : world) old s : Inv b w -> w_streams w = old ++ [s] -> s_alive s = true -> s_pc s <> ROff ->
  exists w' s', render_step active RQ w (length old) s = Some w' /\ w_streams w' = old ++ [s'] /\ same_stream s s' /\ aside w w' /\ rank (s_pc s') + length (w_chan w') < rank (s_pc s) + length (w_chan w) /\
    (forall k, s_pc s = RFirst k -> w_chan w <> [] -> s_pc s' = RFirst k).
Proof.
  intros I E A N. assert (Pc := last_pc b w old s I E). unfold pc_ok in Pc. unfold render_step.
  assert (Put : forall q n, let w' := put (with_frames w n) (length old) (st_pc s q) in rank q < rank (s_pc s) -> w_streams w' = old ++ [st_pc s q] /\ same_stream s (st_pc s q) /\ aside w w' /\ rank (s_pc (st_pc s q)) + length (w_chan w') < rank (s_pc s) + length (w_chan w)).
  { intros q n w' L. split; [cbn; rewrite E; apply set_last|]. split; [repeat split|]. split; [split; reflexivity|]. cbn in *. lia. }
  assert (Hd : forall m c, w_chan w = m :: c -> (exists k, s_pc s = RFirst k \/ s_pc s = RNext k) -> s_listening s = true -> exists s', w_streams (handle (with_chan w c) (length old) s m) = old ++ [s'] /\ same_stream s s' /\ aside w (handle (with_chan w c) (length old) s m) /\ rank (s_pc s') + length (w_chan (handle (with_chan w c) (length old) s m)) < rank (s_pc s) + length (w_chan w) /\ s_pc s' = s_pc s).
  { intros m c Ec (k & K) Li. destruct (handle_effect (with_chan w c) old s m E) as (s' & E' & Ss & As & Ch & P). exists s'. split; [exact E'|]. split; [exact Ss|]. split; [exact As|].
    assert (I' : Inv b (handle (with_chan w c) (length old) s m)). { apply handle_inv; [exact I|exact E|exact Li|exact Ec|]. destruct K as [->| ->]; exact Logic.I. }
    assert (P' := last_pc b _ old s' I' E'). assert (P2 : s_pc s' = s_pc s). { destruct P as [P|P]; [exact P|]. unfold pc_ok in P'. rewrite P in P'. contradiction. } split; [|exact P2]. rewrite P2, Ch, Ec. cbn. lia. }
  destruct (s_pc s) as [|k|k|k|] eqn:P; [contradiction| | | |contradiction].
  - destruct (if s_listening s then w_chan w else []) as [|m c] eqn:Q.
    + assert (Ec : w_chan w = []) by (destruct (s_listening s) eqn:Li; [exact Q|apply (deaf_empty b w old s I E Li)]).
      set (q := if _ || _ then ROff else RChunk k). assert (L : rank q < rank (RFirst k)) by (unfold q; destruct (_ || _); cbn; lia). destruct (Put q (w_frames w) L) as (Q1 & Q2 & Q3 & Q4). rewrite frames_same in Q1, Q3, Q4.
      exists (put w (length old) (st_pc s q)), (st_pc s q). split; [reflexivity|]. split; [exact Q1|]. split; [exact Q2|]. split; [exact Q3|]. split; [exact Q4|]. intros k' _ X. contradiction.
    + destruct (s_listening s) eqn:Li; [|discriminate]. destruct (Hd m c Q (ex_intro _ k (or_introl eq_refl)) eq_refl) as (s' & Q1 & Q2 & Q3 & Q4 & Q5). exists (handle (with_chan w c) (length old) s m), s'. split; [reflexivity|]. split; [exact Q1|]. split; [exact Q2|]. split; [exact Q3|]. split; [exact Q4|]. intros k' X _. rewrite Q5. exact X.
  - destruct k as [|k].
    + destruct (Put ROff (w_frames w) ltac:(cbn; lia)) as (Q1 & Q2 & Q3 & Q4). rewrite frames_same in Q1, Q3, Q4. exists (put w (length old) (st_pc s ROff)), (st_pc s ROff). split; [reflexivity|]. split; [exact Q1|]. split; [exact Q2|]. split; [exact Q3|]. split; [exact Q4|]. discriminate.
    + destruct (s_graph s) as [g|] eqn:G.
      * destruct (Put (RNext k) (w_frames w + RQ) ltac:(cbn; lia)) as (Q1 & Q2 & Q3 & Q4). eexists _, (st_pc s (RNext k)). split; [reflexivity|]. split; [exact Q1|]. split; [exact Q2|]. split; [exact Q3|]. split; [exact Q4|]. discriminate.
      * exfalso. assert (R : exists w', render_step active RQ w (length old) s = Some w' /\ ~ Inv b w').
        { unfold render_step. rewrite P, G. eexists. split; [reflexivity|]. intros I'. assert (P' := last_pc b (put w (length old) (st_pc s RCrash)) old (st_pc s RCrash) I'). cbn in P'. apply P'. rewrite E. apply set_last. }
        destruct R as (w' & R1 & R2). apply R2. apply (render_inv active RQ b w w' (length old) s I); [rewrite E; apply nth_last|exact R1].
  - destruct (if s_listening s then w_chan w else []) as [|m c] eqn:Q.
    + destruct (Put (RChunk k) (w_frames w) ltac:(cbn; lia)) as (Q1 & Q2 & Q3 & Q4). rewrite frames_same in Q1, Q3, Q4. exists (put w (length old) (st_pc s (RChunk k))), (st_pc s (RChunk k)). split; [reflexivity|]. split; [exact Q1|]. split; [exact Q2|]. split; [exact Q3|]. split; [exact Q4|]. discriminate.
    + destruct (s_listening s) eqn:Li; [|discriminate]. destruct (Hd m c Q (ex_intro _ k (or_intror eq_refl)) eq_refl) as (s' & Q1 & Q2 & Q3 & Q4 & Q5). exists (handle (with_chan w c) (length old) s m), s'. split; [reflexivity|]. split; [exact Q1|]. split; [exact Q2|]. split; [exact Q3|]. split; [exact Q4|]. discriminate.
Qed.
Lemma aside_trans (w w1 w2 : world) : aside w w1 -> aside w1 w2 -> aside w w2.
Proof. intros [A B] [C D]. split; congruence. Qed.
Lemma same_trans (s s1 s2 : stream) : same_stream s s1 -> same_stream s1 s2 -> same_stream s s2.
Proof. intros (A & B & C) (D & E & F). repeat split; congruence. Qed.
(** a callback comes to its end *)
Lemma to_off b t : forall n (w : world) old s, Inv b w -> w_streams w = old ++ [s] -> s_alive s = true -> rank (s_pc s) + length (w_chan w) <= n ->
  exists w' s', helped active RQ b t w w' /\ w_streams w' = old ++ [s'] /\ same_stream s s' /\ aside w w' /\ s_pc s' = ROff.
Proof.
  induction n as [|n IH]; intros w old s I E A L.
  - exists w, s. split; [apply helped_refl|]. split; [exact E|]. split; [repeat split|]. split; [split; reflexivity|]. assert (Pc := last_pc b w old s I E). unfold pc_ok in Pc. destruct (s_pc s); cbn in L; (reflexivity || lia || contradiction).
  - assert (D : s_pc s = ROff \/ s_pc s <> ROff) by (destruct (s_pc s); [left; reflexivity|right; discriminate|right; discriminate|right; discriminate|right; discriminate]). destruct D as [D|D].
    + exists w, s. split; [apply helped_refl|]. split; [exact E|]. split; [repeat split|]. split; [split; reflexivity|exact D].
    + destruct (render_once b w old s I E A D) as (w1 & s1 & C & E1 & Ss & As & Lt & _). assert (H1 : helped active RQ b t w w1) by (apply (helped_one b t w w1 (LRender (length old)) Logic.I Logic.I); apply (step_last w w1 old s E A C)).
      destruct (IH w1 old s1 (helped_inv b t w w1 H1 I) E1 ltac:(rewrite (proj1 Ss); exact A) ltac:(lia)) as (w2 & s2 & H2 & E2 & Ss2 & As2 & P2).
      exists w2, s2. split; [apply (helped_trans b t w w1 w2 H1 H2)|]. split; [exact E2|]. split; [apply (same_trans s s1 s2 Ss Ss2)|]. split; [apply (aside_trans w w1 w2 As As2)|exact P2].
Qed.
(** the requests to the stream are handled *)
Lemma to_running b t : forall q (w : world) old s, Inv b w -> w_streams w = old ++ [s] -> opened s -> s_pc s = ROff -> s_queue s = q ->
  exists w' s', helped active RQ b t w w' /\ w_streams w' = old ++ [s'] /\ aside w w' /\ s_pc s' = ROff /\ s_alive s' = true /\ s_running s' = eff s.
Proof.
  induction q as [|r q IH]; intros w old s I E O P Q.
  - exists w, s. split; [apply helped_refl|]. split; [exact E|]. split; [split; reflexivity|]. split; [exact P|]. split; [apply O|]. unfold eff. rewrite Q. reflexivity.
  - assert (Nr : r <> BClose) by (intros ->; apply (proj2 O); rewrite Q; left; reflexivity). destruct O as [A O].
    set (s1 := mk_stream q (match r with BResume => true | BSuspend => false | BClose => s_running s end) (match r with BClose => false | _ => true end) (s_graph s) (s_suspended s) (s_listening s) ROff).
    assert (C : step active RQ w (LRequest (length old)) = Some (put w (length old) s1)). { cbn [step]. rewrite E, nth_last. unfold stream_request. rewrite P, Q, A. reflexivity. }
    assert (H1 : helped active RQ b t w (put w (length old) s1)) by (apply (helped_one b t w _ (LRequest (length old)) Logic.I Logic.I C)).
    assert (E1 : w_streams (put w (length old) s1) = old ++ [s1]) by (cbn; rewrite E; apply set_last).
    destruct (IH (put w (length old) s1) old s1 (helped_inv b t _ _ H1 I) E1) as (w2 & s2 & H2 & E2 & As2 & P2 & A2 & R2).
    + split; [unfold s1; cbn; destruct r; try reflexivity; contradiction|]. cbn. intros X. apply O. rewrite Q. right. exact X.
    + reflexivity.
    + reflexivity.
    + exists w2, s2. split; [apply (helped_trans b t w _ w2 H1 H2)|]. split; [exact E2|]. split; [exact As2|]. split; [exact P2|]. split; [exact A2|]. rewrite R2. unfold eff. rewrite Q. cbn. destruct r; reflexivity.
Qed.
Lemma to_empty b t : forall n (w : world) old s k, Inv b w -> w_streams w = old ++ [s] -> s_alive s = true -> s_pc s = RFirst k -> length (w_chan w) <= n ->
  exists w', helped active RQ b t w w' /\ aside w w' /\ w_chan w' = [].
Proof.
  induction n as [|n IH]; intros w old s k I E A P L.
  - exists w. split; [apply helped_refl|]. split; [split; reflexivity|]. destruct (w_chan w); [reflexivity|cbn in L; lia].
  - destruct (w_chan w) as [|m c] eqn:Ec; [exists w; split; [apply helped_refl|]; split; [split; reflexivity|exact Ec]|].
    destruct (render_once b w old s I E A ltac:(rewrite P; discriminate)) as (w1 & s1 & C & E1 & Ss & As & Lt & K). assert (P1 := K k P ltac:(rewrite Ec; discriminate)). rewrite P1, P, Ec in Lt.
    assert (H1 : helped active RQ b t w w1) by (apply (helped_one b t w w1 (LRender (length old)) Logic.I Logic.I); apply (step_last w w1 old s E A C)).
    destruct (IH w1 old s1 k (helped_inv b t w w1 H1 I) E1 ltac:(rewrite (proj1 Ss); exact A) P1 ltac:(cbn in L, Lt; lia)) as (w2 & H2 & As2 & E2).
    exists w2. split; [apply (helped_trans b t w w1 w2 H1 H2)|]. split; [apply (aside_trans w w1 w2 As As2)|exact E2].
Qed.
Lemma drain b t (w : world) old s : Inv b w -> w_streams w = old ++ [s] -> fits s WRun -> exists w', helped active RQ b t w w' /\ aside w w' /\ w_chan w' = [].
Proof.
  intros I E (O & F). destruct (to_off b t _ w old s I E (proj1 O) (le_n _)) as (w1 & s1 & H1 & E1 & (S1 & S2 & S3) & A1 & P1). assert (I1 := helped_inv b t w w1 H1 I).
  destruct (to_running b t _ w1 old s1 I1 E1 ltac:(split; [rewrite S1; apply O|rewrite S2; apply O]) P1 eq_refl) as (w2 & s2 & H2 & E2 & A2 & P2 & L2 & R2). assert (I2 := helped_inv b t w1 w2 H2 I1).
  assert (Rn : s_running s2 = true) by (rewrite R2; unfold eff; rewrite S2, S3; exact F).
  assert (C : step active RQ w2 (LStart (length old) 0) = Some (put w2 (length old) (st_pc s2 (RFirst 0)))). { cbn [step]. rewrite E2, nth_last. unfold stream_start. rewrite P2, L2, Rn. reflexivity. }
  assert (H3 : helped active RQ b t w2 (put w2 (length old) (st_pc s2 (RFirst 0)))) by (apply (helped_one b t w2 _ (LStart (length old) 0) Logic.I); [intros _; lia|exact C]).
  destruct (to_empty b t _ _ old (st_pc s2 (RFirst 0)) 0 (helped_inv b t _ _ H3 I2) ltac:(cbn; rewrite E2; apply set_last) L2 eq_refl (le_n _)) as (w4 & H4 & A4 & E4).
  exists w4. split; [apply (helped_trans b t w w1 w4 H1); apply (helped_trans b t w1 w2 w4 H2); apply (helped_trans b t w2 _ w4 H3 H4)|]. split; [|exact E4]. apply (aside_trans w w1 w4 A1). apply (aside_trans w1 w2 w4 A2). exact A4.
Qed.

(** ** A call runs to its end *)
Definition todo (p : pc) : nat :=
  match p with
  | SuspChk _ => 5 | SuspChk2 _ _ => 4 | SuspSend _ => 3 | SuspWait _ => 2 | SuspStream _ => 1
  | ResChk _ => 4 | ResStream _ => 3 | ResSend _ => 2 | ResWait _ => 1
  | CloseChk _ => 5 | CloseChk2 _ => 4 | CloseSend _ => 3 | CloseManual _ | CloseWait _ => 2 | CloseStream _ => 1
  | SinkChk => 9 | SinkLock _ => 8 | SinkDrain _ _ => 7 | SinkRecycle _ _ => 6 | SinkRecv _ _ => 5 | SinkClose _ _ _ => 4 | SinkBuild _ _ _ => 3 | SinkShip _ _ _ => 2 | SinkFlush _ => 1
  | _ => 0
  end.
Definition waits (p : pc) : bool := match p with SuspWait _ | ResWait _ | CloseWait _ | SinkRecv _ _ | SinkDrain _ _ => true | _ => false end.
Lemma wait_run b (w : world) t : Inv b w -> w_lock w = Some t -> waits (w_pcs w t) = true -> exists old s, w_streams w = old ++ [s] /\ fits s WRun.
Proof.
  intros (old & s & t0 & p & E & Ro & Nb & Pc & H & Wl & Ph) L W. exists old, s. split; [exact E|].
  destruct H as [(L' & _)|(L' & P & Np & _)]; [congruence|]. rewrite L in L'. injection L' as <-. rewrite P in W. clear P.
  destruct Ph as [(g & st & susp & lf & d & bs & x & Sh & _ & Fi & _)|[([->| ->] & _)|(_ & _ & _ & _ & _ & g & _ & Mp)]]; [|discriminate W|discriminate W|].
  - destruct Sh; try discriminate W; try exact Fi; destruct p; try discriminate W; cbn in H; try contradiction; destruct p; try contradiction; destruct H; discriminate.
  - destruct p as [| | | | | | | | | | | | | | | | |st|st p|st p|st p|st p|st g0 p|st g0 p|st g0 p|st g0 p|p| ]; try discriminate W; try contradiction; destruct st; try contradiction; destruct p; try contradiction. apply Mp.
Qed.
Lemma ready b (w : world) t : Inv b w -> w_lock w = Some t -> (waits (w_pcs w t) = true -> w_chan w = []) ->
  exists w', thread_step w t = Some w' /\ ((w_lock w' = Some t /\ todo (w_pcs w' t) < todo (w_pcs w t)) \/ (w_lock w' = None /\ w_pcs w' t = Idle)).
Proof.
  intros (old & s & t0 & p & E & Ro & Nb & Pc & H & Wl & Ph) L W.
  destruct H as [(L' & _)|(L' & P & Np & _)]; [congruence|]. rewrite L in L'. injection L' as <-. rewrite P in W |- *. unfold thread_step. rewrite P.
  assert (Go : forall w1 q, w_lock w1 = Some t -> todo q < todo p -> exists w', Some (goto w1 t q) = Some w' /\ ((w_lock w' = Some t /\ todo (w_pcs w' t) < todo p) \/ (w_lock w' = None /\ w_pcs w' t = Idle))).
  { intros w1 q Q1 Q2. exists (goto w1 t q). split; [reflexivity|]. left. cbn. rewrite Nat.eqb_refl. split; assumption. }
  assert (Fin : forall w1, exists w', Some (finish w1 t true) = Some w' /\ ((w_lock w' = Some t /\ todo (w_pcs w' t) < todo p) \/ (w_lock w' = None /\ w_pcs w' t = Idle))).
  { intros w1. exists (finish w1 t true). split; [reflexivity|]. right. cbn. rewrite Nat.eqb_refl. split; reflexivity. }
  destruct Ph as [(g & st & susp & lf & d & bs & x & Sh & Co & Fi & _)|[([->| ->] & _)|(_ & _ & _ & _ & Ec & g & _ & Mp)]]; [|contradiction|apply Fin|].
  - assert (Asks : forall r k, s_alive s = true -> asked w t r k = Some (k (with_streams w (old ++ [st_ask s r])))) by (intros r k A; unfold asked; rewrite (ask_ok b w old s r E A Pc); reflexivity).
    assert (Wt : w_chan w = [] -> life (w_chan w) = []) by (intros ->; reflexivity).
    destruct p as [|[]|[] st'|[]|[]|[]|[]|[]|[]|[]|[]|[]|[]|[]|[]|[]| |st'|st' []|st' []|? []|st' p|? ? []|? ? []|? ? []|? ? []|[]| ]; try (exfalso; apply (sh_bad _ _ _ _ _ _ _ _ Sh eq_refl)); cbn [writes] in Wl; try rewrite Wl; cbn [free may_lock orb].
    + contradiction.
    + destruct (w_state w); [apply Go; [exact L|cbn; lia]|apply Go; [exact L|cbn; lia]|apply Fin].
    + destruct (_ && _); [apply Fin|apply Go; [exact L|cbn; lia]].
    + apply Go; [exact L|cbn; lia].
    + specialize (Wt (W eq_refl)). inversion Sh; subst; try contradiction; destruct Co as (_ & _ & _ & _ & _ & C6 & C7 & _); [congruence|]. rewrite C7, remove_self. apply Go; [exact L|cbn; lia].
    + inversion Sh; subst; try contradiction. rewrite Asks by apply Fi. apply Fin.
    + destruct (is_state _ _); [apply Go; [exact L|cbn; lia]|apply Fin].
    + inversion Sh; subst; try contradiction; try discriminate. rewrite Asks by apply Fi. apply Go; [exact L|cbn; lia].
    + apply Go; [exact L|cbn; lia].
    + specialize (Wt (W eq_refl)). inversion Sh; subst; try contradiction; destruct Co as (_ & _ & _ & _ & _ & C6 & C7 & _); [congruence|]. rewrite C7, remove_self. apply Fin.
    + destruct (is_state _ _); [apply Fin|apply Go; [exact L|cbn; lia]].
    + destruct (is_state _ _); apply Go; try exact L; cbn; lia.
    + assert (Q := sh_at _ _ _ _ _ _ _ _ Sh eq_refl). cbn in Q. assert (Q' : w_state w = Running) by (rewrite (proj1 Co); exact Q). unfold send_msg. rewrite Q', Wl. cbn [free]. apply Go; [destruct (w_buf w); exact L|cbn; lia].
    + specialize (Wt (W eq_refl)). inversion Sh; subst; try contradiction; destruct Co as (_ & _ & _ & _ & _ & C6 & C7 & _); [congruence|]. rewrite C7, remove_self. apply Go; [exact L|cbn; lia].
    + apply Go; [destruct (is_state _ _); exact L|cbn; lia].
    + inversion Sh; subst; try contradiction. rewrite Asks by apply Fi. apply Fin.
    + destruct (is_state _ _); [apply Fin|apply Go; [exact L|cbn; lia]].
    + apply Go; [exact L|cbn; lia].
    + rewrite (W eq_refl). apply Go; [exact L|cbn; lia].
    + assert (Q := sh_at _ _ _ _ _ _ _ _ Sh eq_refl). cbn in Q. rewrite (proj2 Q). cbn [is_state]. apply Go; [exact L|cbn; lia].
    + specialize (Wt (W eq_refl)). inversion Sh; subst; try (destruct p; contradiction); destruct Co as (_ & _ & _ & _ & _ & C6 & C7 & _). congruence.
    + apply Fin.
  - destruct p as [| | | | | | | | | | | | | | | | |st|st p|st p|st p|st p|st g0 p|st g0 p|st g0 p|st g0 p|p| ]; try contradiction; destruct st; try contradiction; destruct p; try contradiction.
    + destruct Mp as (-> & _). unfold take_given. cbn [find fst snd]. rewrite Nat.eqb_refl. apply Go; [exact L|cbn; lia].
    + destruct Mp as (-> & _ & _ & (A & _)). unfold asked. rewrite (ask_ok b w old s _ E (proj1 A) Pc). apply Go; [exact L|cbn; lia].
    + apply Go; [exact L|cbn; lia].
    + apply Go; [exact L|cbn; lia].
Qed.

Lemma finishes b : forall n (w : world) t, Inv b w -> w_lock w = Some t -> todo (w_pcs w t) <= n -> exists w', helped active RQ b t w w' /\ w_lock w' = None /\ w_pcs w' t = Idle.
Proof.
  induction n as [|n IH]; intros w t I L N.
  all: assert (D : exists w1, helped active RQ b t w w1 /\ aside w w1 /\ (waits (w_pcs w1 t) = true -> w_chan w1 = [])).
  1, 3: destruct (waits (w_pcs w t)) eqn:Wt; [destruct (wait_run b w t I L Wt) as (old & s & E & F); destruct (drain b t w old s I E F) as (w1 & H1 & A1 & C1); exists w1; split; [exact H1|]; split; [exact A1|intros _; exact C1] | exists w; split; [apply helped_refl|]; split; [split; reflexivity|intros X; congruence]].
  all: destruct D as (w1 & H1 & (A1 & A2) & C1); destruct (ready b w1 t (helped_inv b t w w1 H1 I) ltac:(congruence) C1) as (w2 & St & R); rewrite A1 in R.
  all: assert (H2 : helped active RQ b t w w2) by (apply (helped_trans b t w w1 w2 H1); apply (helped_one b t w1 w2 (LStep t) eq_refl); [cbn; destruct (w_pcs w1 t) eqn:Q; try exact Logic.I; apply C1; reflexivity|exact St]).
  - destruct R as [(_ & R)|(R1 & R2)]; [lia|]. exists w2. split; [exact H2|]. split; assumption.
  - destruct R as [(R1 & R2)|(R1 & R2)]; [|exists w2; split; [exact H2|]; split; assumption].
    destruct (IH w2 t (helped_inv b t w w2 H2 I) R1 ltac:(lia)) as (w3 & H3 & Q1 & Q2). exists w3. split; [apply (helped_trans b t w w2 w3 H2 H3)|]. split; assumption.
Qed.
Theorem completes b (w : world) t : Inv b w -> w_pcs w t <> Idle -> exists w', helped active RQ b t w w' /\ w_lock w' = None /\ w_pcs w' t = Idle.
Proof.
  intros I N. apply (finishes b (todo (w_pcs w t)) w t I); [|apply le_n]. destruct I as (old & s & t0 & p & E & Ro & Nb & Pc & H & Wl & Ph). destruct (hold_idle w t0 p t H N) as (-> & _ & L & _). exact L.
Qed.
(** a call is not refused for ever: a free context lets any idle thread begin *)
Theorem begins b (w : world) t o : Inv b w -> w_lock w = None -> exists w', call w t o = Some w'.
Proof.
  intros (old & s & t0 & p & E & Ro & Nb & Pc & H & Wl & Ph) L. destruct H as [(_ & -> & H)|(L' & _)]; [|congruence]. unfold call. rewrite (H t), L. cbn [free]. cbn in Wl.
  destruct o as [[]|sync|[]| |m]; try (eexists; reflexivity). unfold send_msg. rewrite Wl. cbn [free]. destruct (w_state w); eexists; reflexivity.
Qed.

(** what holds when a call returns *)
Lemma asks_shape b (w : world) old s t r k w' : w_streams w = old ++ [s] -> s_alive s = true -> pc_ok b s -> asked w t r k = Some w' -> w' = k (with_streams w (old ++ [st_ask s r])).
Proof. intros E A P. unfold asked. rewrite (ask_ok b w old s r E A P). intros Q. injection Q as <-. reflexivity. Qed.
Theorem returns b (w w' : world) t : Inv b w -> thread_step w t = Some w' -> w_pcs w' t = Idle ->
  match w_pcs w t with
  | SuspChk _ | SuspChk2 _ _ | SuspSend _ | SuspWait _ | SuspStream _ => w_state w' = Suspended \/ w_state w' = Closed
  | ResChk _ | ResStream _ | ResSend _ | ResWait _ => w_state w' = Running \/ w_state w' = Closed
  | CloseChk _ | CloseChk2 _ | CloseSend _ | CloseManual _ | CloseWait _ | CloseStream _ => w_state w' = Closed
  | _ => True
  end.
Proof.
  intros (old & s & t0 & p & E & Ro & Nb & Pc & H & Wl & Ph) St Q. destruct (w_pcs w t) as [|[]|[] st'|[]|[]|[]|[]|[]|[]|[]|[]|[]|[]|[]|[]|[]| |st'|st' []|st' []|? []|st' p0|? ? []|? ? []|? ? []|? ? []|[]| ] eqn:P; try exact Logic.I.
  all: destruct (hold_idle w t0 p t H) as (-> & -> & L & _); [rewrite P; discriminate|]; rewrite P in *.
  all: destruct Ph as [(g & st & susp & lf & d & bs & x & Sh & Co & Fi & _)|[([X|X] & _)|(_ & _ & _ & _ & _ & g & _ & Mp)]]; try discriminate; try contradiction; try (exfalso; apply (sh_bad _ _ _ _ _ _ _ _ Sh eq_refl)).
  all: unfold thread_step in St; rewrite P in St.
  all: try (injection St as <-; cbn in Q; rewrite Nat.eqb_refl in Q; discriminate Q).
  - destruct (w_state w) eqn:W; injection St as <-; cbn in Q; rewrite Nat.eqb_refl in Q; try discriminate Q. right. exact W.
  - assert (A := sh_at _ _ _ _ _ _ _ _ Sh eq_refl). cbn in A. destruct Co as (C1 & C2 & _). destruct A as (-> & A). rewrite C2 in St. destruct st; try contradiction; injection St as <-; cbn in Q; rewrite Nat.eqb_refl in Q; try discriminate Q. left. exact C1.
  - rewrite Wl in St. injection St as <-. cbn in Q. rewrite Nat.eqb_refl in Q. discriminate Q.
  - destruct (remove_one t0 (w_done w)); [|discriminate]. injection St as <-. cbn in Q. rewrite Nat.eqb_refl in Q. discriminate Q.
  - inversion Sh; subst; try contradiction. apply (asks_shape b w old s t0 _ _ w' E (proj1 (proj1 Fi)) Pc) in St. subst w'. left. apply Co.
  - destruct (w_state w) eqn:W; injection St as <-; cbn in Q; rewrite Nat.eqb_refl in Q; try discriminate Q; [left|right]; exact W.
  - inversion Sh; subst; try contradiction; try discriminate. apply (asks_shape b w old s t0 _ _ w' E (proj1 (proj1 Fi)) Pc) in St. subst w'. cbn in Q. rewrite Nat.eqb_refl in Q. discriminate Q.
  - rewrite Wl in St. injection St as <-. cbn in Q. rewrite Nat.eqb_refl in Q. discriminate Q.
  - destruct (remove_one t0 (w_done w)) eqn:R; [|discriminate]. injection St as <-. inversion Sh; subst; try contradiction; destruct Co as (C1 & _ & _ & _ & _ & _ & C7 & _); [rewrite C7 in R; discriminate R|]. left. exact C1.
  - destruct (w_state w) eqn:W; injection St as <-; cbn in Q; rewrite Nat.eqb_refl in Q; try discriminate Q. exact W.
  - destruct (is_state _ _); injection St as <-; cbn in Q; rewrite Nat.eqb_refl in Q; discriminate Q.
  - destruct (w_state w); try (destruct (send_msg w _); [|discriminate]); injection St as <-; cbn in Q; rewrite Nat.eqb_refl in Q; discriminate Q.
  - destruct (remove_one t0 (w_done w)); [|discriminate]. injection St as <-. cbn in Q. rewrite Nat.eqb_refl in Q. discriminate Q.
  - inversion Sh; subst; try contradiction. apply (asks_shape b w old s t0 _ _ w' E (proj1 Fi) Pc) in St. subst w'. apply Co.
Qed.

(** ** The sink call that sends while it holds the channel *)
Definition bystander (p : pc) : Prop := match p with Idle | SuspChk false | SuspChk2 false _ | SuspSend false | SuspWait false | SuspStream false | ResWait false | Failed => True | _ => False end.
Definition no_close (l : list msg) : Prop := forall u, ~ In (Close u) l.
Record jam (t : nat) (m : msg) (p : list msg) (w : world) : Prop := {
  jam_pc : w_pcs w t = SinkFlush (m :: p);
  jam_wlock : w_wlock w = Some t;
  jam_lock : w_lock w = Some t;
  jam_state : w_state w <> Closed;
  jam_chan : no_close (w_chan w);
  jam_others : forall u, u <> t -> bystander (w_pcs w u) }.
Lemma jam_goto t m p (w w' : world) u q : jam t m p w -> u <> t -> bystander q -> w_pcs w' = w_pcs w -> w_wlock w' = w_wlock w -> w_lock w' = w_lock w -> w_state w' <> Closed -> no_close (w_chan w') -> jam t m p (goto w' u q).
Proof.
  intros [J1 J2 J3 J4 J5 J6] N B E1 E2 E3 E4 E5. split; cbn; try congruence; try assumption.
  - apply not_eq_sym, Nat.eqb_neq in N. rewrite N. congruence.
  - intros v V. destruct (Nat.eqb_spec v u); [exact B|]. rewrite E1. apply J6, V.
Qed.
Lemma jam_keep t m p (w w' : world) : jam t m p w -> w_pcs w' = w_pcs w -> w_wlock w' = w_wlock w -> w_lock w' = w_lock w -> w_state w' <> Closed -> no_close (w_chan w') -> jam t m p w'.
Proof. intros [J1 J2 J3 J4 J5 J6] E1 E2 E3 E4 E5. split; try congruence; try assumption. intros u U. rewrite E1. apply J6, U. Qed.
Theorem jammed t m p (w w' : world) l : jam t m p w -> (forall u sync, l <> LCall u (OClose sync)) -> step active RQ w l = Some w' -> jam t m p w' .
Proof.
  intros J Nc C. assert (J' := J). destruct J' as [J1 J2 J3 J4 J5 J6]. destruct l as [u o|u|i k|i|i]; cbn [step] in C.
  - destruct (Nat.eq_dec u t) as [->|N]; [unfold call in C; rewrite J1 in C; discriminate|].
    unfold call in C. rewrite J3 in C. cbn [free] in C. destruct (w_pcs w u) eqn:P; try discriminate. destruct o as [[]|sync|sync| |x]; try discriminate.
    + injection C as <-. apply (jam_goto t m p w _ u); auto; try exact Logic.I.
    + exfalso. apply (Nc u sync eq_refl).
    + unfold send_msg in C. rewrite J2 in C. cbn [free] in C. destruct (w_state w); [discriminate|discriminate|]. contradiction.
  - destruct (Nat.eq_dec u t) as [->|N]; [unfold thread_step in C; rewrite J1 in C; unfold send_msg in C; rewrite J2 in C; cbn [free] in C; destruct (w_state w); [discriminate|discriminate|contradiction]|].
    assert (B := J6 u N). unfold thread_step in C. destruct (w_pcs w u) as [|[]|[] st|[]|[]|[]|[]|[]|[]|[]|[]|[]|[]|[]|[]|[]| |st|st q|st q|st q|st q|st g q|st g q|st g q|st g q|q| ] eqn:P; try contradiction; try discriminate.
    + destruct (w_state w) eqn:W; [| |contradiction]; injection C as <-; apply (jam_goto t m p w _ u); auto; try exact Logic.I; rewrite W; exact J4.
    + destruct (_ && _); injection C as <-; apply (jam_goto t m p w _ u); auto; try exact Logic.I.
    + rewrite J2 in C. discriminate.
    + destruct (remove_one u (w_done w)); [|discriminate]. injection C as <-. apply (jam_goto t m p w _ u); auto; try exact Logic.I.
    + unfold may_lock in C. rewrite J3 in C. discriminate.
    + destruct (remove_one u (w_done w)); [|discriminate]. injection C as <-. apply (jam_goto t m p w _ u); auto; try exact Logic.I.
  - destruct (nth_error (w_streams w) i) as [s|]; [|discriminate]. unfold stream_start in C. destruct (s_pc s); try discriminate. destruct (_ && _); [|discriminate]. injection C as <-. apply (jam_keep t m p w); auto.
  - destruct (nth_error (w_streams w) i) as [s|]; [|discriminate]. destruct (s_alive s); [|discriminate]. unfold render_step in C.
    assert (H : forall x c, w_chan w = x :: c -> jam t m p (handle (with_chan w c) i s x)).
    { intros x c E. assert (K : no_close c) by (intros v V; apply (J5 v); rewrite E; right; exact V). destruct x; cbn [handle]; try destruct (s_graph s); try (apply (jam_keep t m p w _ J); [reflexivity|reflexivity|reflexivity|first [exact J4|discriminate]|exact K]). all: exfalso; eapply J5; rewrite E; left; reflexivity. }
    destruct (s_pc s) as [|k|[|k]|k|]; try discriminate.
    + destruct (if s_listening s then w_chan w else []) as [|x c] eqn:Q; injection C as <-; [apply (jam_keep t m p w _ J); auto|]. apply H. destruct (s_listening s); [exact Q|discriminate].
    + injection C as <-. apply (jam_keep t m p w _ J); auto.
    + destruct (s_graph s); injection C as <-; apply (jam_keep t m p w _ J); auto.
    + destruct (if s_listening s then w_chan w else []) as [|x c] eqn:Q; injection C as <-; [apply (jam_keep t m p w _ J); auto|]. apply H. destruct (s_listening s); [exact Q|discriminate].
  - destruct (nth_error (w_streams w) i) as [s|]; [|discriminate]. unfold stream_request in C. destruct (s_pc s); try discriminate. destruct (s_queue s); [discriminate|]. destruct (s_alive s); [|discriminate]. injection C as <-. apply (jam_keep t m p w _ J); auto.
Qed.
Theorem jammed_run t m p : forall ls (w w' : world), jam t m p w -> (forall u sync, ~ In (LCall u (OClose sync)) ls) -> exec active RQ w ls = Some w' -> jam t m p w'.
Proof.
  induction ls as [|l ls IH]; intros w w' J N E; cbn [exec] in E; [injection E as <-; exact J|]. destruct (step active RQ w l) as [w1|] eqn:C; [|discriminate].
  apply (IH w1 w'); [|intros u sync X; apply (N u sync); right; exact X|exact E]. apply (jammed t m p w w1 l J); [|exact C]. intros u sync ->. apply (N u sync). left. reflexivity.
Qed.
End Progress.
