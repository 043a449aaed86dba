From Coq Require Import List Arith Bool Lia.
From Verif Require Import Graph_Model Graph_Spec Graph_OrderProofs Graph_RenderProofs Graph_TraceModel
  Graph_TraceSpec Graph_TraceProofs Protocol_Model Protocol_Spec Protocol_Proofs.
Import ListNotations.

Local Arguments Nat.ltb : simpl never.
Local Arguments Nat.eqb : simpl never.
Local Arguments give_back : simpl never.

Section InvProofs.
Context {P Q CFG : Type}.
Notation sys := (sys P Q CFG).
Notation op := (op P CFG).
Notation msg := (msg P CFG).
Notation graph := (graph P Q CFG).
Variable E : env P Q CFG.
Hypothesis EOK : env_ok E.
Hypothesis NP : no_panics E.

Lemma NoDup_app_intro {A} (l1 l2 : list A) : NoDup l1 -> NoDup l2 -> (forall x, In x l1 -> ~ In x l2) -> NoDup (l1 ++ l2).
Proof.
  induction l1 as [|x l1 IH]; cbn; intros H1 H2 H; [exact H2|]. apply NoDup_cons_iff in H1. destruct H1 as [A1 A2].
  constructor; [|apply IH; auto]. rewrite in_app_iff. intros [X|X]; [tauto|]. exact (H x (or_introl eq_refl) X).
Qed.

Lemma inv_handle s m ms s' : inv s -> s_chan s = m :: ms ->
  handle_msg E m (mk_sys (s_next s) (s_reclaim s) (s_handle s) (s_conns s) (s_queued s) (s_buf s)
     (s_closed s) ms (s_graph s) (s_idle s) (s_issued s) (s_handled s) (s_trace s)) = Some s' -> inv s'.
Proof.
  intros H Ech Hs.
  assert (Hp : pending s = m :: (ms ++ match s_buf s with Some b => b | None => [] end)).
  { unfold pending. rewrite Ech. reflexivity. }
  set (rest := ms ++ match s_buf s with Some b => b | None => [] end) in *.
  assert (X : s_next s' = s_next s /\ s_reclaim s' = s_reclaim s /\ s_handle s' = s_handle s /\ s_conns s' = s_conns s /\
    pending s' = rest /\ (s_closed s' = false -> s_closed s = false) /\
    (WF (s_graph s')) /\ (forall id a a', rel (s_graph s) id a -> ast_step id a m = Some a' -> rel (s_graph s') id a')).
  { unfold handle_msg in Hs. destruct (to_gop m) as [g|] eqn:Eg.
    - destruct (gstep E g _) as [[g' l]|] eqn:Es in Hs; [|discriminate]. injection Hs as <-. cbn in Es |- *.
      repeat match goal with |- _ /\ _ => split end; auto.
      + eapply (step_WF E EOK); [apply H| |exact Es].
        apply (next_legal E NP s RHandle); [exact H|]. cbn. rewrite Ech. exact Eg.
      + intros id a a' R A. eapply handled_rel; eassumption.
    - injection Hs as <-. cbn. repeat match goal with |- _ /\ _ => split end; auto.
      + destruct m; auto; discriminate.
      + apply H.
      + intros id a a' R A. destruct m; cbn in Eg; try discriminate; cbn in A; injection A as <-; exact R. }
  destruct X as (X1 & X2 & X3 & X4 & X5 & X6 & X7 & X8).
  constructor.
  - exact X7.
  - intros id. destruct (i_ids s H id) as (a & b & R1 & R2 & R3 & R4 & R5 & R6).
    rewrite Hp in R2. cbn in R2. destruct (ast_step id a m) as [a'|] eqn:Ea; [|discriminate].
    exists a', b. rewrite X3, X5. repeat split; auto. eapply X8; eassumption.
  - rewrite X3. apply H.
  - rewrite X5. pose proof (i_post s H) as F. rewrite Hp in F. inversion F; assumption.
  - rewrite X1, X3. apply H.
  - rewrite X1, X2, X3. apply H.
  - rewrite X2. apply H.
  - intros c id. unfold held. rewrite X3, X4. apply (i_conns s H).
Qed.

Lemma freed_dropped s frame g' lgs out id : inv s -> render E frame (s_graph s) = Some (g', lgs, out) ->
  In id (reclaimed lgs) -> s_handle s id = Dropped.
Proof.
  intros H Hr Hin. destruct (i_ids s H id) as (a & b & R1 & R2 & R3 & R4 & R5 & R6).
  pose proof (render_rel E EOK NP _ _ _ _ _ id a (i_wf s H) Hr R1) as X.
  rewrite (proj2 (mem_In _ _) Hin) in X. destruct X as [-> _]. apply R5. apply scan_dropped in R2. apply R2.
Qed.

Lemma given_back s frame g' lgs out id : inv s -> render E frame (s_graph s) = Some (g', lgs, out) ->
  give_back (reclaimed lgs) (s_handle s) id = if mem id (reclaimed lgs) then Unused else s_handle s id.
Proof.
  intros H Hr. unfold give_back. destruct (mem id (reclaimed lgs)) eqn:Em; [|reflexivity].
  apply mem_In in Em. rewrite (freed_dropped s frame g' lgs out id H Hr Em). reflexivity.
Qed.

Lemma inv_render s frame g' lgs out : inv s -> render E frame (s_graph s) = Some (g', lgs, out) ->
  inv (mk_sys (s_next s) (s_reclaim s ++ reclaimed lgs)
         (give_back (reclaimed lgs) (s_handle s))
         (s_conns s) (s_queued s) (s_buf s) (s_closed s) (s_chan s) g' (s_idle s)
         (s_issued s) (s_handled s) (s_trace s ++ [OpRender frame])).
Proof.
  intros H Hr.
  pose proof (fun id => freed_dropped s frame g' lgs out id H Hr) as HD.
  pose proof (fun id => given_back s frame g' lgs out id H Hr) as HG.
  constructor; cbn.
  - eapply (WF_render E EOK); [apply H|exact Hr].
  - intros id. destruct (i_ids s H id) as (a & b & R1 & R2 & R3 & R4 & R5 & R6).
    pose proof (render_rel E EOK NP _ _ _ _ _ id a (i_wf s H) Hr R1) as X.
    unfold id_ok. cbn. unfold pending in *. cbn. rewrite HG.
    destruct (mem id (reclaimed lgs)) eqn:Em.
    + destruct X as [-> X]. destruct (scan_dropped _ _ _ R2) as [-> Hab]. exists ADead, ADead.
      repeat split; auto.
      * apply scan_about. exact Hab.
      * discriminate.
      * intros Y. destruct (R6 Y). discriminate.
    + exists a, b. auto 10.
  - destruct (i_zero s H) as [f Hf]. exists f. rewrite HG. destruct (mem 0 (reclaimed lgs)) eqn:Em; [|exact Hf].
    apply mem_In in Em. apply HD in Em. congruence.
  - apply H.
  - intros id Hid. rewrite HG, (i_next s H id Hid). destruct (mem id (reclaimed lgs)); reflexivity.
  - intros id Hin. rewrite HG. apply in_app_iff in Hin. destruct Hin as [Hin|Hin].
    + destruct (i_recl s H id Hin) as [A B]. rewrite A. destruct (mem id (reclaimed lgs)); auto.
    + rewrite (proj2 (mem_In _ _) Hin). split; [reflexivity|].
      destruct (le_lt_dec (s_next s) id) as [L|L]; [|exact L]. pose proof (i_next s H id L). rewrite (HD id Hin) in *. discriminate.
  - apply NoDup_app_intro.
    + apply H.
    + eapply (reclaimed_NoDup E EOK); [apply H|exact Hr].
    + intros id H1 H2. destruct (i_recl s H id H1) as [A _]. rewrite (HD id H2) in A. discriminate.
  - intros c id Hc Hm. unfold held. cbn. rewrite HG. destruct (i_conns s H c id Hc Hm) as (i & o & f & Hh).
    destruct (mem id (reclaimed lgs)) eqn:Em; [|eauto]. apply mem_In in Em. apply HD in Em. congruence.
Qed.

Lemma filter_subset {A} f (l : list A) : incl (filter f l) l.
Proof. intros x H. apply filter_In in H. tauto. Qed.

Lemma record_In c l x : In x (record c l) -> x = c \/ In x l.
Proof.
  unfold record. destruct (existsb (conn_eqb c) l); [auto|]. rewrite in_app_iff. cbn. intuition.
Qed.

Lemma inv_step s o s' : inv s -> careful s o -> step E o s = Some s' -> inv s'.
Proof.
  intros H HC Hs.
  destruct o as [|id p ins outs cfg|p n|id|src out dst port|src out dst port|id|id|id f|id m| | | | |id|id|id| |frame]; cbn [step] in Hs.
  - injection Hs as <-. apply inv_alloc, H.
  - destruct (s_handle s id) eqn:Eh; injection Hs as <-; try exact H.
    apply (inv_send s); try reflexivity; auto; try exact I.
    + intros i. cbn. destruct (Nat.eqb_spec id i) as [->|N].
      * rewrite set_handle_eq, Eh. reflexivity.
      * rewrite set_handle_neq by congruence. reflexivity.
    + intros i. cbn. destruct (Nat.eq_dec i id) as [->|N]; [rewrite Eh; auto|]. rewrite set_handle_neq by exact N. auto.
    + intros i. cbn. destruct (Nat.eq_dec i id) as [->|N]; [congruence|]. rewrite set_handle_neq by exact N. auto.
    + intros i. cbn. destruct (Nat.eq_dec i id) as [->|N]; [congruence|]. rewrite set_handle_neq by exact N. auto.
    + destruct (i_zero s H) as [f Hf]. cbn. rewrite set_handle_neq by congruence. eauto.
    + intros c i Hc Hm. destruct (i_conns s H c i Hc Hm) as (i0 & o0 & f0 & Hh). unfold held. cbn.
      rewrite set_handle_neq by congruence. eauto.
  - destruct (s_handle s p), (s_handle s n); injection Hs as <-; try exact H;
      (eapply inv_ext; [exact H|reflexivity..|apply incl_refl]).
  - destruct (is_alive s id) eqn:Ea; injection Hs as <-; [|exact H]. apply is_alive_held in Ea.
    apply inv_params.
    + eapply inv_ext; [exact H|reflexivity..|apply incl_refl].
    + intros [p d] Hin. apply filter_In in Hin. destruct Hin as [Hin Hd]. cbn in Hd. apply Nat.eqb_eq in Hd. subst d.
      cbn. split; [exact Ea|]. apply (HC p Hin).
  - destruct (s_handle s src) as [| |i o f|] eqn:E1; try (injection Hs as <-; exact H).
    destruct (s_handle s dst) as [| |di do_ df|] eqn:E2; try (injection Hs as <-; exact H).
    destruct (Nat.ltb out o && _) eqn:Eb; injection Hs as <-; [|exact H].
    apply andb_true_iff in Eb. destruct Eb as [B1 B2].
    apply (inv_send s); try reflexivity; auto; try exact I.
    + intros j. cbn. destruct (Nat.eqb_spec dst j) as [->|N1].
      * rewrite E2. cbn. fold (port_lt port di) in B2. rewrite B2. cbn.
        destruct (Nat.eqb_spec src j) as [->|N2].
        -- rewrite set_handle_eq. rewrite E1 in E2. injection E2 as <- <- <-. rewrite B1. reflexivity.
        -- rewrite set_handle_neq by congruence. rewrite E2. reflexivity.
      * cbn. destruct (Nat.eqb_spec src j) as [->|N2].
        -- rewrite set_handle_eq, E1. cbn. rewrite B1. reflexivity.
        -- rewrite set_handle_neq by congruence. reflexivity.
    + intros j. cbn. destruct (Nat.eq_dec j src) as [->|N]; [rewrite set_handle_eq; intros [X|X]; discriminate|].
      rewrite set_handle_neq by exact N. auto.
    + intros j. cbn. destruct (Nat.eq_dec j src) as [->|N]; [congruence|]. rewrite set_handle_neq by exact N. auto.
    + intros j. cbn. destruct (Nat.eq_dec j src) as [->|N]; [congruence|]. rewrite set_handle_neq by exact N. auto.
    + destruct (i_zero s H) as [f0 Hf0]. cbn. destruct (Nat.eq_dec 0 src) as [<-|N].
      * rewrite set_handle_eq. rewrite Hf0 in E1. injection E1 as <- <- <-. eauto.
      * rewrite set_handle_neq by exact N. eauto.
    + intros c j Hc Hm. cbn in Hc. unfold held. cbn.
      destruct (Nat.eq_dec j src) as [->|N]; [rewrite set_handle_eq; eauto|]. rewrite set_handle_neq by exact N.
      apply record_In in Hc. destruct Hc as [->|Hc]; [|apply (i_conns s H c j Hc Hm)].
      cbn in Hm. apply orb_true_iff in Hm. destruct Hm as [Hm|Hm]; apply Nat.eqb_eq in Hm; [congruence|]. subst j. eauto.
  - destruct (is_alive s src) eqn:Ea; injection Hs as <-; [|exact H].
    apply inv_disconnects.
    + eapply inv_ext; [exact H|reflexivity..|]. cbn. apply filter_subset.
    + intros c j Hc Hm. apply filter_In in Hc. apply (i_conns s H c j); tauto.
  - destruct (is_alive s id && negb (magic id)) eqn:Eb; injection Hs as <-; [|exact H].
    apply andb_true_iff in Eb. destruct Eb as [Ea Em]. apply is_alive_held in Ea. destruct Ea as (i & o & f & Eh).
    set (s1 := with_conns (with_handle s id Dropped) (filter (fun c => negb (mentions id c)) (s_conns s))).
    assert (X : inv (send s1 (MDrop id))).
    { apply (inv_send s); try reflexivity; auto; try exact I.
      - intros j. cbn. destruct (Nat.eqb_spec id j) as [->|N].
        + rewrite set_handle_eq, Eh. reflexivity.
        + rewrite set_handle_neq by congruence. reflexivity.
      - intros j. cbn. destruct (Nat.eq_dec j id) as [->|N]; [rewrite set_handle_eq; intros [X|X]; discriminate|].
        rewrite set_handle_neq by exact N. auto.
      - intros j. cbn. destruct (Nat.eq_dec j id) as [->|N]; [congruence|]. rewrite set_handle_neq by exact N. auto.
      - intros j. cbn. destruct (Nat.eq_dec j id) as [->|N]; [congruence|]. rewrite set_handle_neq by exact N. auto.
      - destruct (i_zero s H) as [f0 Hf0]. cbn. destruct (Nat.eq_dec 0 id) as [<-|N]; [discriminate|].
        rewrite set_handle_neq by exact N. eauto.
      - intros c j Hc Hm. cbn in Hc. apply filter_In in Hc. destruct Hc as [Hc Hn].
        unfold held. cbn. destruct (Nat.eq_dec j id) as [->|N]; [rewrite Hm in Hn; discriminate|].
        rewrite set_handle_neq by exact N. apply (i_conns s H c j Hc Hm). }
    destruct (send_fields (with_handle s id Dropped) (MDrop id)) as (_ & _ & _ & F & _).
    eapply inv_ext; [exact X| | | | | | |].
    all: unfold s1, send, with_conns, with_handle, pending; cbn; destruct (s_closed s), (s_buf s); cbn; try reflexivity; apply incl_refl.
  - destruct (is_alive s id) eqn:Ea; injection Hs as <-; [|exact H]. apply is_alive_held in Ea. destruct Ea as (i & o & f & Eh).
    apply inv_send_same; [exact H|exact I|]. intros j. cbn. destruct (Nat.eqb_spec id j) as [->|N]; [|reflexivity].
    cbn in HC. rewrite Eh. cbn. rewrite (HC i o f Eh). reflexivity.
  - destruct (is_alive s id) eqn:Ea; injection Hs as <-; [|exact H]. apply is_alive_held in Ea. destruct Ea as (i & o & f0 & Eh).
    apply inv_send_same; [exact H|exact I|]. intros j. cbn. destruct (Nat.eqb_spec id j) as [->|N]; [|reflexivity].
    rewrite Eh. reflexivity.
  - destruct (is_alive s id) eqn:Ea; injection Hs as <-; [|exact H]. apply is_alive_held in Ea. destruct Ea as (i & o & f0 & Eh).
    apply inv_send_same; [exact H|exact HC|]. intros j. cbn. destruct (Nat.eqb_spec id j) as [->|N]; [|reflexivity].
    rewrite Eh. reflexivity.
  - destruct (s_closed s) eqn:Ec; injection Hs as <-; [exact H|]. cbn in HC.
    pose proof (inv_send_same s MSuspend H I (fun id => eq_refl)) as X.
    eapply inv_ext; [exact X| | | | | | |].
    all: unfold send, pending; rewrite ?Ec, ?HC; cbn; rewrite ?Ec; try reflexivity; try apply incl_refl.
  - destruct (s_closed s) eqn:Ec; injection Hs as <-; [exact H|].
    pose proof (inv_send_same s MResume H I (fun id => eq_refl)) as X.
    eapply inv_ext; [exact X| | | | | | |].
    all: unfold send, pending; rewrite ?Ec; destruct (s_buf s); cbn; rewrite ?Ec, ?app_nil_r, ?app_assoc; try reflexivity; try apply incl_refl.
  - destruct (s_closed s) eqn:Ec; injection Hs as <-; [exact H|]. apply inv_send_same; [exact H|exact I|]. intros id; reflexivity.
  - injection Hs as <-. destruct H as [A B C D F G K L]. constructor; auto. intros id. destruct (B id) as (a & b & R1 & R2 & R3 & R4 & R5 & R6).
    exists a, b. repeat split; auto. discriminate.
  - destruct HC.
  - destruct HC.
  - destruct HC.
  - destruct (s_chan s) as [|m ms] eqn:Ech; [injection Hs as <-; exact H|]. eapply inv_handle; eassumption.
  - destruct (s_idle s || negb (is_active (s_graph s))); [injection Hs as <-; exact H|].
    destruct (render E frame (s_graph s)) as [[[g' lgs] out]|] eqn:Er; [|discriminate]. injection Hs as <-.
    eapply inv_render; eassumption.
Qed.

(** ** Reachable states *)
Lemma reach_inv dest cfg ops s : throughout E careful ops (sys0 dest cfg) -> run E ops (sys0 dest cfg) = Some s -> inv s.
Proof.
  intros HC Hr. eapply (run_induct E inv careful); [|apply inv_init|exact HC|exact Hr].
  intros s0 o s1 H C Hs. eapply inv_step; eassumption.
Qed.

Lemma main_no_panic_from ops : forall s, inv s -> throughout E careful ops s -> exists s', run E ops s = Some s'.
Proof.
  induction ops as [|o ops IH]; cbn; intros s H HC; [eauto|].
  destruct HC as [C1 C2]. destruct (step_no_panic E EOK NP s o H) as [s1 E1]. rewrite E1.
  apply IH; [eapply inv_step; eassumption|apply C2, E1].
Qed.

Lemma main_no_panic dest cfg ops : throughout E careful ops (sys0 dest cfg) -> exists s', run E ops (sys0 dest cfg) = Some s'.
Proof. apply main_no_panic_from, inv_init. Qed.

Lemma main_unique dest cfg ops s : throughout E careful ops (sys0 dest cfg) -> run E ops (sys0 dest cfg) = Some s ->
  ~ in_use s (next_id s).
Proof.
  intros HC Hr. pose proof (reach_inv _ _ _ _ HC Hr) as H. pose proof (next_unused s H) as Hn.
  intros [[n X]|[X|[(m & Hm & X)|(c & Hc & X)]]].
  - rewrite (not_live_dead s _ H (or_introl Hn)) in X. discriminate.
  - congruence.
  - eapply about_dead; [exact H|left; exact Hn|exact Hm|exact X].
  - destruct (i_conns s H c _ Hc X) as (i & o & f & Y). congruence.
Qed.

(** ** The render thread's operations form a legal history *)
Definition traced (s : sys) : Prop :=
  exists ls, grun E (s_trace s) graph_new = Some (s_graph s, ls) /\ legal_run E graph_new (s_trace s).

Lemma along_snoc (C : graph -> gop P CFG -> Prop) o ops : forall g g1 l1,
  along E C g ops -> grun E ops g = Some (g1, l1) -> C g1 o -> along E C g (ops ++ [o]).
Proof.
  induction ops as [|o' ops IH]; cbn; intros g g1 l1 HA Hr HC.
  - injection Hr as <- <-. split; [exact HC|]. auto.
  - destruct HA as [A1 A2]. split; [exact A1|]. intros g' l Hs. rewrite Hs in Hr.
    destruct (grun E ops g') as [[g2 l2]|] eqn:E2; [|discriminate]. injection Hr as <- <-.
    eapply IH; eauto.
Qed.

Lemma grun_snoc o ops : forall g g1 l1 g2 l2, grun E ops g = Some (g1, l1) -> gstep E o g1 = Some (g2, l2) ->
  exists l, grun E (ops ++ [o]) g = Some (g2, l).
Proof.
  induction ops as [|o' ops IH]; cbn; intros g g1 l1 g2 l2 Hr Hs.
  - injection Hr as <- <-. rewrite Hs. eauto.
  - destruct (gstep E o' g) as [[g' l']|]; [|discriminate].
    destruct (grun E ops g') as [[g3 l3]|] eqn:E3; [|discriminate]. injection Hr as <- <-.
    destruct (IH _ _ _ _ _ E3 Hs) as [l ->]. eauto.
Qed.

Lemma traced_snoc (s : sys) o g' l trace' : traced s -> legal E (s_graph s) o -> gstep E o (s_graph s) = Some (g', l) ->
  trace' = s_trace s ++ [o] -> exists ls, grun E trace' graph_new = Some (g', ls) /\ legal_run E graph_new trace'.
Proof.
  intros (ls & Hr & HL) Hle Hs ->. destruct (grun_snoc _ _ _ _ _ _ _ Hr Hs) as [l2 E2]. exists l2. split; [exact E2|].
  eapply along_snoc; eassumption.
Qed.

Lemma fold_graph {A} (f : sys -> A -> sys) l : (forall s x, s_graph (f s x) = s_graph s /\ s_trace (f s x) = s_trace s) ->
  forall s, s_graph (fold_left f l s) = s_graph s /\ s_trace (fold_left f l s) = s_trace s.
Proof.
  intros H. induction l as [|x l IH]; cbn; intros s; [auto|]. destruct (IH (f s x)) as [A1 A2], (H s x) as [B1 B2].
  split; congruence.
Qed.

Lemma send_graph (s : sys) m : s_graph (send s m) = s_graph s /\ s_trace (send s m) = s_trace s.
Proof. destruct (send_fields s m) as (_&_&_&_&_&_&A&_&_&_&B). auto. Qed.

Lemma send_param_graph (s : sys) m : s_graph (send_param s m) = s_graph s /\ s_trace (send_param s m) = s_trace s.
Proof.
  unfold send_param. destruct (s_handle s (fst m)); try apply send_graph.
  destruct (send_graph (with_handle s (fst m) (Alive ins outs false)) (MConnect (fst m) 0 (snd m) None)) as [A B].
  rewrite A, B. auto.
Qed.

Lemma step_graph s o s' : step E o s = Some s' -> next_gop s o = None -> s_graph s' = s_graph s /\ s_trace s' = s_trace s.
Proof.
  intros Hs Hn.
  destruct o as [|id p ins outs cfg|p n|id|src out dst port|src out dst port|id|id|id f|id m| | | | |id|id|id| |frame]; cbn [step] in Hs.
  - injection Hs as <-. unfold alloc. destruct (s_reclaim s); auto.
  - destruct (s_handle s id); injection Hs as <-; auto. destruct (send_graph (with_handle s id (Alive ins outs true)) (MRegister id p ins outs cfg)) as [A B].
    rewrite A, B. auto.
  - destruct (s_handle s p), (s_handle s n); injection Hs as <-; auto.
  - destruct (is_alive s id); injection Hs as <-; auto.
    destruct (fold_graph send_param (filter (fun pq => snd pq =? id) (s_queued s)) send_param_graph
       (with_queued s (filter (fun pq => negb (snd pq =? id)) (s_queued s)))) as [A B]. rewrite A, B. auto.
  - destruct (s_handle s src); try (injection Hs as <-; auto; fail). destruct (s_handle s dst); try (injection Hs as <-; auto; fail).
    destruct (_ && _); injection Hs as <-; auto.
    match goal with |- s_graph (send ?x ?y) = _ /\ _ => destruct (send_graph x y) as [A B] end. rewrite A, B. auto.
  - destruct (is_alive s src); injection Hs as <-; auto. unfold send_all.
    match goal with |- s_graph (fold_left send ?x ?y) = _ /\ _ => destruct (fold_graph send x send_graph y) as [A B] end. rewrite A, B. auto.
  - destruct (is_alive s id && negb (magic id)); injection Hs as <-; auto. cbn [with_conns s_graph s_trace].
    match goal with |- s_graph (send ?x ?y) = _ /\ _ => destruct (send_graph x y) as [A B] end. rewrite A, B. auto.
  - destruct (is_alive s id); injection Hs as <-; auto. apply send_graph.
  - destruct (is_alive s id); injection Hs as <-; auto. apply send_graph.
  - destruct (is_alive s id); injection Hs as <-; auto. apply send_graph.
  - destruct (s_closed s); injection Hs as <-; auto.
  - destruct (s_closed s); injection Hs as <-; auto.
  - destruct (s_closed s); injection Hs as <-; auto. apply send_graph.
  - injection Hs as <-; auto.
  - destruct (s_handle s id); try (injection Hs as <-; auto; fail). destruct (magic id); injection Hs as <-; auto.
    match goal with |- s_graph (send ?x ?y) = _ /\ _ => destruct (send_graph x y) as [A B] end. rewrite A, B. auto.
  - destruct (is_alive s id && negb (magic id)); injection Hs as <-; auto.
    match goal with |- s_graph (send ?x ?y) = _ /\ _ => destruct (send_graph x y) as [A B] end. rewrite A, B. auto.
  - injection Hs as <-; auto.
  - cbn in Hn. destruct (s_chan s) as [|m ms]; [injection Hs as <-; auto|]. unfold handle_msg in Hs. rewrite Hn in Hs.
    injection Hs as <-. auto.
  - cbn in Hn. destruct (s_idle s || negb (is_active (s_graph s))); [injection Hs as <-; auto|discriminate].
Qed.

Lemma traced_step s o s' : inv s -> traced s -> step E o s = Some s' -> traced s'.
Proof.
  intros H HT Hs. destruct (next_gop s o) as [g|] eqn:En.
  - pose proof (next_legal E NP s o g H En) as HL. destruct o; cbn in En; try discriminate; cbn [step] in Hs.
    + destruct (s_chan s) as [|m ms] eqn:Ec; [discriminate|]. unfold handle_msg in Hs. rewrite En in Hs. cbn [s_graph] in Hs.
      destruct (gstep E g (s_graph s)) as [[g' l]|] eqn:Eg; [|discriminate]. injection Hs as <-.
      unfold traced. cbn. eapply traced_snoc; try eassumption. reflexivity.
    + destruct (s_idle s || negb (is_active (s_graph s))); [discriminate|]. injection En as <-.
      destruct (render E frame (s_graph s)) as [[[g' lgs] out]|] eqn:Er; [|discriminate]. injection Hs as <-.
      unfold traced. cbn. eapply traced_snoc; try eassumption; [|reflexivity]. cbn. rewrite Er. reflexivity.
  - destruct (step_graph s o s' Hs En) as [A B]. unfold traced. rewrite A, B. exact HT.
Qed.

Lemma main_traced dest cfg ops s : throughout E careful ops (sys0 dest cfg) -> run E ops (sys0 dest cfg) = Some s -> traced s.
Proof.
  intros HC Hr.
  apply (run_induct E (fun s => inv s /\ traced s) careful) with (ops := ops) (s := sys0 dest cfg); [| |exact HC|exact Hr].
  - intros s0 o s1 [H1 H2] C Hs. split; [eapply inv_step; eassumption|eapply traced_step; eassumption].
  - split; [apply inv_init|]. exists []. cbn. auto.
Qed.

End InvProofs.
