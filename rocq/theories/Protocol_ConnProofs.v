From Coq Require Import List Arith Bool Lia.
From Verif Require Import Graph_Model Graph_Spec Graph_OrderProofs Graph_RenderProofs Graph_TraceModel
  Graph_TraceSpec Graph_TraceProofs Protocol_Model Protocol_Spec Protocol_Proofs Protocol_InvProofs.
Import ListNotations.

Local Arguments Nat.ltb : simpl never.
Local Arguments Nat.eqb : simpl never.
Local Arguments give_back : simpl never.
Local Arguments conn_eqb : simpl never.

Section ConnProofs.
Context {P Q CFG : Type}.
Notation sys := (sys P Q CFG).
Notation op := (op P CFG).
Notation msg := (msg P CFG).
Notation graph := (graph P Q CFG).
Variable E : env P Q CFG.
Hypothesis EOK : env_ok E.
Hypothesis NP : no_panics E.

Lemma port_eqb_eq a b : port_eqb a b = true <-> a = b.
Proof.
  destruct a, b; cbn; split; intros H; try discriminate; try reflexivity.
  - apply Nat.eqb_eq in H. congruence.
  - injection H as ->. apply Nat.eqb_refl.
Qed.

Lemma conn_eqb_eq a b : conn_eqb a b = true <-> a = b.
Proof.
  destruct a as [[[s1 o1] d1] p1], b as [[[s2 o2] d2] p2]. unfold conn_eqb.
  rewrite !andb_true_iff, !Nat.eqb_eq, port_eqb_eq. split; [intros [[[-> ->] ->] ->]; reflexivity|].
  intros H. injection H as -> -> -> ->. auto.
Qed.

Lemma existsb_conn t l : existsb (conn_eqb t) l = true <-> In t l.
Proof.
  rewrite existsb_exists. split.
  - intros (x & Hx & Heq). apply conn_eqb_eq in Heq. subst x. exact Hx.
  - intros H. exists t. split; [exact H|]. apply conn_eqb_eq. reflexivity.
Qed.

Lemma existsb_conn_false t l : existsb (conn_eqb t) l = false <-> ~ In t l.
Proof. rewrite <- existsb_conn. destruct (existsb (conn_eqb t) l); split; congruence. Qed.

(** effect of a message on the presence of connection [t] *)
Definition pres (t : conn) (x : bool) (m : msg) : bool :=
  match m with
  | MConnect s o d p => if conn_eqb t (s, o, d, p) then true else x
  | MDisconnect s o d p => if conn_eqb t (s, o, d, p) then false else x
  | _ => x
  end.

Definition conn_ok (s : sys) (a o b p : nat) : Prop :=
  s_closed s = false -> held s a -> held s b -> not_writer s a ->
  exists x, (x = true <-> has_edge s a o b (Some p)) /\
            fold_left (pres (a, o, b, Some p)) (pending s) x = existsb (conn_eqb (a, o, b, Some p)) (s_conns s).

Lemma co_ext (s s' : sys) a o b p :
  s_graph s' = s_graph s -> pending s' = pending s -> s_conns s' = s_conns s ->
  (s_closed s' = false -> s_closed s = false) ->
  (held s' a -> held s a) -> (held s' b -> held s b) -> conn_ok s a o b p -> conn_ok s' a o b p.
Proof.
  intros E1 E2 E3 E4 E5 E6 H C HA HB [W1 W2]. destruct H as (x & X1 & X2); auto.
  { split; [rewrite <- E1; exact W1|]. rewrite <- E2. exact W2. }
  exists x. unfold has_edge. rewrite E1, E2, E3. auto.
Qed.

Lemma co_send (s s1 : sys) m a o b p :
  s_graph s1 = s_graph s -> pending s1 = pending s -> s_closed s1 = s_closed s ->
  (held s1 a -> held s a) -> (held s1 b -> held s b) ->
  existsb (conn_eqb (a, o, b, Some p)) (s_conns s1) = pres (a, o, b, Some p) (existsb (conn_eqb (a, o, b, Some p)) (s_conns s)) m ->
  conn_ok s a o b p -> conn_ok (send s1 m) a o b p.
Proof.
  intros E1 E2 E3 E4 E5 E6 H C HA HB [W1 W2].
  destruct (send_fields s1 m) as (F1 & F2 & F3 & F4 & F5 & F6 & F7 & _).
  rewrite F6, E3 in C. rewrite F7, E1 in W1. rewrite send_pending in W2 by congruence. rewrite E2 in W2.
  unfold held in HA, HB. rewrite F3 in HA, HB.
  destruct H as (x & X1 & X2).
  - exact C.
  - apply E4, HA.
  - apply E5, HB.
  - split; [exact W1|]. intros Y. apply W2. apply in_app_iff. left. exact Y.
  - exists x. unfold has_edge. rewrite F7, E1, F4, E6. split; [exact X1|].
    rewrite send_pending by congruence. rewrite E2, fold_left_app, X2. reflexivity.
Qed.

Lemma pres_about t x m a o b p : t = (a, o, b, p) -> ~ about a m -> pres t x m = x.
Proof.
  intros -> H. destruct m; cbn in *; try reflexivity.
  - destruct (conn_eqb (a, o, b, p) (src, out, dst, port)) eqn:X; [|reflexivity]. apply conn_eqb_eq in X.
    injection X as -> _ _ _. tauto.
  - destruct (conn_eqb (a, o, b, p) (src, out, dst, port)) eqn:X; [|reflexivity]. apply conn_eqb_eq in X.
    injection X as -> _ _ _. tauto.
Qed.

Lemma pres_about_dst t x m a o b p : t = (a, o, b, p) -> ~ about b m -> pres t x m = x.
Proof.
  intros -> H. destruct m; cbn in *; try reflexivity.
  - destruct (conn_eqb (a, o, b, p) (src, out, dst, port)) eqn:X; [|reflexivity]. apply conn_eqb_eq in X.
    injection X as _ _ -> _. tauto.
  - destruct (conn_eqb (a, o, b, p) (src, out, dst, port)) eqn:X; [|reflexivity]. apply conn_eqb_eq in X.
    injection X as _ _ -> _. tauto.
Qed.

Lemma fold_pres_id t ms x : (forall m, In m ms -> forall x, pres t x m = x) -> fold_left (pres t) ms x = x.
Proof.
  induction ms as [|m ms IH]; cbn; intros H; [reflexivity|]. rewrite H by (now left). apply IH. auto.
Qed.

(** a node that is not registered yet has no connections *)
Lemma co_fresh (s : sys) a o b p id : inv s -> s_handle s id = Reserved -> a = id \/ b = id ->
  ~ has_edge s a o b (Some p) /\ ~ In (a, o, b, Some p) (s_conns s) /\
  (forall m, In m (pending s) -> forall x, pres (a, o, b, Some p) x m = x).
Proof.
  intros H Hh Hid. pose proof (not_live_dead s id H (or_intror Hh)) as Hd.
  pose proof (fun m => about_dead s id m H (or_intror Hh)) as Hab.
  split; [|split].
  - intros (n & En & He). destruct Hid as [-> | ->]; [congruence|].
    destruct (i_wf s H) as [CL _]. destruct (CL a id) as [m Hm]; [exists n; eexists; split; [exact En|]; split; [exact He|reflexivity]|].
    congruence.
  - intros Hc. destruct (i_conns s H _ id Hc) as (i & o' & f & Y); [|congruence]. cbn.
    destruct Hid as [-> | ->]; rewrite Nat.eqb_refl, ?orb_true_r; reflexivity.
  - intros m Hm x. destruct Hid as [-> | ->].
    + eapply pres_about; [reflexivity|]. apply Hab, Hm.
    + eapply pres_about_dst; [reflexivity|]. apply Hab, Hm.
Qed.

Lemma fold_disconnect t cs : forall x,
  fold_left (pres t) (map to_disconnect cs) x = x && negb (existsb (conn_eqb t) cs).
Proof.
  induction cs as [|c cs IH]; cbn; intros x; [rewrite andb_true_r; reflexivity|].
  rewrite IH. destruct c as [[[s o] d] p]. cbn [to_disconnect pres].
  destruct (conn_eqb t (s, o, d, p)); cbn; [rewrite andb_false_r|]; reflexivity.
Qed.

Lemma send_all_fields ms : forall s : sys, s_closed (send_all s ms) = s_closed s /\ s_handle (send_all s ms) = s_handle s /\
  s_conns (send_all s ms) = s_conns s /\ s_graph (send_all s ms) = s_graph s /\
  (s_closed s = false -> pending (send_all s ms) = pending s ++ ms).
Proof.
  induction ms as [|m ms IH]; intros s; [cbn; rewrite app_nil_r; auto|].
  destruct (send_fields s m) as (F1 & F2 & F3 & F4 & F5 & F6 & F7 & _).
  destruct (IH (send s m)) as (A & B & C & D & G). unfold send_all in *. cbn [fold_left] in *.
  repeat split; try congruence. intros Hc. rewrite G by congruence. rewrite send_pending by exact Hc.
  rewrite <- app_assoc. reflexivity.
Qed.

Lemma existsb_filter t f l : existsb (conn_eqb t) (filter f l) = existsb (conn_eqb t) l && f t.
Proof.
  destruct (f t) eqn:Ef.
  - rewrite andb_true_r. destruct (existsb (conn_eqb t) l) eqn:El.
    + apply existsb_conn in El. apply existsb_conn. apply filter_In. auto.
    + apply existsb_conn_false in El. apply existsb_conn_false. intros X. apply filter_In in X. tauto.
  - rewrite andb_false_r. apply existsb_conn_false. intros X. apply filter_In in X. destruct X; congruence.
Qed.

Lemma existsb_record t c l : existsb (conn_eqb t) (record c l) = if conn_eqb t c then true else existsb (conn_eqb t) l.
Proof.
  unfold record. destruct (existsb (conn_eqb c) l) eqn:Ec.
  - destruct (conn_eqb t c) eqn:X; [|reflexivity]. apply conn_eqb_eq in X. subst t. exact Ec.
  - rewrite existsb_app. cbn. destruct (conn_eqb t c); cbn; [apply orb_true_r|rewrite !orb_false_r; reflexivity].
Qed.

Lemma co_param (s : sys) pq a o b p : conn_ok s a o b p -> (exists i o f, s_handle s (fst pq) = Alive i o f) -> conn_ok (send_param s pq) a o b p.
Proof.
  intros H (i & o' & f & Ep). unfold send_param. rewrite Ep. apply (co_send s); try reflexivity.
  - unfold held. cbn. destruct (Nat.eq_dec a (fst pq)) as [->|N]; [eauto|]. rewrite set_handle_neq by exact N. auto.
  - unfold held. cbn. destruct (Nat.eq_dec b (fst pq)) as [->|N]; [eauto|]. rewrite set_handle_neq by exact N. auto.
  - cbn [with_handle s_conns pres]. destruct (conn_eqb (a, o, b, Some p) (fst pq, 0, snd pq, None)) eqn:X; [|reflexivity].
    apply conn_eqb_eq in X. discriminate.
  - exact H.
Qed.

Lemma co_params l a o b p : forall s, conn_ok s a o b p -> (forall pq, In pq l -> exists i o f, s_handle s (fst pq) = Alive i o f /\ 0 < o) ->
  conn_ok (fold_left send_param l s) a o b p.
Proof.
  induction l as [|pq l IH]; cbn; intros s H Hl; [exact H|].
  pose proof (Hl pq (or_introl eq_refl)) as H2.
  apply IH; [apply co_param; [exact H|]; destruct H2 as (i & o1 & f & A & _); eauto|]. intros pq' Hin.
  destruct (Hl pq' (or_intror Hin)) as (i' & o' & f' & E2 & Ho).
  destruct (send_param_handle s pq _ H2 _ _ _ E2) as [f'' E']. eauto.
Qed.

(** edges after a message *)
Lemma handled_edges g m go g' l a o b p x : to_gop m = Some go -> gstep E go g = Some (g', l) ->
  (forall id, exists c, rel g id c /\ ast_step id c m <> None) ->
  (x = true <-> exists n, get (g_nodes g) a = Some n /\ In (mk_edge o b (Some p)) (n_edges n)) ->
  (pres (a, o, b, Some p) x m = true <-> exists n, get (g_nodes g') a = Some n /\ In (mk_edge o b (Some p)) (n_edges n)).
Proof.
  intros Ho Hg HL HX. destruct m as [i q ins outs cfg|s o1 d q|s o1 d q|i|i|i f|i f| | |]; cbn in Ho; try discriminate;
    injection Ho as <-; cbn in Hg; cbn [pres].
  - injection Hg as <- <-. cbn. rewrite HX. split.
    + intros (n & En & He). exists n. rewrite get_insert. destruct (Nat.eqb_spec i a) as [->|N]; [|auto].
      destruct (HL a) as (c & R & A). cbn in A. rewrite Nat.eqb_refl in A. destruct c; cbn in R; congruence.
    + intros (n & En & He). rewrite get_insert in En. destruct (Nat.eqb_spec i a) as [->|N]; [|eauto].
      injection En as <-. destruct He.
  - unfold add_edge in Hg. destruct (get (g_nodes g) s) as [n|] eqn:En; [|discriminate]. cbn in Hg. injection Hg as <- <-. cbn.
    destruct (conn_eqb (a, o, b, Some p) (s, o1, d, q)) eqn:X.
    + apply conn_eqb_eq in X. injection X as -> -> -> <-. split; [|reflexivity]. intros _. rewrite get_update_eq, En.
      eexists. split; [reflexivity|]. cbn. apply in_app_iff. right. now left.
    + rewrite HX. destruct (Nat.eq_dec s a) as [->|N].
      * rewrite get_update_eq, En. cbn. split.
        -- intros (n' & X1 & X2). injection X1 as <-. eexists. split; [reflexivity|]. cbn. apply in_app_iff. auto.
        -- intros (n' & X1 & X2). injection X1 as <-. cbn in X2. apply in_app_iff in X2. destruct X2 as [X2|[X2|[]]]; [eauto|].
           injection X2 as <- <- ->. assert (Y : conn_eqb (a, o1, d, Some p) (a, o1, d, Some p) = true) by (apply conn_eqb_eq; reflexivity). congruence.
      * rewrite get_update_neq by exact N. reflexivity.
  - unfold remove_edge in Hg. destruct (get (g_nodes g) s) as [n|] eqn:En; [|discriminate]. cbn in Hg. injection Hg as <- <-. cbn.
    destruct (conn_eqb (a, o, b, Some p) (s, o1, d, q)) eqn:X.
    + apply conn_eqb_eq in X. injection X as -> -> -> <-. split; [discriminate|]. rewrite get_update_eq, En. cbn.
      intros (n' & X1 & X2). injection X1 as <-. cbn in X2. apply filter_In in X2. destruct X2 as [_ X2].
      unfold keep_edge in X2. cbn in X2. rewrite !Nat.eqb_refl in X2. discriminate.
    + rewrite HX. destruct (Nat.eq_dec s a) as [->|N].
      * rewrite get_update_eq, En. cbn. split.
        -- intros (n' & X1 & X2). injection X1 as <-. eexists. split; [reflexivity|]. cbn. apply filter_In. split; [exact X2|].
           unfold keep_edge. cbn [e_dest e_self e_port]. unfold conn_eqb in X. rewrite Nat.eqb_refl in X. cbn [andb] in X.
           destruct (Nat.eqb o o1), (Nat.eqb b d), (port_eqb (Some p) q); cbn in X |- *; try reflexivity; discriminate.
        -- intros (n' & X1 & X2). injection X1 as <-. cbn in X2. apply filter_In in X2. destruct X2. eauto.
      * rewrite get_update_neq by exact N. reflexivity.
  - unfold mark_dropped in Hg. destruct (i <? length (g_nodes g)); [|discriminate]. cbn in Hg. injection Hg as <- <-. cbn. rewrite HX.
    destruct (Nat.eq_dec i a) as [->|N]; [|rewrite get_update_neq by exact N; reflexivity].
    rewrite get_update_eq. destruct (get (g_nodes g) a) as [n|]; cbn; split; intros (n' & X1 & X2); try discriminate;
      injection X1 as <-; eexists; (split; [reflexivity|exact X2]).
  - unfold mark_breaker in Hg. destruct (get (g_nodes g) i) as [n|] eqn:En; [|discriminate]. cbn in Hg. injection Hg as <- <-. cbn. rewrite HX.
    destruct (Nat.eq_dec i a) as [->|N]; [|rewrite get_update_neq by exact N; reflexivity].
    rewrite get_update_eq, En. cbn; split; intros (n' & X1 & X2);
      injection X1 as <-; eexists; (split; [reflexivity|exact X2]).
  - unfold set_cfg in Hg. destruct (get (g_nodes g) i) as [n|] eqn:En; [|discriminate]. cbn in Hg. injection Hg as <- <-. cbn. rewrite HX.
    destruct (Nat.eq_dec i a) as [->|N]; [|rewrite get_update_neq by exact N; reflexivity].
    rewrite get_update_eq, En. cbn; split; intros (n' & X1 & X2);
      injection X1 as <-; eexists; (split; [reflexivity|exact X2]).
  - unfold route_message in Hg. destruct (get (g_nodes g) i) as [n|] eqn:En; [|discriminate].
    destruct (f (n_proc n)) as [p'|]; [|discriminate]. cbn in Hg. injection Hg as <- <-. cbn. rewrite HX.
    destruct (Nat.eq_dec i a) as [->|N]; [|rewrite get_update_neq by exact N; reflexivity].
    rewrite get_update_eq, En. cbn; split; intros (n' & X1 & X2);
      injection X1 as <-; eexists; (split; [reflexivity|exact X2]).
Qed.

Lemma handled_breaker g m go g' l a : to_gop m = Some go -> gstep E go g = Some (g', l) ->
  (forall n, get (g_nodes g') a = Some n -> n_breaker n = false) ->
  (forall id, exists c, rel g id c /\ ast_step id c m <> None) ->
  (forall n, get (g_nodes g) a = Some n -> n_breaker n = false) /\ m <> MBreaker a.
Proof.
  intros Ho Hg HB HL.
  assert (Hup : forall i f ord, (forall n, n_breaker (f n) = n_breaker n) ->
     (forall n, get (update (g_nodes g) i f) a = Some n -> n_breaker n = false) -> mk_graph (update (g_nodes g) i f) ord = g' ->
     forall n, get (g_nodes g) a = Some n -> n_breaker n = false).
  { intros i f ord Hf Hb _ n Hn. destruct (Nat.eq_dec i a) as [->|N].
    - rewrite <- (Hf n). apply Hb. rewrite get_update_eq, Hn. reflexivity.
    - apply Hb. rewrite get_update_neq by exact N. exact Hn. }
  destruct m as [i q ins outs cfg|s o1 d q|s o1 d q|i|i|i f|i f| | |]; cbn in Ho; try discriminate;
    injection Ho as <-; cbn in Hg.
  - injection Hg as <- <-. split; [|discriminate]. intros n Hn. apply HB. cbn. rewrite get_insert.
    destruct (Nat.eqb_spec i a) as [->|N]; [|exact Hn].
    destruct (HL a) as (c & R & A). cbn in A. rewrite Nat.eqb_refl in A. destruct c; cbn in R; congruence.
  - unfold add_edge in Hg. destruct (get (g_nodes g) s) as [n|] eqn:En; [|discriminate]. cbn in Hg. injection Hg as <- <-. cbn in HB.
    split; [|discriminate]. eapply Hup; [|exact HB|reflexivity]. reflexivity.
  - unfold remove_edge in Hg. destruct (get (g_nodes g) s) as [n|] eqn:En; [|discriminate]. cbn in Hg. injection Hg as <- <-. cbn in HB.
    split; [|discriminate]. eapply Hup; [|exact HB|reflexivity]. reflexivity.
  - unfold mark_dropped in Hg. destruct (i <? length (g_nodes g)); [|discriminate]. cbn in Hg. injection Hg as <- <-. cbn in HB.
    split; [|discriminate]. eapply Hup; [|exact HB|reflexivity]. reflexivity.
  - unfold mark_breaker in Hg. destruct (get (g_nodes g) i) as [n|] eqn:En; [|discriminate]. cbn in Hg. injection Hg as <- <-. cbn in HB.
    destruct (Nat.eq_dec i a) as [->|N].
    + rewrite get_update_eq, En in HB. specialize (HB _ eq_refl). discriminate.
    + rewrite get_update_neq in HB by exact N. split; [exact HB|]. congruence.
  - unfold set_cfg in Hg. destruct (get (g_nodes g) i) as [n|] eqn:En; [|discriminate]. cbn in Hg. injection Hg as <- <-. cbn in HB.
    split; [|discriminate]. eapply Hup; [|exact HB|reflexivity]. reflexivity.
  - unfold route_message in Hg. destruct (get (g_nodes g) i) as [n|] eqn:En; [|discriminate].
    destruct (f (n_proc n)) as [p'|]; [|discriminate]. cbn in Hg. injection Hg as <- <-. cbn in HB.
    split; [|discriminate]. eapply Hup; [|exact HB|reflexivity]. reflexivity.
Qed.

Lemma co_step s op s' a o b p : inv s -> careful s op -> step E op s = Some s' -> conn_ok s a o b p -> conn_ok s' a o b p.
Proof.
  intros H HC Hs HK.
  destruct op as [|id q ins outs cfg|q n|id|src out dst port|src out dst port|id|id|id f|id m| | | | |id|id|id| |frame]; cbn [step] in Hs.
  - injection Hs as <-. revert HK. apply co_ext; try (unfold alloc; destruct (s_reclaim s); auto; fail).
    all: unfold held; unfold alloc; destruct (s_reclaim s); cbn;
      match goal with |- (exists _ _ _, set_handle _ ?i _ ?j = _) -> _ => destruct (Nat.eq_dec j i) as [->|N];
        [rewrite set_handle_eq; intros (?&?&?&?); discriminate|rewrite set_handle_neq by exact N; auto] end.
  - destruct (s_handle s id) eqn:Eh; injection Hs as <-; try exact HK.
    assert (D : (a = id \/ b = id) \/ (a <> id /\ b <> id)) by lia. destruct D as [D|[D1 D2]].
    + destruct (co_fresh s a o b p id H Eh D) as (F1 & F2 & F3).
      intros C HA HB HW. exists false.
      destruct (send_fields (with_handle s id (Alive ins outs true)) (MRegister id q ins outs cfg)) as (_ & _ & _ & G4 & _ & G6 & G7 & _).
      unfold has_edge. rewrite G7, G4. cbn. split.
      * split; [discriminate|]. intros X. exfalso. apply F1. exact X.
      * rewrite G6 in C. rewrite send_pending by exact C. rewrite fold_left_app. cbn.
        rewrite (proj2 (existsb_conn_false _ _) F2). apply fold_pres_id. exact F3.
    + apply (co_send s); try reflexivity; try exact HK.
      * unfold held. cbn. rewrite set_handle_neq by exact D1. auto.
      * unfold held. cbn. rewrite set_handle_neq by exact D2. auto.
  - destruct (s_handle s q), (s_handle s n); injection Hs as <-; try exact HK; (revert HK; apply co_ext; auto).
  - destruct (is_alive s id) eqn:Ea; injection Hs as <-; [|exact HK].
    apply co_params.
    + revert HK. apply co_ext; auto.
    + intros [q d] Hin. apply filter_In in Hin. destruct Hin as [Hin Hd]. cbn in Hd. apply Nat.eqb_eq in Hd. subst d.
      cbn. apply (HC q Hin).
  - destruct (s_handle s src) as [| |i ou f|] eqn:E1; try (injection Hs as <-; exact HK).
    destruct (s_handle s dst) as [| |di do_ df|] eqn:E2; try (injection Hs as <-; exact HK).
    destruct (Nat.ltb out ou && _) eqn:Eb; injection Hs as <-; [|exact HK].
    apply (co_send s); try reflexivity; try exact HK.
    + unfold held. cbn. destruct (Nat.eq_dec a src) as [->|N]; [eauto|]. rewrite set_handle_neq by exact N. auto.
    + unfold held. cbn. destruct (Nat.eq_dec b src) as [->|N]; [eauto|]. rewrite set_handle_neq by exact N. auto.
    + cbn [with_conns with_handle s_conns pres]. apply existsb_record.
  - destruct (is_alive s src) eqn:Ea; injection Hs as <-; [|exact HK].
    set (sel := filter (selects src out dst port) (s_conns s)).
    set (s1 := with_conns s (filter (fun c => negb (selects src out dst port c)) (s_conns s))).
    destruct (send_all_fields (map to_disconnect sel) s1) as (G1 & G2 & G3 & G4 & G5).
    intros C HA HB [W1 W2]. rewrite G1 in C. cbn in C. unfold held in HA, HB. rewrite G2 in HA, HB. rewrite G4 in W1.
    rewrite G5 in W2 by exact C.
    destruct HK as (x & X1 & X2); auto.
    { split; [exact W1|]. intros Y. apply W2. apply in_app_iff. left. exact Y. }
    exists x. unfold has_edge. rewrite G4, G3, G5 by exact C. split; [exact X1|].
    rewrite fold_left_app. change (pending s1) with (pending s). rewrite X2, fold_disconnect.
    unfold sel. cbn [s1 with_conns s_conns]. rewrite !existsb_filter.
    destruct (existsb (conn_eqb (a, o, b, Some p)) (s_conns s)), (selects src out dst port (a, o, b, Some p)); reflexivity.
  - destruct (is_alive s id && negb (magic id)) eqn:Eb; injection Hs as <-; [|exact HK].
    set (s1 := with_handle s id Dropped).
    destruct (send_fields s1 (MDrop id)) as (F1 & F2 & F3 & F4 & F5 & F6 & F7 & _).
    intros C HA HB [W1 W2]. cbn in C, W1. unfold held in HA, HB. cbn in HA, HB. rewrite F3 in HA, HB. cbn in HA, HB.
    rewrite F6 in C. rewrite F7 in W1.
    assert (Na : a <> id). { intros ->. rewrite set_handle_eq in HA. destruct HA as (?&?&?&?). discriminate. }
    assert (Nb : b <> id). { intros ->. rewrite set_handle_eq in HB. destruct HB as (?&?&?&?). discriminate. }
    rewrite set_handle_neq in HA, HB by assumption.
    assert (Hpe : pending (with_conns (send s1 (MDrop id)) (filter (fun c => negb (mentions id c)) (s_conns (send s1 (MDrop id))))) = pending s ++ [MDrop id]).
    { change (pending (send s1 (MDrop id)) = pending s ++ [MDrop id]). rewrite send_pending by exact C. reflexivity. }
    rewrite Hpe in W2.
    destruct HK as (x & X1 & X2); auto.
    { split; [exact W1|]. intros Y. apply W2. apply in_app_iff. left. exact Y. }
    exists x. rewrite Hpe, fold_left_app, X2. unfold has_edge. cbn. rewrite F7, F4. split; [exact X1|].
    rewrite existsb_filter. cbn. rewrite (proj2 (Nat.eqb_neq a id) Na), (proj2 (Nat.eqb_neq b id) Nb). cbn. rewrite andb_true_r. reflexivity.
  - destruct (is_alive s id) eqn:Ea; injection Hs as <-; [|exact HK]. apply (co_send s s); auto.
  - destruct (is_alive s id) eqn:Ea; injection Hs as <-; [|exact HK]. apply (co_send s s); auto.
  - destruct (is_alive s id) eqn:Ea; injection Hs as <-; [|exact HK]. apply (co_send s s); auto.
  - destruct (s_closed s) eqn:Ec; injection Hs as <-; [exact HK|]. cbn in HC.
    assert (X : conn_ok (send s MSuspend) a o b p) by (apply (co_send s s); auto). revert X.
    apply co_ext; unfold send, held, pending; rewrite ?Ec, ?HC; cbn; rewrite ?Ec; auto.
  - destruct (s_closed s) eqn:Ec; injection Hs as <-; [exact HK|].
    assert (X : conn_ok (send s MResume) a o b p) by (apply (co_send s s); auto). revert X.
    apply co_ext; unfold send, held, pending; rewrite ?Ec; destruct (s_buf s); cbn; rewrite ?Ec, ?app_nil_r, ?app_assoc; auto.
  - destruct (s_closed s) eqn:Ec; injection Hs as <-; [exact HK|]. apply (co_send s s); auto.
  - injection Hs as <-. intros C. discriminate.
  - destruct HC.
  - destruct HC.
  - destruct HC.
  - destruct (s_chan s) as [|m ms] eqn:Ech; [injection Hs as <-; exact HK|].
    assert (Hp : pending s = m :: (ms ++ match s_buf s with Some b => b | None => [] end)).
    { unfold pending. rewrite Ech. reflexivity. }
    unfold handle_msg in Hs. cbn [s_graph] in Hs. destruct (to_gop m) as [go|] eqn:Eg.
    + destruct (gstep E go (s_graph s)) as [[g' l]|] eqn:Es; [|discriminate]. injection Hs as <-.
      assert (HL : forall id, exists c, rel (s_graph s) id c /\ ast_step id c m <> None).
      { intros id. destruct (i_ids s H id) as (c & c' & R1 & R2 & _). exists c. split; [exact R1|].
        rewrite Hp in R2. cbn in R2. destruct (ast_step id c m); congruence. }
      intros C HA HB [W1 W2]. cbn in C, W1. unfold pending in W2. cbn in W2.
      destruct (handled_breaker _ _ _ _ _ a Eg Es W1 HL) as [V1 V2].
      destruct HK as (x & X1 & X2); auto.
      { split; [exact V1|]. rewrite Hp. intros [Y|Y]; [congruence|exact (W2 Y)]. }
      exists (pres (a, o, b, Some p) x m). split.
      * eapply handled_edges; eassumption.
      * rewrite Hp in X2. cbn in X2. exact X2.
    + injection Hs as <-. cbn. intros C HA HB [W1 W2]. cbn in C, W1. unfold pending in W2; cbn in W2.
      assert (Hx : forall x, pres (a, o, b, Some p) x m = x) by (destruct m; cbn in Eg; try discriminate; reflexivity).
      destruct HK as (x & X1 & X2); auto.
      { destruct m; auto; discriminate. }
      { split; [exact W1|]. rewrite Hp. intros [Y|Y]; [subst m; discriminate|exact (W2 Y)]. }
      exists x. split; [exact X1|]. rewrite Hp in X2. cbn in X2. rewrite Hx in X2. exact X2.
  - destruct (s_idle s || negb (is_active (s_graph s))); [injection Hs as <-; exact HK|].
    destruct (render E frame (s_graph s)) as [[[g' lgs] ou]|] eqn:Er; [|discriminate]. injection Hs as <-.
    intros C HA HB [W1 W2]. cbn in C, W1. change (~ In (MBreaker a) (pending s)) in W2.
    assert (Ha : held s a /\ ~ In a (reclaimed lgs)).
    { destruct HA as (i & oo & f & X). cbn in X. rewrite (given_back E EOK NP s frame g' lgs ou _ H Er) in X. destruct (mem a (reclaimed lgs)) eqn:Em; [discriminate|].
      split; [unfold held; eauto|]. apply mem_nIn. exact Em. }
    assert (Hb : held s b /\ ~ In b (reclaimed lgs)).
    { destruct HB as (i & oo & f & X). cbn in X. rewrite (given_back E EOK NP s frame g' lgs ou _ H Er) in X. destruct (mem b (reclaimed lgs)) eqn:Em; [discriminate|].
      split; [unfold held; eauto|]. apply mem_nIn. exact Em. }
    pose proof (render_node_after E EOK NP _ _ _ _ _ (i_wf s H) Er a) as Hn.
    destruct Ha as [Ha Ha'], Hb as [Hb Hb'].
    assert (HW : not_writer s a).
    { split; [|exact W2]. intros n En. rewrite En in Hn. destruct Hn as [_ Hn]. destruct (Hn Ha') as (m & M1 & _ & _ & _ & M2 & _).
      rewrite <- M2. apply W1. exact M1. }
    destruct (HK C Ha Hb HW) as (x & X1 & X2). exists x. split; [|exact X2]. rewrite X1. unfold has_edge. cbn.
    destruct (get (g_nodes (s_graph s)) a) as [n|] eqn:En.
    + destruct Hn as [_ Hn]. destruct (Hn Ha') as (m & M1 & _ & _ & _ & M2 & _ & M3 & M4). rewrite M1. split.
      * intros (n' & X & He). injection X as <-. exists m. split; [reflexivity|]. apply M4; [|exact He|exact Hb'].
        apply (proj1 HW). exact En.
      * intros (n' & X & He). injection X as <-. exists n. split; [reflexivity|]. apply M3. exact He.
    + destruct Hn as [Hn _]. rewrite Hn. split; intros (n' & X & _); discriminate.
Qed.

Lemma main_conn dest cfg ops s a o b p : throughout E careful ops (sys0 dest cfg) -> run E ops (sys0 dest cfg) = Some s ->
  conn_ok s a o b p.
Proof.
  intros HC Hr.
  apply (run_induct E (fun s => inv s /\ conn_ok s a o b p) careful) with (ops := ops) (s := sys0 dest cfg); [| |exact HC|exact Hr].
  - intros s0 op s1 [H1 H2] C Hs. split; [eapply inv_step; eassumption|eapply co_step; eassumption].
  - split; [apply inv_init|]. intros _ _ _ _. exists false. cbn. split; [|reflexivity]. split; [discriminate|].
    intros (n & En & _). exfalso. apply (graph_new_dead (P:=P) (Q:=Q) (CFG:=CFG) a). exists n. exact En.
Qed.

(** when everything sent was handled, the table of connections is the graph *)
Lemma main_agree dest cfg ops s a o b p : throughout E careful ops (sys0 dest cfg) -> run E ops (sys0 dest cfg) = Some s ->
  s_closed s = false -> pending s = [] -> held s a -> held s b -> not_writer s a ->
  (has_edge s a o b (Some p) <-> In (a, o, b, Some p) (s_conns s)).
Proof.
  intros HC Hr Hc Hp HA HB HW. destruct (main_conn dest cfg ops s a o b p HC Hr Hc HA HB HW) as (x & X1 & X2).
  rewrite Hp in X2. cbn in X2. rewrite <- X1, X2. apply existsb_conn.
Qed.

(** the table after a disconnect *)
Definition no_connect (a o b p : nat) (op : op) : Prop := op <> CConnect a o b (Some p).

Lemma conns_step op s s' a o b p : step E op s = Some s' -> no_connect a o b p op ->
  In (a, o, b, Some p) (s_conns s') -> In (a, o, b, Some p) (s_conns s).
Proof.
  intros Hs Hn.
  destruct op as [|id q ins outs cfg|q n|id|src out dst port|src out dst port|id|id|id f|id m| | | | |id|id|id| |frame]; cbn [step] in Hs.
  - injection Hs as <-. unfold alloc. destruct (s_reclaim s); auto.
  - destruct (s_handle s id); injection Hs as <-; auto.
    match goal with |- In _ (s_conns (send ?x ?y)) -> _ => destruct (send_fields x y) as (_&_&_&F&_); rewrite F end. auto.
  - destruct (s_handle s q), (s_handle s n); injection Hs as <-; auto.
  - destruct (is_alive s id); injection Hs as <-; auto.
    assert (X : forall l (s : sys), s_conns (fold_left send_param l s) = s_conns s).
    { induction l as [|pq l IH]; cbn; intros s1; [reflexivity|]. rewrite IH. unfold send_param.
      destruct (s_handle s1 (fst pq)); match goal with |- s_conns (send ?x ?y) = _ => destruct (send_fields x y) as (_&_&_&F&_); rewrite F end; reflexivity. }
    rewrite X. auto.
  - destruct (s_handle s src); try (injection Hs as <-; auto; fail). destruct (s_handle s dst); try (injection Hs as <-; auto; fail).
    destruct (_ && _); injection Hs as <-; auto.
    match goal with |- In _ (s_conns (send ?x ?y)) -> _ => destruct (send_fields x y) as (_&_&_&F&_); rewrite F end. cbn.
    intros X. apply record_In in X. destruct X as [X|X]; [|exact X]. injection X as <- <- <- <-. exfalso. apply Hn. reflexivity.
  - destruct (is_alive s src); injection Hs as <-; auto.
    match goal with |- In _ (s_conns (send_all ?x ?y)) -> _ => destruct (send_all_fields y x) as (_&_&F&_); rewrite F end. cbn.
    intros X. apply filter_In in X. tauto.
  - destruct (is_alive s id && negb (magic id)); injection Hs as <-; auto. cbn. intros X. apply filter_In in X. destruct X as [X _]. revert X.
    match goal with |- In _ (s_conns (send ?x ?y)) -> _ => destruct (send_fields x y) as (_&_&_&F&_); rewrite F end. auto.
  - destruct (is_alive s id); injection Hs as <-; auto.
    match goal with |- In _ (s_conns (send ?x ?y)) -> _ => destruct (send_fields x y) as (_&_&_&F&_); rewrite F end. auto.
  - destruct (is_alive s id); injection Hs as <-; auto.
    match goal with |- In _ (s_conns (send ?x ?y)) -> _ => destruct (send_fields x y) as (_&_&_&F&_); rewrite F end. auto.
  - destruct (is_alive s id); injection Hs as <-; auto.
    match goal with |- In _ (s_conns (send ?x ?y)) -> _ => destruct (send_fields x y) as (_&_&_&F&_); rewrite F end. auto.
  - destruct (s_closed s); injection Hs as <-; auto.
  - destruct (s_closed s); injection Hs as <-; auto.
  - destruct (s_closed s); injection Hs as <-; auto.
    match goal with |- In _ (s_conns (send ?x ?y)) -> _ => destruct (send_fields x y) as (_&_&_&F&_); rewrite F end. auto.
  - injection Hs as <-; auto.
  - destruct (s_handle s id); try (injection Hs as <-; auto; fail). destruct (magic id); injection Hs as <-; auto.
    match goal with |- In _ (s_conns (send ?x ?y)) -> _ => destruct (send_fields x y) as (_&_&_&F&_); rewrite F end. auto.
  - destruct (is_alive s id && negb (magic id)); injection Hs as <-; auto.
    match goal with |- In _ (s_conns (send ?x ?y)) -> _ => destruct (send_fields x y) as (_&_&_&F&_); rewrite F end. auto.
  - injection Hs as <-. cbn. intros X. apply filter_In in X. tauto.
  - destruct (s_chan s) as [|m ms]; [injection Hs as <-; auto|]. unfold handle_msg in Hs.
    destruct (to_gop m); [destruct (gstep E g _) as [[g' l]|]; [|discriminate]|]; injection Hs as <-; auto.
  - destruct (s_idle s || negb (is_active (s_graph s))); [injection Hs as <-; auto|].
    destruct (render E frame (s_graph s)) as [[[g' lgs] ou]|]; [|discriminate]. injection Hs as <-. auto.
Qed.

Lemma conns_run ops : forall s s' a o b p, run E ops s = Some s' -> Forall (no_connect a o b p) ops ->
  In (a, o, b, Some p) (s_conns s') -> In (a, o, b, Some p) (s_conns s).
Proof.
  induction ops as [|op ops IH]; cbn; intros s s' a o b p Hr Hf.
  - injection Hr as <-. auto.
  - destruct (step E op s) as [s1|] eqn:Es; [|discriminate]. inversion Hf; subst.
    intros X. eapply conns_step; [exact Es|assumption|]. eapply IH; eassumption.
Qed.

Lemma run_app ops1 ops2 s : run E (ops1 ++ ops2) s = match run E ops1 s with Some s1 => run E ops2 s1 | None => None end.
Proof. revert s. induction ops1 as [|op ops1 IH]; cbn; intros s; [reflexivity|]. destruct (step E op s); auto. Qed.

Lemma main_disconnect dest cfg ops1 src out dst port ops2 s a o b p :
  let ops := ops1 ++ CDisconnect src out dst port :: ops2 in
  throughout E careful ops (sys0 dest cfg) -> run E ops (sys0 dest cfg) = Some s ->
  (forall s1, run E ops1 (sys0 dest cfg) = Some s1 -> held s1 src) ->
  selects src out dst port (a, o, b, Some p) = true ->
  Forall (no_connect a o b p) ops2 ->
  s_closed s = false -> pending s = [] -> held s a -> held s b -> not_writer s a ->
  ~ has_edge s a o b (Some p).
Proof.
  intros ops HC Hr Hheld Hsel Hnc Hcl Hp HA HB HW He.
  apply (main_agree dest cfg ops s a o b p HC Hr Hcl Hp HA HB HW) in He.
  unfold ops in Hr. rewrite run_app in Hr. destruct (run E ops1 (sys0 dest cfg)) as [s1|] eqn:E1; [|discriminate].
  specialize (Hheld s1 eq_refl). cbn [run] in Hr.
  destruct (step E (CDisconnect src out dst port) s1) as [s2|] eqn:E2; [|discriminate].
  pose proof (conns_run _ _ _ _ _ _ _ Hr Hnc He) as X. cbn [step] in E2.
  rewrite (proj2 (is_alive_held s1 src) Hheld) in E2. injection E2 as <-.
  match type of X with In _ (s_conns (send_all ?x ?y)) => destruct (send_all_fields y x) as (_&_&F&_); rewrite F in X end.
  cbn in X. apply filter_In in X. destruct X as [_ X]. cbn [selects] in X, Hsel. rewrite Hsel in X. discriminate.
Qed.

(** the table after a connect *)
Lemma conns_step_keep op s s' a o b p : careful s op -> step E op s = Some s' ->
  (forall src out dst port, op = CDisconnect src out dst port -> selects src out dst port (a, o, b, Some p) = false) ->
  op <> CDrop a /\ op <> CDrop b ->
  In (a, o, b, Some p) (s_conns s) -> In (a, o, b, Some p) (s_conns s').
Proof.
  intros HC Hs Hd [Da Db] Hin.
  destruct op as [|id q ins outs cfg|q n|id|src out dst port|src out dst port|id|id|id f|id m| | | | |id|id|id| |frame]; cbn [step] in Hs.
  - injection Hs as <-. unfold alloc. destruct (s_reclaim s); auto.
  - destruct (s_handle s id); injection Hs as <-; auto.
    match goal with |- In _ (s_conns (send ?x ?y)) => destruct (send_fields x y) as (_&_&_&F&_); rewrite F end. auto.
  - destruct (s_handle s q), (s_handle s n); injection Hs as <-; auto.
  - destruct (is_alive s id); injection Hs as <-; auto.
    assert (X : forall l (s : sys), s_conns (fold_left send_param l s) = s_conns s).
    { induction l as [|pq l IH]; cbn; intros s1; [reflexivity|]. rewrite IH. unfold send_param.
      destruct (s_handle s1 (fst pq)); match goal with |- s_conns (send ?x ?y) = _ => destruct (send_fields x y) as (_&_&_&F&_); rewrite F end; reflexivity. }
    rewrite X. auto.
  - destruct (s_handle s src); try (injection Hs as <-; auto; fail). destruct (s_handle s dst); try (injection Hs as <-; auto; fail).
    destruct (_ && _); injection Hs as <-; auto.
    match goal with |- In _ (s_conns (send ?x ?y)) => destruct (send_fields x y) as (_&_&_&F&_); rewrite F end. cbn.
    unfold record. destruct (existsb _ _); [auto|]. apply in_app_iff. auto.
  - destruct (is_alive s src); injection Hs as <-; auto.
    match goal with |- In _ (s_conns (send_all ?x ?y)) => destruct (send_all_fields y x) as (_&_&F&_); rewrite F end. cbn.
    apply filter_In. split; [exact Hin|]. specialize (Hd _ _ _ _ eq_refl). cbn [selects] in Hd |- *. rewrite Hd. reflexivity.
  - destruct (is_alive s id && negb (magic id)); injection Hs as <-; auto. cbn. apply filter_In.
    match goal with |- In _ (s_conns (send ?x ?y)) /\ _ => destruct (send_fields x y) as (_&_&_&F&_); rewrite F end.
    split; [exact Hin|]. cbn. rewrite (proj2 (Nat.eqb_neq a id)), (proj2 (Nat.eqb_neq b id)) by congruence. reflexivity.
  - destruct (is_alive s id); injection Hs as <-; auto.
    match goal with |- In _ (s_conns (send ?x ?y)) => destruct (send_fields x y) as (_&_&_&F&_); rewrite F end. auto.
  - destruct (is_alive s id); injection Hs as <-; auto.
    match goal with |- In _ (s_conns (send ?x ?y)) => destruct (send_fields x y) as (_&_&_&F&_); rewrite F end. auto.
  - destruct (is_alive s id); injection Hs as <-; auto.
    match goal with |- In _ (s_conns (send ?x ?y)) => destruct (send_fields x y) as (_&_&_&F&_); rewrite F end. auto.
  - destruct (s_closed s); injection Hs as <-; auto.
  - destruct (s_closed s); injection Hs as <-; auto.
  - destruct (s_closed s); injection Hs as <-; auto.
    match goal with |- In _ (s_conns (send ?x ?y)) => destruct (send_fields x y) as (_&_&_&F&_); rewrite F end. auto.
  - injection Hs as <-; auto.
  - destruct HC.
  - destruct HC.
  - destruct HC.
  - destruct (s_chan s) as [|m ms]; [injection Hs as <-; auto|]. unfold handle_msg in Hs.
    destruct (to_gop m); [destruct (gstep E g _) as [[g' l]|]; [|discriminate]|]; injection Hs as <-; auto.
  - destruct (s_idle s || negb (is_active (s_graph s))); [injection Hs as <-; auto|].
    destruct (render E frame (s_graph s)) as [[[g' lgs] ou]|]; [|discriminate]. injection Hs as <-. auto.
Qed.

Lemma conns_run_keep ops : forall s s' a o b p, throughout E careful ops s -> run E ops s = Some s' ->
  Forall (fun op => forall src out dst port, op = CDisconnect src out dst port -> selects src out dst port (a, o, b, Some p) = false) ops ->
  Forall (fun op => op <> CDrop a /\ op <> CDrop b) ops ->
  In (a, o, b, Some p) (s_conns s) -> In (a, o, b, Some p) (s_conns s').
Proof.
  induction ops as [|op ops IH]; cbn; intros s s' a o b p HC Hr Hf Hd.
  - injection Hr as <-. auto.
  - destruct HC as [C1 C2]. destruct (step E op s) as [s1|] eqn:Es; [|discriminate].
    inversion Hf; subst. inversion Hd; subst.
    intros X. eapply IH; [apply C2; reflexivity|exact Hr|assumption|assumption|]. eapply conns_step_keep; eassumption.
Qed.

Lemma throughout_app C ops1 ops2 : forall s s1, throughout E C (ops1 ++ ops2) s -> run E ops1 s = Some s1 -> throughout E C ops2 s1.
Proof.
  induction ops1 as [|op ops1 IH]; cbn; intros s s1 H Hr.
  - injection Hr as <-. exact H.
  - destruct H as [_ H]. destruct (step E op s) as [s2|] eqn:Es; [|discriminate]. eapply IH; [|exact Hr]. apply H. reflexivity.
Qed.

Lemma main_connect dest cfg ops1 ops2 s a o b p ins outs fa dins douts fb :
  let ops := ops1 ++ CConnect a o b (Some p) :: ops2 in
  throughout E careful ops (sys0 dest cfg) -> run E ops (sys0 dest cfg) = Some s ->
  (forall s1, run E ops1 (sys0 dest cfg) = Some s1 -> s_handle s1 a = Alive ins outs fa /\ s_handle s1 b = Alive dins douts fb) ->
  o < outs -> p < dins ->
  Forall (fun op => forall src out dst port, op = CDisconnect src out dst port -> selects src out dst port (a, o, b, Some p) = false) ops2 ->
  Forall (fun op => op <> CDrop a /\ op <> CDrop b) ops2 ->
  s_closed s = false -> pending s = [] -> held s a -> held s b -> not_writer s a ->
  has_edge s a o b (Some p).
Proof.
  intros ops HC Hr Hh Ho Hp Hf Hd Hcl Hpe HA HB HW.
  apply (main_agree dest cfg ops s a o b p HC Hr Hcl Hpe HA HB HW).
  unfold ops in Hr. rewrite run_app in Hr. destruct (run E ops1 (sys0 dest cfg)) as [s1|] eqn:E1; [|discriminate].
  destruct (Hh s1 eq_refl) as [H1 H2]. cbn [run] in Hr.
  pose proof (throughout_app _ _ _ _ _ HC E1) as HC2. destruct HC2 as [_ HC2].
  destruct (step E (CConnect a o b (Some p)) s1) as [s2|] eqn:E2; [|discriminate]. specialize (HC2 s2 eq_refl).
  apply (conns_run_keep ops2 s2 s a o b p HC2 Hr Hf Hd). cbn [step] in E2. rewrite H1, H2 in E2.
  rewrite (proj2 (Nat.ltb_lt o outs) Ho), (proj2 (Nat.ltb_lt p dins) Hp) in E2. cbn [andb] in E2. injection E2 as <-.
  match goal with |- In _ (s_conns (send ?x ?y)) => destruct (send_fields x y) as (_&_&_&F&_); rewrite F end. cbn.
  unfold record. destruct (existsb (conn_eqb (a, o, b, Some p)) (s_conns s1)) eqn:Ex; [apply existsb_conn; exact Ex|].
  apply in_app_iff. right. now left.
Qed.

End ConnProofs.
