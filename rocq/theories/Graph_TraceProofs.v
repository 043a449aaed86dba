From Coq Require Import List Arith Bool Lia.
From Verif Require Import Graph_Model Graph_Spec Graph_OrderProofs Graph_RenderProofs Graph_TraceModel Graph_TraceSpec.
Import ListNotations.

Section TraceProofs.
Context {P Q CFG : Type}.
Notation nodes := (nodes P Q CFG).
Notation node := (node P Q CFG).
Notation step_log := (step_log P Q).
Notation graph := (graph P Q CFG).
Notation gop := (gop P CFG).
Implicit Types g : graph.
Implicit Types ns : nodes.
Variable E : env P Q CFG.
Hypothesis EOK : env_ok E.

Definition WF g : Prop :=
  closed (g_nodes g) /\ ports_ok (g_nodes g) /\ rendering_order (g_nodes g) (g_ordered g).

(** nodes that are not rendered lie on delay-free cycles of unrendered nodes *)
Definition complete ns (ord : list nat) : Prop :=
  forall i, live ns i -> In i ord \/
    exists c, is_cycle (connected ns) c /\ In i c /\
              forall x, In x c -> ~ breaker ns x /\ ~ In x ord.

Definition settledg g : Prop := g_ordered g = [] \/ complete (g_nodes g) (g_ordered g).

(** ** Same topology *)
Definition same_topo ns ns' : Prop :=
  forall i, match get ns i, get ns' i with
            | Some n, Some n' => n_edges n' = n_edges n /\ length (n_inputs n') = length (n_inputs n) /\
                                 length (n_outputs n') = length (n_outputs n)
            | None, None => True
            | _, _ => False
            end.

Lemma same_topo_sym ns ns' : same_topo ns ns' -> same_topo ns' ns.
Proof. intros H i. specialize (H i). destruct (get ns i), (get ns' i); intuition congruence. Qed.

Lemma same_topo_live ns ns' i : same_topo ns ns' -> (live ns' i <-> live ns i).
Proof.
  intros H. specialize (H i). unfold live.
  destruct (get ns i) as [n|], (get ns' i) as [n'|]; try tauto; split; intros [? ?]; eexists; try reflexivity; discriminate.
Qed.

Lemma same_topo_connected1 ns ns' a b : same_topo ns ns' -> connected ns' a b -> connected ns a b.
Proof.
  intros H (n & e & En & He & Hd). specialize (H a). rewrite En in H.
  destruct (get ns a) as [m|] eqn:Em; [|tauto]. exists m, e. destruct H as [H _]. rewrite <- H. tauto.
Qed.

Lemma same_topo_connected ns ns' a b : same_topo ns ns' -> (connected ns' a b <-> connected ns a b).
Proof. intros H. split; apply same_topo_connected1; [|apply same_topo_sym]; exact H. Qed.

Lemma same_topo_WF g g' : same_topo (g_nodes g) (g_nodes g') -> g_ordered g' = g_ordered g -> WF g -> WF g'.
Proof.
  intros H Ho (A & B & C & D & F). split; [|split].
  - intros a b Hc. rewrite (same_topo_live _ _ b H). apply (A a). rewrite <- (same_topo_connected _ _ a b H). exact Hc.
  - intros a n e En He. pose proof (H a) as Ha. rewrite En in Ha.
    destruct (get (g_nodes g) a) as [m|] eqn:Em; [|tauto]. destruct Ha as (H1 & H2 & H3).
    rewrite H1 in He. destruct (B a m e Em He) as [B1 B2]. split; [lia|].
    intros p Hp. destruct (B2 p Hp) as (d & Ed & Hd). pose proof (H (e_dest e)) as Hde. rewrite Ed in Hde.
    destruct (get (g_nodes g') (e_dest e)) as [d'|] eqn:Ed'; [|tauto].
    exists d'. split; [reflexivity|]. lia.
  - rewrite Ho. split; [exact C|]. split.
    + intros i Hi. apply (same_topo_live _ _ i H). apply D. exact Hi.
    + intros a b Ha Hb Hc. apply F; try assumption. apply (same_topo_connected _ _ a b H). exact Hc.
Qed.

Lemma same_topo_update ns i (f : node -> node) :
  (forall n, n_edges (f n) = n_edges n /\ length (n_inputs (f n)) = length (n_inputs n) /\
             length (n_outputs (f n)) = length (n_outputs n)) ->
  same_topo ns (update ns i f).
Proof.
  intros H j. destruct (Nat.eq_dec i j) as [<-|N].
  - rewrite get_update_eq. destruct (get ns i) as [n|]; cbn; [apply H|exact I].
  - rewrite get_update_neq by exact N. destruct (get ns j); tauto.
Qed.

Lemma same_topo_complete ns ns' ord : same_topo ns ns' ->
  (forall x, breaker ns' x -> breaker ns x \/ (forall y, ~ connected ns x y)) ->
  complete ns ord -> complete ns' ord.
Proof.
  intros H Hb HC i Hi. apply (same_topo_live _ _ i H) in Hi. destruct (HC i Hi) as [HH|(c & C1 & C2 & C3)]; [now left|right].
  exists c. split; [|split; [exact C2|]].
  - eapply is_cycle_weaken; [|exact C1]. intros x y. apply (same_topo_connected _ _ x y H).
  - intros x Hx. destruct (C3 x Hx) as [C4 C5]. split; [|exact C5].
    intros Hbx. destruct (Hb x Hbx) as [Y|Y]; [tauto|].
    destruct (is_cycle_out ns c x C1 Hx) as [y Hy]. exact (Y y Hy).
Qed.

Lemma breaker_update ns i (f : node -> node) x : (forall n, n_breaker (f n) = n_breaker n) ->
  breaker (update ns i f) x -> breaker ns x.
Proof.
  intros H (n & En & Hb). destruct (Nat.eq_dec i x) as [<-|N].
  - rewrite get_update_eq in En. destruct (get ns i) as [m|] eqn:Em; [|discriminate].
    cbn in En. injection En as <-. exists m. rewrite <- (H m). tauto.
  - rewrite get_update_neq in En by exact N. exists n. tauto.
Qed.

(** ** insert *)
Lemma get_app_None ns k j : get (ns ++ repeat None k) j = get ns j.
Proof.
  unfold get. destruct (Nat.lt_ge_cases j (length ns)) as [H|H].
  - rewrite nth_error_app1 by exact H. reflexivity.
  - rewrite nth_error_app2 by exact H.
    rewrite (proj2 (nth_error_None ns j)) by exact H.
    destruct (nth_error (repeat None k) (j - length ns)) as [x|] eqn:X; [|reflexivity].
    apply nth_error_In, repeat_spec in X. subst. reflexivity.
Qed.

Lemma get_insert ns i n j : get (insert ns i n) j = if Nat.eqb i j then Some n else get ns j.
Proof.
  unfold insert. destruct (Nat.eqb_spec i j) as [<-|N].
  - apply get_set_slot_eq. rewrite app_length, repeat_length. lia.
  - rewrite get_set_slot_neq by exact N. apply get_app_None.
Qed.

Lemma WF_add g id p ins outs cfg : WF g -> ~ live (g_nodes g) id -> WF (add_node E g id p ins outs cfg).
Proof.
  intros (A & B & C & D & F) Hid. unfold add_node.
  set (nd := mk_node p _ _ _ _ _ _ _).
  assert (Hcon : forall a b, connected (insert (g_nodes g) id nd) a b -> connected (g_nodes g) a b).
  { intros a b (n & e & En & He & Hd). rewrite get_insert in En.
    destruct (Nat.eqb id a); [injection En as <-; destruct He|]. exists n, e. tauto. }
  assert (Hliv : forall i, live (g_nodes g) i -> live (insert (g_nodes g) id nd) i).
  { intros i [n Hn]. unfold live. rewrite get_insert. destruct (Nat.eqb id i); eauto. }
  split; [|split]; cbn.
  - intros a b Hc. apply Hliv. eapply A. apply Hcon. exact Hc.
  - intros a n e En He. rewrite get_insert in En.
    destruct (Nat.eqb id a); [injection En as <-; destruct He|].
    destruct (B a n e En He) as [B1 B2]. split; [exact B1|]. intros q Hq.
    destruct (B2 q Hq) as (d & Ed & Hd). exists d. split; [|exact Hd].
    rewrite get_insert. destruct (Nat.eqb_spec id (e_dest e)) as [X|_]; [|exact Ed].
    exfalso. apply Hid. rewrite X. exists d. exact Ed.
  - split; [|split].
    + apply NoDup_snoc; [exact C|]. intros H. apply Hid. apply D. exact H.
    + intros i Hi. apply in_app_or in Hi. destruct Hi as [Hi|[<-|[]]]; [apply Hliv, D; exact Hi|].
      exists nd. rewrite get_insert, Nat.eqb_refl. reflexivity.
    + intros a b Ha Hb Hc. apply Hcon in Hc.
      assert (Hb' : In b (g_ordered g)).
      { apply in_app_or in Hb. destruct Hb as [Hb|[<-|[]]]; [exact Hb|]. exfalso. apply Hid. eapply A. exact Hc. }
      assert (Ha' : In a (g_ordered g)).
      { apply in_app_or in Ha. destruct Ha as [Ha|[<-|[]]]; [exact Ha|]. exfalso. apply Hid.
        destruct Hc as (n & e & En & _). exists n. exact En. }
      apply before_app_l. apply F; assumption.
Qed.

Lemma complete_add ns ord id nd : complete ns ord -> ~ live ns id -> closed ns ->
  complete (insert ns id nd) (ord ++ [id]).
Proof.
  intros HC Hid CL i [n Hn]. rewrite get_insert in Hn. destruct (Nat.eqb_spec id i) as [->|N].
  - left. apply in_or_app. right; now left.
  - destruct (HC i (ex_intro _ n Hn)) as [H|(c & C1 & C2 & C3)]; [left; apply in_or_app; now left|].
    right. exists c. split; [|split; [exact C2|]].
    + eapply is_cycle_weaken; [|exact C1]. intros x y (m & e & Em & He & Hd). exists m, e.
      rewrite get_insert. destruct (Nat.eqb_spec id x) as [->|_]; [|tauto].
      exfalso. apply Hid. exists m. exact Em.
    + intros x Hx. destruct (C3 x Hx) as [C4 C5].
      assert (Hxid : id <> x).
      { intros <-. destruct (is_cycle_out ns c id C1 Hx) as (y & m & e & Em & _). apply Hid. exists m; exact Em. }
      split.
      * intros (m & Em & Hb). apply C4. rewrite get_insert in Em.
        destruct (Nat.eqb_spec id x); [congruence|]. exists m. tauto.
      * intros Hin. apply in_app_or in Hin. destruct Hin as [Hin|[Hin|[]]]; [tauto|congruence].
Qed.

(** ** edges *)
Lemma WF_connect g g' src out dst port : WF g -> legal E g (OpConnect src out dst port) ->
  add_edge g src out dst port = Some g' -> WF g'.
Proof.
  intros (A & B & C & D & F) [(n0 & En0 & Hout) (d0 & Ed0 & Hport)] Hadd.
  unfold add_edge in Hadd. rewrite En0 in Hadd. injection Hadd as <-. cbn.
  set (f := fun n : node => mk_node (n_proc n) (n_inputs n) (n_outputs n) (n_cfg n)
                   (n_edges n ++ [mk_edge out dst port]) (n_dropped n) (n_connected n) (n_breaker n)).
  assert (Hget : forall i, get (update (g_nodes g) src f) i = if Nat.eqb src i then option_map f (get (g_nodes g) i) else get (g_nodes g) i).
  { intros i. destruct (Nat.eqb_spec src i) as [<-|N]; [apply get_update_eq|apply get_update_neq; exact N]. }
  assert (Hliv : forall i, live (g_nodes g) i -> live (update (g_nodes g) src f) i).
  { intros i [n Hn]. unfold live. rewrite Hget, Hn. destruct (Nat.eqb src i); cbn; eauto. }
  assert (Hedge : forall a n e, get (update (g_nodes g) src f) a = Some n -> In e (n_edges n) ->
             exists m, get (g_nodes g) a = Some m /\ length (n_outputs n) = length (n_outputs m) /\
               (In e (n_edges m) \/ (a = src /\ e = mk_edge out dst port))).
  { intros a n e En He. rewrite Hget in En. destruct (Nat.eqb_spec src a) as [<-|N].
    - rewrite En0 in En. cbn in En. injection En as <-. exists n0. split; [exact En0|]. split; [reflexivity|].
      cbn in He. apply in_app_or in He. destruct He as [He|[<-|[]]]; tauto.
    - exists n. tauto. }
  split; [|split]; cbn.
  - intros a b (n & e & En & He & Hd). apply Hliv.
    destruct (Hedge a n e En He) as (m & Em & _ & [Hin|[-> ->]]).
    + apply (A a). exists m, e. tauto.
    + cbn in Hd. subst b. exists d0. exact Ed0.
  - intros a n e En He. destruct (Hedge a n e En He) as (m & Em & Hlen & [Hin|[-> ->]]).
    + destruct (B a m e Em Hin) as [B1 B2]. split; [lia|]. intros q Hq. destruct (B2 q Hq) as (d & Ed & Hd).
      unfold f. rewrite Hget, Ed. destruct (Nat.eqb src (e_dest e)); cbn; eexists; split; try reflexivity; exact Hd.
    + cbn. rewrite En0 in Em. injection Em as <-. split; [lia|]. intros q Hq.
      rewrite Hget, Ed0. destruct (Nat.eqb src dst); cbn; eexists; (split; [reflexivity|]); apply Hport; exact Hq.
  - split; [constructor|]. split; [intros i []|intros a b []].
Qed.

Lemma WF_disconnect g g' src out dst port : WF g -> remove_edge g src out dst port = Some g' -> WF g'.
Proof.
  intros (A & B & C & D & F) Hrem.
  unfold remove_edge in Hrem. destruct (get (g_nodes g) src) as [n0|] eqn:En0; [|discriminate].
  injection Hrem as <-. cbn.
  set (f := fun n : node => mk_node (n_proc n) (n_inputs n) (n_outputs n) (n_cfg n)
                   (filter (keep_edge out dst port) (n_edges n)) (n_dropped n) (n_connected n) (n_breaker n)).
  assert (Hget : forall i, get (update (g_nodes g) src f) i = if Nat.eqb src i then option_map f (get (g_nodes g) i) else get (g_nodes g) i).
  { intros i. destruct (Nat.eqb_spec src i) as [<-|N]; [apply get_update_eq|apply get_update_neq; exact N]. }
  assert (Hliv : forall i, live (g_nodes g) i -> live (update (g_nodes g) src f) i).
  { intros i [n Hn]. unfold live. rewrite Hget, Hn. destruct (Nat.eqb src i); cbn; eauto. }
  assert (Hedge : forall a n e, get (update (g_nodes g) src f) a = Some n -> In e (n_edges n) ->
             exists m, get (g_nodes g) a = Some m /\ length (n_outputs n) = length (n_outputs m) /\ In e (n_edges m)).
  { intros a n e En He. rewrite Hget in En. destruct (Nat.eqb_spec src a) as [<-|N].
    - rewrite En0 in En. cbn in En. injection En as <-. exists n0. split; [exact En0|]. split; [reflexivity|].
      cbn in He. apply filter_In in He. tauto.
    - exists n. tauto. }
  split; [|split]; cbn.
  - intros a b (n & e & En & He & Hd). apply Hliv.
    destruct (Hedge a n e En He) as (m & Em & _ & Hin). apply (A a). exists m, e. tauto.
  - intros a n e En He. destruct (Hedge a n e En He) as (m & Em & Hlen & Hin).
    destruct (B a m e Em Hin) as [B1 B2]. split; [lia|]. intros q Hq. destruct (B2 q Hq) as (d & Ed & Hd).
    rewrite Hget, Ed. destruct (Nat.eqb src (e_dest e)); cbn; eexists; split; try reflexivity; exact Hd.
  - split; [constructor|]. split; [intros i []|intros a b []].
Qed.

(** ** Rendering *)
Lemma cut_ports_ok ns ns' : cut_at_breakers ns ns' -> ports_ok ns -> ports_ok ns'.
Proof.
  intros H B a n e En He.
  destruct (H a) as [Ha|(m & E1 & _ & _ & E2)].
  - rewrite Ha in En. destruct (B a n e En He) as [B1 B2]. split; [exact B1|].
    intros p Hp. destruct (B2 p Hp) as (d & Ed & Hd).
    destruct (H (e_dest e)) as [Hde|(m & F1 & _ & _ & F2)].
    + exists d. rewrite Hde. tauto.
    + rewrite Ed in F1. injection F1 as <-. exists (clear_edges d). tauto.
  - rewrite E2 in En. injection En as <-. destruct He.
Qed.

(** the (re)ordering at the beginning of a quantum *)
Definition reordered g ns' (ord : list nat) : Prop :=
  (g_ordered g <> [] /\ ns' = g_nodes g /\ ord = g_ordered g) \/
  (g_ordered g = [] /\ exists cyc, order_nodes (g_nodes g) = ORet ns' ord cyc /\ order_post (g_nodes g) ns' ord cyc).

Lemma reorder_total g : WF g -> exists ns' ord, reordered g ns' ord.
Proof.
  intros (A & _). destruct (g_ordered g) as [|x l] eqn:Eo.
  - destruct (order_nodes_post _ A) as (g' & ord & cyc & H1 & H2). exists g', ord. right. eauto.
  - exists (g_nodes g), (x :: l). left. rewrite Eo. repeat split. discriminate.
Qed.

Lemma reordered_cut g ns' ord : reordered g ns' ord -> cut_at_breakers (g_nodes g) ns'.
Proof.
  intros [(_ & -> & _)|(_ & cyc & _ & H)]; [intros i; now left|apply H].
Qed.

Lemma reordered_order g ns' ord : WF g -> reordered g ns' ord -> rendering_order ns' ord.
Proof.
  intros (_ & _ & C) [(_ & -> & ->)|(_ & cyc & _ & H)]; [exact C|apply H].
Qed.

Lemma reordered_QOK g ns' ord : WF g -> reordered g ns' ord -> QOK ns' ord.
Proof.
  intros HW H. split; [eapply reordered_order; eauto|].
  eapply cut_ports_ok; [eapply reordered_cut; exact H|]. apply HW.
Qed.

Lemma reordered_closed g ns' ord : WF g -> reordered g ns' ord -> closed ns'.
Proof.
  intros (A & _) [(_ & -> & _)|(_ & cyc & _ & H)]; [exact A|apply H].
Qed.

Lemma reordered_complete g ns' ord : settledg g -> reordered g ns' ord -> complete ns' ord.
Proof.
  intros [Hs|Hs] [(Ho & -> & ->)|(Ho & cyc & _ & H)]; [congruence| |exact Hs|];
    (destruct H as (_ & _ & H3 & H4 & H5 & _);
     intros i Hi; destruct (H4 i Hi) as [Hin|Hin]; [now left|right];
     destruct (H3 i Hin) as (c & C1 & C2 & C3 & C4);
     exists c; split; [exact C1|]; split; [exact C2|]; intros x Hx; split; [apply C3; exact Hx|];
     intros Hxo; apply (H5 x Hxo), C4; exact Hx).
Qed.

Lemma logged_In (lgs : list step_log) i lg : NoDup (map l_id lgs) -> In lg lgs -> l_id lg = i -> logged lgs i = Some lg.
Proof.
  induction lgs as [|x lgs IH]; cbn; intros ND Hin Hid; [destruct Hin|].
  inversion ND as [|? ? N1 N2]; subst. destruct Hin as [->|Hin].
  - rewrite Nat.eqb_refl. reflexivity.
  - destruct (Nat.eqb_spec (l_id x) (l_id lg)) as [X|X].
    + exfalso. apply N1. rewrite X. apply in_map. exact Hin.
    + apply IH; [exact N2|exact Hin|reflexivity].
Qed.

Lemma logged_Some (lgs : list step_log) i lg : logged lgs i = Some lg -> In lg lgs /\ l_id lg = i.
Proof. intros H. apply find_some in H. rewrite Nat.eqb_eq in H. exact H. Qed.

Lemma reclaimed_In (lgs : list step_log) i : In i (reclaimed lgs) <-> exists lg, In lg lgs /\ l_id lg = i /\ l_freed lg = true.
Proof.
  unfold reclaimed. rewrite in_map_iff. split.
  - intros (lg & <- & H). apply filter_In in H. exists lg. tauto.
  - intros (lg & H & <- & Hf). exists lg. split; [reflexivity|]. apply filter_In. tauto.
Qed.

Lemma after_live ns (lgs : list step_log) frame i : logs_ok E frame ns [] lgs -> NoDup (map l_id lgs) ->
  ((exists m, after E ns lgs i = Some m) <-> (live ns i /\ ~ In i (reclaimed lgs))).
Proof.
  intros Hlogs ND. unfold after. split.
  - intros [m Hm]. destruct (get ns i) as [n|] eqn:En; [|discriminate].
    split; [exists n; exact En|]. intros Hin. apply reclaimed_In in Hin.
    destruct Hin as (lg & Hlg & Hid & Hf). rewrite (logged_In lgs i lg ND Hlg Hid), Hf in Hm. discriminate.
  - intros [[n Hn] Hr]. rewrite Hn. destruct (logged lgs i) as [lg|] eqn:El; [|eexists; reflexivity].
    apply logged_Some in El. destruct El as [Hin Hid].
    destruct (l_freed lg) eqn:Ef.
    + exfalso. apply Hr, reclaimed_In. exists lg. tauto.
    + destruct (logs_ok_In E _ _ _ _ _ Hlogs Hin) as (pre' & m & _ & _ & _ & _ & _ & _ & Hm).
      destruct (l_result lg) as [[[p' o'] t]|]; [eexists; reflexivity|].
      destruct Hm as [_ Hm]. congruence.
Qed.

(** the nodes after a quantum: connections are those of before, except from and to
    the reclaimed nodes *)
Lemma after_edges ns (lgs : list step_log) i n m : get ns i = Some n -> after E ns lgs i = Some m ->
  n_edges m = live_edges lgs (n_edges n) /\ n_dropped m = n_dropped n /\ n_breaker m = n_breaker n /\ n_cfg m = n_cfg n.
Proof.
  intros En. unfold after. rewrite En. destruct (logged lgs i) as [lg|].
  - destruct (l_freed lg); [discriminate|]. destruct (l_result lg) as [[[p' o'] t]|]; [|discriminate].
    intros X. injection X as <-. cbn. tauto.
  - intros X. injection X as <-. cbn. tauto.
Qed.

Lemma after_connected ns lgs ns' a b : (forall i, get ns' i = after E ns lgs i) ->
  connected ns' a b -> connected ns a b /\ ~ In b (reclaimed lgs).
Proof.
  intros Hg (m & e & Em & He & Hd). rewrite Hg in Em.
  destruct (get ns a) as [n|] eqn:En; [|unfold after in Em; rewrite En in Em; discriminate].
  destruct (after_edges _ _ _ _ _ En Em) as [X _]. rewrite X in He. unfold live_edges in He.
  apply filter_In in He. destruct He as [He Hf]. split; [exists n, e; tauto|].
  subst b. destruct (mem (e_dest e) (freed_ids lgs)) eqn:Y; [discriminate|]. apply mem_nIn in Y. exact Y.
Qed.

Record quantum (frame : nat) g g' (lgs : list step_log) ns1 (ord : list nat) : Prop := {
  qu_reord : reordered g ns1 ord;
  qu_ids : map l_id lgs = ord;
  qu_logs : logs_ok E frame ns1 [] lgs;
  qu_get : forall i, get (g_nodes g') i = after E ns1 lgs i;
  qu_ord : g_ordered g' = prune (g_nodes g') ord
}.

Lemma render_quantum frame g g' lgs out : WF g -> render E frame g = Some (g', lgs, out) ->
  exists ns1 ord, quantum frame g g' lgs ns1 ord.
Proof.
  intros HW Hr. destruct (reorder_total g HW) as (ns1 & ord & Hre).
  destruct (render_nodes_post E EOK frame ns1 ord (reordered_QOK _ _ _ HW Hre)) as (gn & lgs' & Hrn & Hids & Hlogs & Hget).
  assert (Eog : (match g_ordered g with
                 | [] => match order_nodes (g_nodes g) with ORet g' o _ => Some (g', o) | _ => None end
                 | _ => Some (g_nodes g, g_ordered g) end) = Some (ns1, ord)).
  { destruct Hre as [(Ho & -> & ->)|(Ho & cyc & H & _)].
    - destruct (g_ordered g); [congruence|reflexivity].
    - rewrite Ho, H. reflexivity. }
  unfold render in Hr. rewrite Eog, Hrn in Hr.
  destruct (get gn 0) as [d|]; [|discriminate]. destruct (n_outputs d) as [|o os]; [discriminate|].
  injection Hr as <- <- <-. exists ns1, ord. constructor; try assumption. reflexivity.
Qed.

Lemma render_total frame g : WF g -> legal E g (OpRender frame) ->
  exists g' lgs out, render E frame g = Some (g', lgs, out).
Proof.
  intros HW (d & Ed & Hout & Hdrop & Hproc).
  destruct (reorder_total g HW) as (ns1 & ord & Hre).
  destruct (render_nodes_post E EOK frame ns1 ord (reordered_QOK _ _ _ HW Hre)) as (gn & lgs' & Hrn & Hids & Hlogs & Hget).
  assert (Eog : (match g_ordered g with
                 | [] => match order_nodes (g_nodes g) with ORet g' o _ => Some (g', o) | _ => None end
                 | _ => Some (g_nodes g, g_ordered g) end) = Some (ns1, ord)).
  { destruct Hre as [(Ho & -> & ->)|(Ho & cyc & H & _)].
    - destruct (g_ordered g); [congruence|reflexivity].
    - rewrite Ho, H. reflexivity. }
  unfold render. rewrite Eog, Hrn.
  assert (ND : NoDup (map l_id lgs')).
  { rewrite Hids. eapply reordered_order; eauto. }
  assert (Hd1 : exists d1, get ns1 0 = Some d1 /\ n_outputs d1 = n_outputs d /\ n_dropped d1 = false /\ n_proc d1 = n_proc d).
  { destruct (reordered_cut _ _ _ Hre 0) as [X|(m & X & _ & _ & Y)].
    - rewrite Ed in X. exists d. tauto.
    - rewrite Ed in X. injection X as <-. exists (clear_edges d). tauto. }
  destruct Hd1 as (d1 & Ed1 & Eo1 & Edr & Ep).
  assert (Hlive : exists m, after E ns1 lgs' 0 = Some m).
  { apply (after_live ns1 lgs' frame 0 Hlogs ND). split; [exists d1; exact Ed1|].
    intros Hin. apply reclaimed_In in Hin. destruct Hin as (lg & Hlg & Hid & Hf).
    destruct (logs_ok_In E _ _ _ _ _ Hlogs Hlg) as (pre' & m & Em & _ & _ & _ & _ & Hres & Hm).
    rewrite Hid, Ed1 in Em. injection Em as <-.
    rewrite Eo1, Ep in Hres.
    destruct (l_result lg) as [[[p' o'] t]|].
    - destruct Hm as [_ Hm]. rewrite Hf in Hm. symmetry in Hm. apply can_free_spec in Hm.
      destruct Hm as [Hm _]. cbn in Hm. congruence.
    - symmetry in Hres. apply Hproc in Hres. exact Hres. }
  destruct Hlive as [m Hm]. rewrite Hget, Hm.
  assert (Hl : length (n_outputs m) = length (n_outputs d1)).
  { eapply after_outputs_length; try eassumption. intros lg Hlg. eapply logs_ok_In; eauto. }
  rewrite Eo1 in Hl. destruct (n_outputs m) as [|o os].
  - destruct (n_outputs d); [congruence|discriminate].
  - eexists _, _, _. reflexivity.
Qed.

Lemma prune_In ns ord i : In i (prune ns ord) <-> In i ord /\ live ns i.
Proof.
  unfold prune. rewrite filter_In. unfold live. destruct (get ns i) as [n|].
  - split; intros [H1 H2]; (split; [exact H1|]); [exists n|]; reflexivity.
  - split; intros [H1 H2]; [discriminate|destruct H2; discriminate].
Qed.

Lemma WF_render frame g g' lgs out : WF g -> render E frame g = Some (g', lgs, out) -> WF g'.
Proof.
  intros HW Hr. destruct (render_quantum _ _ _ _ _ HW Hr) as (ns1 & ord & [Hre Hids Hlogs Hget Hord]).
  pose proof (reordered_order _ _ _ HW Hre) as (N & L & T).
  pose proof (reordered_closed _ _ _ HW Hre) as CL.
  destruct (reordered_QOK _ _ _ HW Hre) as [_ PO].
  assert (ND : NoDup (map l_id lgs)) by (rewrite Hids; exact N).
  assert (Hliv : forall i, live (g_nodes g') i <-> live ns1 i /\ ~ In i (reclaimed lgs)).
  { intros i. unfold live at 1. rewrite <- (after_live ns1 lgs frame i Hlogs ND).
    setoid_rewrite Hget. reflexivity. }
  split; [|split].
  - intros a b Hc. apply (after_connected _ _ _ _ _ Hget) in Hc. apply Hliv. split; [|tauto]. apply (CL a). tauto.
  - intros a m e Em He. rewrite Hget in Em.
    destruct (get ns1 a) as [n|] eqn:En; [|unfold after in Em; rewrite En in Em; discriminate].
    destruct (after_edges _ _ _ _ _ En Em) as [X _]. rewrite X in He. unfold live_edges in He.
    apply filter_In in He. destruct He as [He Hf].
    destruct (PO a n e En He) as [B1 B2]. split.
    + rewrite (after_outputs_length E EOK frame ns1 lgs a n m En Em); [exact B1|].
      intros lg Hlg. eapply logs_ok_In; eauto.
    + intros p Hp. destruct (B2 p Hp) as (d & Ed & Hd).
      assert (Hld : exists d', after E ns1 lgs (e_dest e) = Some d').
      { apply (after_live ns1 lgs frame _ Hlogs ND). split; [exists d; exact Ed|].
        destruct (mem (e_dest e) (freed_ids lgs)) eqn:Y; [discriminate|]. apply mem_nIn in Y. exact Y. }
      destruct Hld as [d' Ed']. exists d'. rewrite Hget. split; [exact Ed'|].
      rewrite (after_inputs_length E _ _ _ _ _ Ed Ed'). exact Hd.
  - rewrite Hord. split; [|split].
    + apply NoDup_filter. exact N.
    + intros i Hi. apply prune_In in Hi. tauto.
    + intros a b Ha Hb Hc. apply (after_connected _ _ _ _ _ Hget) in Hc.
      apply prune_In in Ha. apply prune_In in Hb. unfold prune. apply before_filter.
      * apply T; tauto.
      * destruct Ha as [_ [n Hn]]. rewrite Hn. reflexivity.
      * destruct Hb as [_ [n Hn]]. rewrite Hn. reflexivity.
Qed.

Lemma complete_render frame g g' lgs out : WF g -> settledg g -> render E frame g = Some (g', lgs, out) -> complete (g_nodes g') (g_ordered g').
Proof.
  intros HW HS Hr. destruct (render_quantum _ _ _ _ _ HW Hr) as (ns1 & ord & [Hre Hids Hlogs Hget Hord]).
  pose proof (reordered_complete _ _ _ HS Hre) as HC.
  pose proof (reordered_order _ _ _ HW Hre) as (N & L & T).
  assert (ND : NoDup (map l_id lgs)) by (rewrite Hids; exact N).
  rewrite Hord. intros i Hi.
  assert (Hli : live ns1 i).
  { destruct Hi as [m Hm]. rewrite Hget in Hm. apply (after_live ns1 lgs frame i Hlogs ND). eauto. }
  destruct (HC i Hli) as [Hin|(c & C1 & C2 & C3)].
  - left. apply prune_In. tauto.
  - right. exists c. split; [|split; [exact C2|]].
    + assert (Hkeep : forall x y, In x c -> In y c -> connected ns1 x y -> connected (g_nodes g') x y).
      { intros x y Hx Hy (n & e & En & He & Hd).
        assert (Hnf : forall z, In z c -> ~ In z (reclaimed lgs)).
        { intros z Hz Hzr. destruct (C3 z Hz) as [_ Hzo]. apply Hzo. rewrite <- Hids. apply freed_ids_In. exact Hzr. }
        assert (Hlx : exists m, after E ns1 lgs x = Some m).
        { apply (after_live ns1 lgs frame x Hlogs ND). split; [exists n; exact En|]. apply Hnf. exact Hx. }
        destruct Hlx as [m Hm]. exists m, e. rewrite Hget. split; [exact Hm|]. split; [|exact Hd].
        destruct (after_edges _ _ _ _ _ En Hm) as [X _]. rewrite X. unfold live_edges. apply filter_In.
        split; [exact He|]. rewrite Hd, (proj2 (mem_nIn _ _)); [reflexivity|]. apply Hnf. exact Hy. }
      destruct c as [|a l]; [destruct C1|]. cbn in C1 |- *.
      assert (Hch : forall l' x, In x (a :: l) -> incl l' (a :: l) -> chain (connected ns1) x l' a -> chain (connected (g_nodes g')) x l' a).
      { induction l' as [|y l' IH]; cbn; intros x Hx Hincl Hch.
        - apply Hkeep; [exact Hx|now left|exact Hch].
        - destruct Hch as [H1 H2]. split; [apply Hkeep; [exact Hx|apply Hincl; now left|exact H1]|].
          apply IH; [apply Hincl; now left| |exact H2]. intros z Hz. apply Hincl. now right. }
      apply Hch; [now left| |exact C1]. intros z Hz. now right.
    + intros x Hx. destruct (C3 x Hx) as [C4 C5]. split.
      * intros (m & Em & Hb). apply C4. rewrite Hget in Em.
        destruct (get ns1 x) as [n|] eqn:En; [|unfold after in Em; rewrite En in Em; discriminate].
        destruct (after_edges _ _ _ _ _ En Em) as (_ & _ & X & _). exists n. split; [exact En|congruence].
      * intros Hxo. apply prune_In in Hxo. tauto.
Qed.

Lemma settled_render frame g g' lgs out : WF g -> settledg g -> render E frame g = Some (g', lgs, out) -> settledg g'.
Proof. intros HW HS Hr. right. eapply complete_render; eauto. Qed.

(** ** Steps *)
Definition fieldwise (f : node -> node) : Prop :=
  forall n, n_edges (f n) = n_edges n /\ n_inputs (f n) = n_inputs n /\ n_outputs (f n) = n_outputs n /\
            n_connected (f n) = n_connected n.

(** the messages other than registration, (dis)connection and rendering change
    neither topology nor buffers *)
Lemma step_misc g op g' l : gstep E op g = Some (g', l) ->
  (exists id p ins outs cfg, op = OpAdd id p ins outs cfg /\ g' = add_node E g id p ins outs cfg /\ l = []) \/
  (exists src out dst port, op = OpConnect src out dst port /\ add_edge g src out dst port = Some g' /\ l = []) \/
  (exists src out dst port, op = OpDisconnect src out dst port /\ remove_edge g src out dst port = Some g' /\ l = []) \/
  (exists frame lgs o, op = OpRender frame /\ render E frame g = Some (g', lgs, o) /\ l = [lgs]) \/
  (exists i f, fieldwise f /\ g' = mk_graph (update (g_nodes g) i f) (g_ordered g) /\ l = [] /\
     (forall n, n_breaker (f n) = n_breaker n \/ op = OpBreaker i) /\
     (forall n, n_dropped (f n) = n_dropped n \/ op = OpDrop i) /\
     (forall j p ins outs cfg, op <> OpAdd j p ins outs cfg) /\
     match op with OpAdd _ _ _ _ _ | OpConnect _ _ _ _ | OpDisconnect _ _ _ _ | OpRender _ => False | _ => True end).
Proof.
  intros H. destruct op as [id p ins outs cfg|src out dst port|src out dst port|id|id|id f|id m|frame]; cbn in H.
  - injection H as <- <-. left. repeat eexists.
  - destruct (add_edge g src out dst port) as [g1|] eqn:X; [|discriminate]. injection H as <- <-.
    right; left. repeat eexists. exact X.
  - destruct (remove_edge g src out dst port) as [g1|] eqn:X; [|discriminate]. injection H as <- <-.
    right; right; left. repeat eexists. exact X.
  - unfold mark_dropped in H. destruct (id <? length (g_nodes g)); [|discriminate]. injection H as <- <-.
    right; right; right; right. eexists id, _.
    repeat match goal with |- _ /\ _ => split end; [|reflexivity|reflexivity| | | |exact I]; try (intros; cbn; auto; fail).
    + intros n; cbn; auto.
    + intros; discriminate.
  - unfold mark_breaker in H. destruct (get (g_nodes g) id) as [n|]; [|discriminate]. injection H as <- <-.
    right; right; right; right. eexists id, _.
    repeat match goal with |- _ /\ _ => split end; [|reflexivity|reflexivity| | | |exact I]; try (intros; cbn; auto; fail).
    + intros n'; cbn; auto.
    + intros; discriminate.
  - unfold set_cfg in H. destruct (get (g_nodes g) id) as [n|]; [|discriminate]. injection H as <- <-.
    right; right; right; right. eexists id, _.
    repeat match goal with |- _ /\ _ => split end; [|reflexivity|reflexivity| | | |exact I]; try (intros; cbn; auto; fail).
    + intros n'; cbn; auto.
    + intros; discriminate.
  - unfold route_message in H. destruct (get (g_nodes g) id) as [n|]; [|discriminate].
    destruct (m (n_proc n)) as [p'|]; [|discriminate]. injection H as <- <-.
    right; right; right; right. eexists id, _.
    repeat match goal with |- _ /\ _ => split end; [|reflexivity|reflexivity| | | |exact I]; try (intros; cbn; auto; fail).
    + intros n'; cbn; auto.
    + intros; discriminate.
  - destruct (render E frame g) as [[[g1 lgs] o]|] eqn:X; [|discriminate]. injection H as <- <-.
    right; right; right; left. repeat eexists. exact X.
Qed.

Lemma fieldwise_topo ns i f : fieldwise f -> same_topo ns (update ns i f).
Proof.
  intros H. apply same_topo_update. intros n. destruct (H n) as (A & B & C & _). rewrite A, B, C. tauto.
Qed.

Lemma step_WF g op g' l : WF g -> legal E g op -> gstep E op g = Some (g', l) -> WF g'.
Proof.
  intros HW HL Hs. destruct (step_misc _ _ _ _ Hs) as
    [(id & p & ins & outs & cfg & -> & -> & _)|[(src & out & dst & port & -> & Ha & _)|[(src & out & dst & port & -> & Ha & _)|
     [(frame & lgs & o & -> & Ha & _)|(i & f & Hf & -> & _)]]]].
  - apply WF_add; assumption.
  - eapply WF_connect; eauto.
  - eapply WF_disconnect; eauto.
  - eapply WF_render; eauto.
  - eapply same_topo_WF; [| |exact HW]; [apply fieldwise_topo; exact Hf|reflexivity].
Qed.

Lemma step_total g op : WF g -> legal E g op -> exists g' l, gstep E op g = Some (g', l).
Proof.
  intros HW HL. destruct op as [id p ins outs cfg|src out dst port|src out dst port|id|id|id f|id m|frame]; cbn in HL |- *.
  - eexists _, _. reflexivity.
  - destruct HL as [(n & En & _) _]. unfold add_edge. rewrite En. eexists _, _. reflexivity.
  - destruct HL as [n En]. unfold remove_edge. rewrite En. eexists _, _. reflexivity.
  - destruct HL as [n En]. unfold mark_dropped.
    rewrite (proj2 (Nat.ltb_lt _ _) (get_In _ _ _ En)). eexists _, _. reflexivity.
  - destruct HL as (n & En & _). unfold mark_breaker. rewrite En. eexists _, _. reflexivity.
  - destruct HL as [n En]. unfold set_cfg. rewrite En. eexists _, _. reflexivity.
  - destruct HL as (n & En & Hm). unfold route_message. rewrite En. destruct (m (n_proc n)); [|congruence]. eexists _, _. reflexivity.
  - destruct (render_total frame g HW HL) as (g' & lgs & o & H). rewrite H. eexists _, _. reflexivity.
Qed.

(** What is known of the ordering: nothing after a late registration, nothing is ordered after a change, all is ordered otherwise *)
Definition ordering (changed late : bool) g : Prop :=
  if late then True else if changed then g_ordered g = [] else complete (g_nodes g) (g_ordered g).

Lemma ordering_settled changed g : ordering changed false g -> settledg g.
Proof. destruct changed; intros H; [left|right]; exact H. Qed.

Lemma step_ordering changed late g op g' l ops : WF g -> ordering changed late g -> legal E g op -> in_time changed late (op :: ops) ->
  gstep E op g = Some (g', l) ->
  exists changed' late', ordering changed' late' g' /\ in_time changed' late' ops /\ (forall f, op = OpRender f -> settledg g).
Proof.
  intros HW HS HL HT Hs. destruct (step_misc _ _ _ _ Hs) as
    [(id & p & ins & outs & cfg & -> & -> & _)|[(src & out & dst & port & -> & Ha & _)|[(src & out & dst & port & -> & Ha & _)|
     [(frame & lgs & o & -> & Ha & _)|(i & f & Hf & -> & _ & Hb & _ & _ & Hm)]]]]; cbn [in_time] in HT.
  - exists changed, (late || changed). split; [|split; [exact HT|discriminate]]. unfold ordering in *. destruct late; [exact I|].
    destruct changed; [exact I|]. cbn. apply complete_add; [exact HS|exact HL|apply HW].
  - exists true, false. split; [|split; [exact HT|discriminate]]. unfold add_edge in Ha. destruct (get (g_nodes g) src); [|discriminate]. injection Ha as <-. reflexivity.
  - exists true, false. split; [|split; [exact HT|discriminate]]. unfold remove_edge in Ha. destruct (get (g_nodes g) src); [|discriminate]. injection Ha as <-. reflexivity.
  - destruct HT as [-> HT]. apply ordering_settled in HS. exists false, false. split; [|split; [exact HT|intros; exact HS]].
    unfold ordering. eapply complete_render; eauto.
  - exists changed, late. split; [|split].
    + unfold ordering in *. destruct late; [exact I|]. destruct changed; [exact HS|]. cbn [g_ordered g_nodes].
      eapply same_topo_complete; [apply fieldwise_topo; exact Hf| |exact HS].
      intros x (n & En & Hbr). destruct (Nat.eq_dec i x) as [<-|N].
      * rewrite get_update_eq in En. destruct (get (g_nodes g) i) as [m|] eqn:Em; [|discriminate].
        cbn in En. injection En as <-. destruct (Hb m) as [X| ->].
        -- left. exists m. split; [exact Em|congruence].
        -- right. destruct HL as (n & En & Hed). intros y (n' & e & En' & He & _).
           rewrite En in En'. injection En' as <-. rewrite Hed in He. destruct He.
      * rewrite get_update_neq in En by exact N. left. exists n. tauto.
    + destruct op; solve [exact HT|destruct Hm].
    + intros fr ->. destruct Hm.
Qed.

(** ** Input buffers are silent between quanta when everything is rendered *)
Definition allquiet g : Prop := forall i, quiet E (g_nodes g) i.

Lemma reordered_quiet g ns' ord i : reordered g ns' ord -> quiet E (g_nodes g) i -> quiet E ns' i.
Proof.
  intros H Hq n Hn. destruct (reordered_cut _ _ _ H i) as [X|(m & Em & _ & _ & X)].
  - rewrite X in Hn. apply Hq. exact Hn.
  - rewrite X in Hn. injection Hn as <-. cbn. apply Hq. exact Em.
Qed.

Lemma complete_all ns ord : complete ns ord -> (forall i, ~ on_delay_free_cycle ns i) ->
  forall i, live ns i -> In i ord.
Proof.
  intros HC Hn i Hi. destruct (HC i Hi) as [H|(c & C1 & C2 & C3)]; [exact H|].
  exfalso. apply (Hn i). exists c. split; [exact C1|]. split; [exact C2|]. intros x Hx. apply C3. exact Hx.
Qed.

Lemma quiet_after ns lgs ns' : (forall i, get ns' i = after E ns lgs i) ->
  (forall i, live ns i -> In i (map l_id lgs)) -> forall i, quiet E ns' i.
Proof.
  intros Hg Hall i m Hm. rewrite Hg in Hm. unfold after in Hm.
  destruct (get ns i) as [n|] eqn:En; [|discriminate].
  destruct (logged lgs i) as [lg|] eqn:El.
  - destruct (l_freed lg); [discriminate|]. destruct (l_result lg) as [[[p' o'] t]|]; [|discriminate].
    injection Hm as <-. cbn. rewrite repeat_length. tauto.
  - exfalso. assert (Hin : In i (map l_id lgs)) by (apply Hall; exists n; exact En).
    apply in_map_iff in Hin. destruct Hin as (lg & Hid & Hlg).
    pose proof (find_none _ _ El lg Hlg) as X. cbn in X. rewrite Hid, Nat.eqb_refl in X. discriminate.
Qed.

Lemma step_quiet g op g' l : WF g -> (forall f, op = OpRender f -> settledg g) -> allquiet g -> legal E g op -> no_cycle_when_rendering g op ->
  gstep E op g = Some (g', l) -> allquiet g'.
Proof.
  intros HW HS HQ HL HN Hs. destruct (step_misc _ _ _ _ Hs) as
    [(id & p & ins & outs & cfg & -> & -> & _)|[(src & out & dst & port & -> & Ha & _)|[(src & out & dst & port & -> & Ha & _)|
     [(frame & lgs & o & -> & Ha & _)|(i & f & Hf & -> & _)]]]].
  - intros i n Hn. cbn in Hn. rewrite get_insert in Hn. destruct (Nat.eqb id i).
    + injection Hn as <-. cbn. rewrite repeat_length. tauto.
    + apply (HQ i). exact Hn.
  - unfold add_edge in Ha. destruct (get (g_nodes g) src) as [n0|] eqn:En0; [|discriminate]. injection Ha as <-.
    intros i n Hn. cbn in Hn. destruct (Nat.eq_dec src i) as [<-|N].
    + rewrite get_update_eq, En0 in Hn. cbn in Hn. injection Hn as <-. cbn. apply (HQ src). exact En0.
    + rewrite get_update_neq in Hn by exact N. apply (HQ i). exact Hn.
  - unfold remove_edge in Ha. destruct (get (g_nodes g) src) as [n0|] eqn:En0; [|discriminate]. injection Ha as <-.
    intros i n Hn. cbn in Hn. destruct (Nat.eq_dec src i) as [<-|N].
    + rewrite get_update_eq, En0 in Hn. cbn in Hn. injection Hn as <-. cbn. apply (HQ src). exact En0.
    + rewrite get_update_neq in Hn by exact N. apply (HQ i). exact Hn.
  - destruct (render_quantum _ _ _ _ _ HW Ha) as (ns1 & ord & [Hre Hids Hlogs Hget Hord]).
    intros i. eapply quiet_after; [exact Hget|]. rewrite Hids.
    apply complete_all; [eapply reordered_complete; [apply (HS frame eq_refl)|exact Hre]|].
    intros j Hj. apply (cut_delay_free _ _ j (reordered_cut _ _ _ Hre)) in Hj. exact (HN j Hj).
  - intros j n Hn. cbn in Hn. destruct (Nat.eq_dec i j) as [<-|N].
    + rewrite get_update_eq in Hn. destruct (get (g_nodes g) i) as [m|] eqn:Em; [|discriminate].
      cbn in Hn. injection Hn as <-. destruct (Hf m) as (_ & B & _ & D). rewrite B, D. apply (HQ i). exact Em.
    + rewrite get_update_neq in Hn by exact N. apply (HQ j). exact Hn.
Qed.

(** ** Histories *)
Lemma along_and (C1 C2 : graph -> gop -> Prop) ops : forall g, along E C1 g ops -> along E C2 g ops ->
  along E (fun g op => C1 g op /\ C2 g op) g ops.
Proof.
  induction ops as [|op ops IH]; cbn; [tauto|]. intros g [A1 A2] [B1 B2]. split; [tauto|].
  intros g' l H. apply IH; eauto.
Qed.

Lemma run_inv (I : graph -> Prop) (C : graph -> gop -> Prop) ops :
  (forall g op g' l, I g -> C g op -> gstep E op g = Some (g', l) -> I g') ->
  forall g, I g -> along E C g ops -> forall g' ls, grun E ops g = Some (g', ls) -> I g'.
Proof.
  intros Hstep. induction ops as [|op ops IH]; cbn; intros g HI HC g' ls Hr.
  - injection Hr as <- <-. exact HI.
  - destruct (gstep E op g) as [[g1 l1]|] eqn:E1; [|discriminate].
    destruct (grun E ops g1) as [[g2 l2]|] eqn:E2; [|discriminate]. injection Hr as <- <-.
    eapply IH; [| |exact E2].
    + eapply Hstep; [exact HI|apply HC|exact E1].
    + eapply HC. reflexivity.
Qed.

Lemma get_repeat_None k i : get (repeat None k : nodes) i = None.
Proof.
  unfold get. destruct (nth_error (repeat None k) i) as [x|] eqn:X; [|reflexivity].
  apply nth_error_In, repeat_spec in X. subst. reflexivity.
Qed.

Lemma graph_new_dead i : ~ live (g_nodes (graph_new : graph)) i.
Proof. intros [n Hn]. cbn [graph_new g_nodes] in Hn. rewrite get_repeat_None in Hn. discriminate. Qed.

Lemma WF_new : WF graph_new.
Proof.
  split; [|split].
  - intros a b (n & e & Hn & _). exfalso. apply (graph_new_dead a). exists n; exact Hn.
  - intros a n e Hn. exfalso. apply (graph_new_dead a). exists n; exact Hn.
  - split; [constructor|]. split; [intros i []|intros a b []].
Qed.

Lemma settled_new : settledg graph_new.
Proof. left. reflexivity. Qed.

Lemma allquiet_new : allquiet graph_new.
Proof. intros i n Hn. exfalso. apply (graph_new_dead i). exists n; exact Hn. Qed.

Lemma run_WF ops : forall g, WF g -> along E (legal E) g ops ->
  exists g' ls, grun E ops g = Some (g', ls) /\ WF g'.
Proof.
  induction ops as [|op ops IH]; cbn; intros g HW HL.
  - exists g, []. tauto.
  - destruct HL as [HL HL']. destruct (step_total g op HW HL) as (g1 & l1 & E1). rewrite E1.
    destruct (IH g1) as (g2 & l2 & E2 & HW2).
    + eapply step_WF; eauto.
    + eapply HL'. exact E1.
    + rewrite E2. exists g2, (l1 ++ l2). tauto.
Qed.

Lemma run_ordering ops : forall changed late g g' ls, WF g -> ordering changed late g -> along E (legal E) g ops -> in_time changed late ops ->
  grun E ops g = Some (g', ls) -> WF g' /\ settledg g' /\ (allquiet g -> along E no_cycle_when_rendering g ops -> allquiet g').
Proof.
  induction ops as [|op ops IH]; intros changed late g g' ls HW HS HL HT Hr; cbn [grun along] in *.
  - injection Hr as <- <-. cbn in HT. subst late. split; [exact HW|]. split; [eapply ordering_settled; exact HS|tauto].
  - destruct (gstep E op g) as [[g1 l1]|] eqn:E1; [|discriminate].
    destruct (grun E ops g1) as [[g2 l2]|] eqn:E2; [|discriminate]. injection Hr as <- <-. destruct HL as [HL HL'].
    destruct (step_ordering changed late g op g1 l1 ops HW HS HL HT E1) as (changed' & late' & HS' & HT' & Hren).
    destruct (IH changed' late' g1 g2 l2 (step_WF g op g1 l1 HW HL E1) HS' (HL' g1 l1 eq_refl) HT' E2) as (A & B & C).
    split; [exact A|]. split; [exact B|]. intros HQ [HN HN'].
    apply C; [exact (step_quiet g op g1 l1 HW Hren HQ HL HN E1)|exact (HN' g1 l1 eq_refl)].
Qed.

Lemma ordering_new : ordering false false graph_new.
Proof. intros i Hi. destruct (graph_new_dead i Hi). Qed.

Lemma run_settled ops g' ls : along E (legal E) graph_new ops -> registrations_in_time ops ->
  grun E ops graph_new = Some (g', ls) -> WF g' /\ settledg g'.
Proof.
  intros A B Hr. destruct (run_ordering ops false false graph_new g' ls WF_new ordering_new A B Hr) as (C & D & _). split; assumption.
Qed.

Lemma run_quiet ops g' ls : along E (legal E) graph_new ops -> registrations_in_time ops ->
  along E no_cycle_when_rendering graph_new ops ->
  grun E ops graph_new = Some (g', ls) -> WF g' /\ settledg g' /\ allquiet g'.
Proof.
  intros A B N Hr. destruct (run_ordering ops false false graph_new g' ls WF_new ordering_new A B Hr) as (C & D & F).
  split; [exact C|]. split; [exact D|]. apply F; [apply allquiet_new|exact N].
Qed.

Lemma grun_app ops1 : forall ops2 g g' ls, grun E (ops1 ++ ops2) g = Some (g', ls) ->
  exists g1 l1 l2, grun E ops1 g = Some (g1, l1) /\ grun E ops2 g1 = Some (g', l2) /\ ls = l1 ++ l2.
Proof.
  induction ops1 as [|op ops1 IH]; cbn; intros ops2 g g' ls H.
  - exists g, [], ls. tauto.
  - destruct (gstep E op g) as [[g1 l1]|]; [|discriminate].
    destruct (grun E (ops1 ++ ops2) g1) as [[g2 l2]|] eqn:E2; [|discriminate]. injection H as <- <-.
    destruct (IH _ _ _ _ E2) as (g3 & l3 & l4 & -> & E4 & ->).
    exists g3, (l1 ++ l3), l4. rewrite E4, app_assoc. tauto.
Qed.

Lemma along_app (C : graph -> gop -> Prop) ops1 : forall ops2 g g1 l1,
  along E C g (ops1 ++ ops2) -> grun E ops1 g = Some (g1, l1) -> along E C g ops1 /\ along E C g1 ops2.
Proof.
  induction ops1 as [|op ops1 IH]; cbn; intros ops2 g g1 l1 HA Hr.
  - injection Hr as <- <-. tauto.
  - destruct HA as [A1 A2]. destruct (gstep E op g) as [[g2 l2]|] eqn:E1; [|discriminate].
    destruct (grun E ops1 g2) as [[g3 l3]|] eqn:E2; [|discriminate]. injection Hr as <- <-.
    destruct (IH _ _ _ _ (A2 _ _ eq_refl) E2) as [B1 B2]. split; [|exact B2].
    split; [exact A1|]. intros g' l X. injection X as <- <-. exact B1.
Qed.

(** the drop flag is only set by the drop message *)
Definition undropped id g : Prop := forall n, get (g_nodes g) id = Some n -> n_dropped n = false.

Lemma step_undropped id g op g' l : WF g -> undropped id g -> op <> OpDrop id ->
  gstep E op g = Some (g', l) -> undropped id g'.
Proof.
  intros HW HU Hop Hs. destruct (step_misc _ _ _ _ Hs) as
    [(id' & p & ins & outs & cfg & -> & -> & _)|[(src & out & dst & port & -> & Ha & _)|[(src & out & dst & port & -> & Ha & _)|
     [(frame & lgs & o & -> & Ha & _)|(i & f & Hf & -> & _ & _ & Hd & _)]]]].
  - intros n Hn. cbn in Hn. rewrite get_insert in Hn. destruct (Nat.eqb id' id).
    + injection Hn as <-. reflexivity.
    + apply HU. exact Hn.
  - unfold add_edge in Ha. destruct (get (g_nodes g) src) as [n0|] eqn:En0; [|discriminate]. injection Ha as <-.
    intros n Hn. cbn in Hn. destruct (Nat.eq_dec src id) as [<-|N].
    + rewrite get_update_eq, En0 in Hn. cbn in Hn. injection Hn as <-. cbn. apply HU. exact En0.
    + rewrite get_update_neq in Hn by exact N. apply HU. exact Hn.
  - unfold remove_edge in Ha. destruct (get (g_nodes g) src) as [n0|] eqn:En0; [|discriminate]. injection Ha as <-.
    intros n Hn. cbn in Hn. destruct (Nat.eq_dec src id) as [<-|N].
    + rewrite get_update_eq, En0 in Hn. cbn in Hn. injection Hn as <-. cbn. apply HU. exact En0.
    + rewrite get_update_neq in Hn by exact N. apply HU. exact Hn.
  - destruct (render_quantum _ _ _ _ _ HW Ha) as (ns1 & ord & [Hre Hids Hlogs Hget Hord]).
    intros m Hm. rewrite Hget in Hm.
    destruct (get ns1 id) as [n|] eqn:En; [|unfold after in Hm; rewrite En in Hm; discriminate].
    destruct (after_edges _ _ _ _ _ En Hm) as (_ & X & _). rewrite X.
    destruct (reordered_cut _ _ _ Hre id) as [Y|(m' & Em & _ & _ & Y)].
    + apply HU. rewrite <- Y. exact En.
    + rewrite Y in En. injection En as <-. cbn. apply HU. exact Em.
  - intros n Hn. cbn in Hn. destruct (Nat.eq_dec i id) as [<-|N].
    + rewrite get_update_eq in Hn. destruct (get (g_nodes g) i) as [m|] eqn:Em; [|discriminate].
      cbn in Hn. injection Hn as <-. destruct (Hd m) as [X|X]; [|congruence]. rewrite X. apply HU. exact Em.
    + rewrite get_update_neq in Hn by exact N. apply HU. exact Hn.
Qed.

Lemma along_not_drop id ops : ~ In (OpDrop id) ops -> forall g, along E (fun _ op => op <> OpDrop id) g ops.
Proof.
  induction ops as [|op ops IH]; cbn; [tauto|]. intros H g. split; [intros ->; apply H; now left|].
  intros g' l _. apply IH. tauto.
Qed.

Lemma run_undropped id ops g ls : along E (legal E) graph_new ops -> handle_alive id ops ->
  grun E ops graph_new = Some (g, ls) -> undropped id g.
Proof.
  intros HL (ops1 & p & ins & outs & cfg & ops2 & -> & Hnd) Hr.
  destruct (grun_app _ _ _ _ _ Hr) as (g1 & l1 & l2 & E1 & E2 & _).
  destruct (along_app _ _ _ _ _ _ HL E1) as [A1 A2].
  destruct (run_WF ops1 graph_new WF_new A1) as (g1' & l1' & E1' & HW1).
  rewrite E1 in E1'. injection E1' as <- <-.
  cbn in E2. destruct (grun E ops2 (add_node E g1 id p ins outs cfg)) as [[g2 l3]|] eqn:E3; [|discriminate].
  injection E2 as <- <-. destruct A2 as [A2 A3]. specialize (A3 _ _ eq_refl).
  apply (run_inv (fun g => WF g /\ undropped id g) (fun g op => legal E g op /\ op <> OpDrop id) ops2)
    with (g := add_node E g1 id p ins outs cfg) (ls := l3) in E3.
  - apply E3.
  - intros g' op g'' l [H1 H2] [C1 C2] Hs. split; [eapply step_WF; eauto|eapply step_undropped; eauto].
  - split; [apply WF_add; assumption|]. intros n Hn. cbn in Hn. rewrite get_insert, Nat.eqb_refl in Hn.
    injection Hn as <-. reflexivity.
  - apply along_and; [exact A3|apply along_not_drop; exact Hnd].
Qed.

(** ** Identifiers are reclaimed exactly once *)
Definition liveb ns (i : nat) : nat := match get ns i with Some _ => 1 | None => 0 end.

Lemma liveb_update ns i j f : liveb (update ns i f) j = liveb ns j.
Proof.
  unfold liveb. destruct (Nat.eq_dec i j) as [<-|N].
  - rewrite get_update_eq. destruct (get ns i); reflexivity.
  - rewrite get_update_neq by exact N. reflexivity.
Qed.

Lemma count_NoDup (l : list nat) i : NoDup l -> length (filter (Nat.eqb i) l) = if mem i l then 1 else 0.
Proof.
  induction 1 as [|x l Hx ND IH]; [reflexivity|]. unfold mem in *. cbn. destruct (Nat.eqb_spec i x) as [->|N]; cbn.
  - rewrite IH. assert (X : existsb (Nat.eqb x) l = false) by (apply mem_nIn; exact Hx). rewrite X. reflexivity.
  - exact IH.
Qed.

Lemma NoDup_map_filter {A} (f : A -> nat) (h : A -> bool) l : NoDup (map f l) -> NoDup (map f (filter h l)).
Proof.
  induction l as [|x l IH]; cbn; intros H; [constructor|]. inversion H as [|? ? N1 N2]; subst.
  destruct (h x); cbn; [|apply IH; exact N2]. constructor; [|apply IH; exact N2].
  intros X. apply N1. apply in_map_iff in X. destruct X as (y & <- & Y). apply filter_In in Y. apply in_map. tauto.
Qed.

Lemma step_count id g op g' l : WF g -> legal E g op -> gstep E op g = Some (g', l) ->
  adds id [op] + liveb (g_nodes g) id = reclaims id l + liveb (g_nodes g') id.
Proof.
  intros HW HL Hs. destruct (step_misc _ _ _ _ Hs) as
    [(id' & p & ins & outs & cfg & -> & -> & ->)|[(src & out & dst & port & -> & Ha & ->)|[(src & out & dst & port & -> & Ha & ->)|
     [(frame & lgs & o & -> & Ha & ->)|(i & f & Hf & -> & -> & _ & _ & Hno)]]]].
  - cbn. unfold liveb. cbn. rewrite get_insert. destruct (Nat.eqb_spec id' id) as [->|N]; cbn.
    + destruct (get (g_nodes g) id) as [n|] eqn:En; [|reflexivity]. exfalso. apply HL. exists n; exact En.
    + reflexivity.
  - unfold add_edge in Ha. destruct (get (g_nodes g) src) as [n0|]; [|discriminate]. injection Ha as <-.
    cbn. rewrite liveb_update. reflexivity.
  - unfold remove_edge in Ha. destruct (get (g_nodes g) src) as [n0|]; [|discriminate]. injection Ha as <-.
    cbn. rewrite liveb_update. reflexivity.
  - destruct (render_quantum _ _ _ _ _ HW Ha) as (ns1 & ord & [Hre Hids Hlogs Hget Hord]).
    pose proof (reordered_order _ _ _ HW Hre) as (N & L & T).
    assert (ND : NoDup (map l_id lgs)) by (rewrite Hids; exact N).
    cbn. unfold reclaims. cbn. rewrite app_nil_r, count_NoDup by (apply NoDup_map_filter; exact ND).
    unfold liveb. pose proof (cut_live _ _ id (reordered_cut _ _ _ Hre)) as Hcl.
    pose proof (after_live ns1 lgs frame id Hlogs ND) as Hal. rewrite Hget.
    unfold live in *.
    destruct (mem id (reclaimed lgs)) eqn:Em.
    + apply mem_In in Em.
      assert (Hl1 : exists n, get ns1 id = Some n).
      { apply L. rewrite <- Hids. apply freed_ids_In. exact Em. }
      apply Hcl in Hl1. destruct Hl1 as [n ->].
      destruct (after E ns1 lgs id) as [m|] eqn:Ea; [|reflexivity].
      exfalso. assert (X : exists m0, Some m = Some m0) by eauto. apply Hal in X. tauto.
    + apply mem_nIn in Em. cbn. destruct (get (g_nodes g) id) as [n|] eqn:En.
      * assert (X : exists n0, get ns1 id = Some n0) by (apply Hcl; eauto).
        destruct (after E ns1 lgs id) as [m|] eqn:Ea; [reflexivity|].
        exfalso. assert (Y : exists m, None = Some m) by (apply Hal; tauto). destruct Y; discriminate.
      * destruct (after E ns1 lgs id) as [m|] eqn:Ea; [|reflexivity].
        exfalso. assert (Y : exists m0, Some m = Some m0) by eauto. apply Hal in Y. destruct Y as [Y _].
        apply Hcl in Y. destruct Y; discriminate.
  - cbn. rewrite liveb_update.
    assert (Ha : adds id [op] = 0).
    { destruct op as [j p ins outs cfg| | | | | | |]; try reflexivity. exfalso. eapply (proj1 Hno). reflexivity. }
    unfold adds in Ha. cbn in Ha. rewrite Ha. reflexivity.
Qed.

Lemma adds_cons id op (ops : list gop) : adds id (op :: ops) = adds id [op] + adds id ops.
Proof. unfold adds. cbn. destruct (match op with OpAdd i _ _ _ _ => i =? id | _ => false end); reflexivity. Qed.

Lemma reclaims_app id (l1 l2 : list (list step_log)) : reclaims id (l1 ++ l2) = reclaims id l1 + reclaims id l2.
Proof. unfold reclaims. rewrite flat_map_app, filter_app, app_length. reflexivity. Qed.

Lemma run_count id ops : forall g g' ls, WF g -> along E (legal E) g ops -> grun E ops g = Some (g', ls) ->
  adds id ops + liveb (g_nodes g) id = reclaims id ls + liveb (g_nodes g') id.
Proof.
  induction ops as [|op ops IH]; cbn [grun along]; intros g g' ls HW HL Hr.
  - injection Hr as <- <-. reflexivity.
  - destruct HL as [HL HL']. destruct (gstep E op g) as [[g1 l1]|] eqn:E1; [|discriminate].
    destruct (grun E ops g1) as [[g2 l2]|] eqn:E2; [|discriminate]. injection Hr as <- <-.
    pose proof (step_count id g op g1 l1 HW HL E1) as S1.
    pose proof (IH g1 g2 l2 (step_WF _ _ _ _ HW HL E1) (HL' _ _ eq_refl) E2) as S2.
    rewrite adds_cons, reclaims_app. lia.
Qed.

End TraceProofs.
