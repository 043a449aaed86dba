(** Proofs about the diagnostics. *)
From Coq Require Import List Arith Bool Lia.
From Verif Require Import Graph_Model Graph_Spec Graph_TraceModel Graph_TraceSpec Graph_OrderProofs Graph_RenderProofs Graph_TraceProofs Graph_MainProofs Diag_Model Diag_Spec.
Import ListNotations.

Section Diag.
Context {P Q CFG : Type}.
Variable E : env P Q CFG.
Hypothesis EOK : env_ok E.
Variable channels : Q -> nat.
Notation nodes := (nodes P Q CFG).
Notation graph := (graph P Q CFG).
Notation gop := (gop P CFG).

(** ** The report as lists *)
Definition found (g : nodes) (ids : list nat) : list (nat * node P Q CFG) :=
  flat_map (fun id => match get g id with Some n => [(id, n)] | None => [] end) ids.
Lemma report_loop_eq : forall g ids c b acc,
  report_loop E channels g ids c b acc =
  (c + list_sum (map (fun p => length (n_edges (snd p))) (found g ids)),
   b ++ map fst (filter (fun p => n_breaker (snd p)) (found g ids)),
   acc ++ map (fun p => report_node E channels (fst p) (snd p)) (found g ids)).
Proof.
  intros g ids. induction ids as [|i ids IH]; intros c b acc; cbn [report_loop].
  - cbn. rewrite !app_nil_r, Nat.add_0_r. reflexivity.
  - unfold found. cbn [flat_map]. destruct (get g i) as [n|] eqn:En; rewrite IH; fold (found g ids); [|reflexivity].
    cbn [app map filter fst snd list_sum fold_right]. f_equal; [f_equal|].
    + unfold list_sum. lia.
    + destruct (n_breaker n); cbn [map fst]; rewrite <- ?app_assoc; reflexivity.
    + rewrite <- app_assoc. reflexivity.
Qed.
Lemma found_In : forall g ids i n, In (i, n) (found g ids) <-> In i ids /\ get g i = Some n.
Proof.
  intros g ids i n. unfold found. rewrite in_flat_map. split.
  - intros (j & Hj & H). destruct (get g j) as [m|] eqn:Em; [|destruct H]. destruct H as [H|[]]. injection H as <- <-. auto.
  - intros [H1 H2]. exists i. split; [exact H1|]. rewrite H2. now left.
Qed.
Lemma found_ids : forall g ids, (forall i, In i ids -> live g i) -> map fst (found g ids) = ids.
Proof.
  intros g ids H. induction ids as [|i ids IH]; [reflexivity|]. unfold found. cbn [flat_map]. fold (found g ids).
  destruct (H i (or_introl eq_refl)) as [n Hn]. rewrite Hn. cbn [app map fst]. f_equal. apply IH. intros j Hj. apply H. now right.
Qed.
Definition listed (g : nodes) := found g (keys g).
Lemma listed_In : forall g i n, In (i, n) (listed g) <-> get g i = Some n.
Proof.
  intros g i n. unfold listed. rewrite found_In, keys_In. split; [tauto|]. intros H. split; [exists n; exact H|exact H].
Qed.
Lemma report_eq : forall d, diagnostics E channels d =
  mk_graph_report (is_active (fst d)) (length (listed (g_nodes (fst d))))
    (list_sum (map (fun p => length (n_edges (snd p))) (listed (g_nodes (fst d))))) (g_ordered (fst d)) (snd d)
    (map fst (filter (fun p => n_breaker (snd p)) (listed (g_nodes (fst d)))))
    (map (fun p => report_node E channels (fst p) (snd p)) (listed (g_nodes (fst d)))).
Proof.
  intros d. unfold diagnostics. rewrite report_loop_eq. cbn [Nat.add app]. rewrite map_length. reflexivity.
Qed.
Lemma ids_eq : forall d, map r_id (r_nodes (diagnostics E channels d)) = keys (g_nodes (fst d)).
Proof.
  intros d. rewrite report_eq. cbn [r_nodes]. rewrite map_map. cbn [r_id report_node]. unfold listed.
  apply found_ids. intros i. apply keys_In.
Qed.
Lemma node_In : forall d r, In r (r_nodes (diagnostics E channels d)) <->
  exists n, get (g_nodes (fst d)) (r_id r) = Some n /\ r = report_node E channels (r_id r) n.
Proof.
  intros d r. rewrite report_eq. cbn [r_nodes]. rewrite in_map_iff. split.
  - intros ([i n] & <- & H). apply listed_In in H. exists n. split; [exact H|reflexivity].
  - intros (n & H & Hr). exists (r_id r, n). split; [symmetry; exact Hr|]. apply listed_In. exact H.
Qed.

(** ** Histories *)
Lemma drun_grun : forall ops d d' ls, drun E ops d = Some (d', ls) -> grun E ops (fst d) = Some (fst d', ls).
Proof.
  induction ops as [|op ops IH]; intros d d' ls H; cbn [drun grun] in *; [injection H as <- <-; reflexivity|].
  unfold dstep in H. destruct (gstep E op (fst d)) as [[g1 l1]|]; [|discriminate].
  destruct (drun E ops _) as [[d2 l2]|] eqn:E2; [|discriminate]. injection H as <- <-. apply IH in E2. cbn [fst] in E2. rewrite E2. reflexivity.
Qed.
Lemma grun_drun : forall ops d g' ls, grun E ops (fst d) = Some (g', ls) -> exists cyc, drun E ops d = Some ((g', cyc), ls).
Proof.
  induction ops as [|op ops IH]; intros [g c] g' ls H; cbn [drun grun fst] in *; [injection H as <- <-; exists c; reflexivity|].
  unfold dstep. cbn [fst]. destruct (gstep E op g) as [[g1 l1]|]; [|discriminate].
  destruct (grun E ops g1) as [[g2 l2]|] eqn:E2; [|discriminate]. injection H as <- <-.
  match goal with |- context [drun E ops ?d1] => destruct (IH d1 g2 l2 E2) as (cyc & Hc) end. rewrite Hc. exists cyc. reflexivity.
Qed.

(** what is known of [in_cycle]: its nodes exist and are not ordered, and unless the ordering is out of date the two
    lists cover the graph *)
Definition cinv (changed late : bool) (d : dgraph P Q CFG) : Prop :=
  WF (fst d) /\ (forall i, In i (snd d) -> live (g_nodes (fst d)) i) /\ (forall i, In i (g_ordered (fst d)) -> ~ In i (snd d)) /\
  (if late then True else if changed then g_ordered (fst d) = [] else
     forall i, live (g_nodes (fst d)) i -> In i (g_ordered (fst d)) \/ In i (snd d)).
Lemma on_cycle_live : forall (g : nodes) c i, is_cycle (connected g) c -> In i c -> live g i.
Proof. intros g c i H Hi. destruct (is_cycle_out g c i H Hi) as (y & n & e & Hn & _). exists n. exact Hn. Qed.

Lemma render_cinv : forall changed frame g g' lgs o cyc cyc', cinv changed false (g, cyc) -> render E frame g = Some (g', lgs, o) ->
  cyc' = (match g_ordered g with [] => match order_nodes (g_nodes g) with ORet _ _ c => c | _ => cyc end | _ => cyc end) ->
  cinv false false (g', cyc').
Proof.
  intros changed frame g g' lgs o cyc cyc' (HW & HC & HO & HA) Hr Hc. cbn [fst snd] in *.
  destruct (render_quantum E EOK _ _ _ _ _ HW Hr) as (ns1 & ord & [Hre Hids Hlogs Hget Hord]).
  pose proof (reordered_order _ _ _ HW Hre) as (N & L & T).
  assert (NoDup (map l_id lgs)) as ND by (rewrite Hids; exact N).
  assert (HL : forall i, live (g_nodes g') i <-> live ns1 i /\ ~ In i (reclaimed lgs)).
  { intros i. unfold live at 1. rewrite Hget. apply (after_live E ns1 lgs frame i Hlogs ND). }
  assert (HR : forall i, In i (reclaimed lgs) -> In i ord).
  { intros i Hi. apply reclaimed_In in Hi. destruct Hi as (lg & Hl & <- & _). rewrite <- Hids. apply in_map. exact Hl. }
  assert ((forall i, In i cyc' -> live ns1 i) /\ (forall i, In i ord -> ~ In i cyc') /\ (forall i, live ns1 i -> In i ord \/ In i cyc')) as (H1 & H2 & H3).
  { destruct Hre as [(Ho & -> & ->)|(Ho & cyc0 & Hc0 & Hp)].
    - destruct (g_ordered g) as [|x xs] eqn:Ex; [congruence|]. subst cyc'. split; [exact HC|]. split; [exact HO|].
      destruct changed; [congruence|exact HA].
    - rewrite Ho, Hc0 in Hc. subst cyc'. destruct Hp as (_ & _ & P3 & P4 & P5 & _). split; [|split; assumption].
      intros i Hi. destruct (P3 i Hi) as (c & C1 & C2 & _). exact (on_cycle_live _ _ _ C1 C2). }
  split; [cbn [fst]; exact (WF_render E EOK _ _ _ _ _ HW Hr)|]. cbn [fst snd]. split; [|split].
  - intros i Hi. apply HL. split; [apply H1; exact Hi|]. intros HH. exact (H2 i (HR i HH) Hi).
  - intros i Hi. rewrite Hord in Hi. apply prune_In in Hi. apply H2. apply Hi.
  - intros i Hi. destruct (H3 i (proj1 (proj1 (HL i) Hi))) as [H|H]; [left|right; exact H]. rewrite Hord. apply prune_In. split; assumption.
Qed.

Lemma step_cinv : forall changed late d op d' l ops, cinv changed late d -> legal E (fst d) op -> in_time changed late (op :: ops) ->
  dstep E op d = Some (d', l) -> exists changed' late', cinv changed' late' d' /\ in_time changed' late' ops /\
    match op with OpRender _ => changed' = false /\ late' = false | _ => True end.
Proof.
  intros changed late [g cyc] op d' l ops HI HL HT Hs. unfold dstep in Hs. cbn [fst snd] in *.
  destruct (gstep E op g) as [[g' l']|] eqn:Eg; [|discriminate]. pose proof HI as (HW & HC & HO & HA). cbn [fst snd] in HW, HC, HO, HA.
  pose proof (step_WF E EOK g op g' l' HW HL Eg) as HW'.
  destruct (step_misc _ _ _ _ _ Eg) as
    [(id & p & ins & outs & cfg & -> & -> & _)|[(src & out & dst & port & -> & Ha & _)|[(src & out & dst & port & -> & Ha & _)|
     [(frame & lgs & o & -> & Ha & _)|(i & f & Hf & -> & _ & Hb & _ & _ & Hm)]]]]; cbn [in_time] in HT; cbv zeta in Hs.
  - injection Hs as <- <-. exists changed, (late || changed). split; [|split; [exact HT|exact I]]. split; [exact HW'|]. cbn [fst snd add_node g_nodes g_ordered] in *. split; [|split].
    + intros i Hi. destruct (HC i Hi) as [n Hn]. unfold live. rewrite get_insert. destruct (id =? i); eauto.
    + intros i Hi Hc. apply in_app_or in Hi. destruct Hi as [Hi|[<-|[]]]; [exact (HO i Hi Hc)|]. apply HL. exact (HC id Hc).
    + destruct late; [exact I|]. destruct changed; [exact I|]. cbn [orb]. intros i [n Hn]. rewrite get_insert in Hn.
      destruct (Nat.eqb_spec id i) as [->|Ne]; [left; apply in_or_app; right; now left|].
      destruct (HA i (ex_intro _ n Hn)) as [H|H]; [left; apply in_or_app; now left|now right].
  - injection Hs as <- <-. exists true, false. split; [|split; [exact HT|exact I]]. split; [exact HW'|]. unfold add_edge in Ha. destruct (get (g_nodes g) src); [|discriminate]. injection Ha as <-.
    cbn [fst snd g_nodes g_ordered]. split; [|split; [intros i []|reflexivity]]. intros i Hi. apply live_update. exact (HC i Hi).
  - injection Hs as <- <-. exists true, false. split; [|split; [exact HT|exact I]]. split; [exact HW'|]. unfold remove_edge in Ha. destruct (get (g_nodes g) src); [|discriminate]. injection Ha as <-.
    cbn [fst snd g_nodes g_ordered]. split; [|split; [intros i []|reflexivity]]. intros i Hi. apply live_update. exact (HC i Hi).
  - destruct HT as [-> HT]. injection Hs as <- <-. exists false, false. split; [|split; [exact HT|auto]].
    eapply render_cinv; [exact HI|exact Ha|reflexivity].
  - assert (d' = (mk_graph (update (g_nodes g) i f) (g_ordered g), cyc)) as ->.
    { destruct op; try (now destruct Hm); injection Hs as <- <-; reflexivity. }
    exists changed, late. split; [|split; [destruct op; solve [exact HT|destruct Hm]|destruct op; solve [exact I|destruct Hm]]].
    split; [exact HW'|]. cbn [fst snd g_nodes g_ordered]. split; [|split; [exact HO|]].
    + intros j Hj. apply live_update. exact (HC j Hj).
    + destruct late; [exact I|]. destruct changed; [exact HA|]. intros j Hj. exact (HA j (proj1 (live_update (g_nodes g) i f j) Hj)).
Qed.
Lemma run_cinv : forall ops changed late d d' ls, cinv changed late d -> along E (legal E) (fst d) ops -> in_time changed late ops ->
  drun E ops d = Some (d', ls) -> exists changed', cinv changed' false d'.
Proof.
  induction ops as [|op ops IH]; intros changed late d d' ls HI HL HT H; cbn [drun along] in *.
  - injection H as <- <-. cbn in HT. subst late. exists changed. exact HI.
  - destruct (dstep E op d) as [[d1 l1]|] eqn:E1; [|discriminate]. destruct (drun E ops d1) as [[d2 l2]|] eqn:E2; [|discriminate]. injection H as <- <-.
    destruct HL as [HL HL']. destruct (step_cinv _ _ _ _ _ _ _ HI HL HT E1) as (c' & t' & HI' & HT' & _).
    eapply IH; [exact HI'| |exact HT'|exact E2]. unfold dstep in E1. destruct (gstep E op (fst d)) as [[g' l']|]; [|discriminate].
    injection E1 as <- <-. cbn [fst]. exact (HL' g' l' eq_refl).
Qed.
Lemma cinv_new : cinv false false (graph_new, []).
Proof.
  split; [apply WF_new|]. cbn [fst snd]. split; [intros i []|]. split; [intros i []|]. intros i H. destruct (graph_new_dead i H).
Qed.
(** ** Connections come from connect calls *)
Lemma made_more : forall (ops : list gop) (op : gop) a out dst port, made ops a out dst port -> op <> OpDisconnect a out dst port ->
  (forall p ins outs cfg, op <> OpAdd a p ins outs cfg) -> made (ops ++ [op]) a out dst port.
Proof.
  intros ops op a out dst port (o1 & o2 & -> & H1 & H2) N1 N2. exists o1, (o2 ++ [op]). split; [rewrite <- app_assoc; reflexivity|]. split.
  - intros H. apply in_app_or in H. destruct H as [H|[H|[]]]; auto.
  - intros p ins outs cfg H. apply in_app_or in H. destruct H as [H|[H|[]]]; [exact (H2 _ _ _ _ H)|exact (N2 _ _ _ _ H)].
Qed.
Lemma keep_same : forall out dst port, keep_edge out dst port (mk_edge out dst port) = false.
Proof.
  intros out dst port. unfold keep_edge. cbn [e_dest e_self e_port]. rewrite !Nat.eqb_refl. destruct port as [p|]; cbn; [rewrite Nat.eqb_refl|]; reflexivity.
Qed.
Lemma edges_made : forall ops g ls, along E (legal E) graph_new ops -> grun E ops graph_new = Some (g, ls) ->
  forall a n e, get (g_nodes g) a = Some n -> In e (n_edges n) -> made ops a (e_self e) (e_dest e) (e_port e).
Proof.
  intros ops. induction ops as [|op ops IH] using rev_ind; intros g ls HL Hr a n e Hn He.
  - injection Hr as <- <-. exfalso. apply (graph_new_dead (P := P) (Q := Q) (CFG := CFG) a). exists n. exact Hn.
  - destruct (grun_app E ops [op] graph_new g ls Hr) as (g1 & l1 & l2 & R1 & R2 & _).
    destruct (along_app E (legal E) ops [op] graph_new g1 l1 HL R1) as [A1 [A2 _]].
    cbn [grun] in R2. destruct (gstep E op g1) as [[g2 l3]|] eqn:Eg; [|discriminate]. injection R2 as <- <-.
    pose proof (IH g1 l1 A1 R1) as IH1.
    destruct (step_misc _ _ _ _ _ Eg) as
      [(id & p & ins & outs & cfg & -> & -> & _)|[(src & out & dst & port & -> & Ha & _)|[(src & out & dst & port & -> & Ha & _)|
       [(frame & lgs & o & -> & Ha & _)|(i & f & Hf & -> & _ & Hb & _ & Hna & Hm)]]]].
    + cbn [add_node g_nodes] in Hn. rewrite get_insert in Hn. destruct (Nat.eqb_spec id a) as [->|N].
      * injection Hn as <-. destruct He.
      * apply made_more; [eapply IH1; eassumption|discriminate|]. intros p0 i0 o0 c0 X. injection X as -> _ _ _ _. congruence.
    + unfold add_edge in Ha. destruct (get (g_nodes g1) src) as [m|] eqn:Em; [|discriminate]. injection Ha as <-. cbn [g_nodes] in Hn.
      destruct (Nat.eq_dec src a) as [->|N].
      * rewrite get_update_eq, Em in Hn. cbn [option_map] in Hn. injection Hn as <-. cbn [n_edges] in He. apply in_app_or in He.
        destruct He as [He|[<-|[]]].
        -- apply made_more; [eapply IH1; eassumption|discriminate|discriminate].
        -- exists ops, []. split; [reflexivity|]. split; [intros []|intros ? ? ? ? []].
      * rewrite get_update_neq in Hn by exact N. apply made_more; [eapply IH1; eassumption|discriminate|discriminate].
    + unfold remove_edge in Ha. destruct (get (g_nodes g1) src) as [m|] eqn:Em; [|discriminate]. injection Ha as <-. cbn [g_nodes] in Hn.
      destruct (Nat.eq_dec src a) as [->|N].
      * rewrite get_update_eq, Em in Hn. cbn [option_map] in Hn. injection Hn as <-. cbn [n_edges] in He. apply filter_In in He. destruct He as [He Hk].
        apply made_more; [eapply IH1; eassumption| |discriminate]. intros X. injection X as -> -> ->. destruct e as [x y z]. cbn [e_self e_dest e_port] in Hk.
        rewrite keep_same in Hk. discriminate.
      * rewrite get_update_neq in Hn by exact N. apply made_more; [eapply IH1; eassumption| |discriminate]. congruence.
    + assert (WF g1) as HW by exact (reach_WF E EOK _ _ _ A1 R1).
      destruct (render_quantum E EOK _ _ _ _ _ HW Ha) as (ns1 & ord & [Hre Hids Hlogs Hget Hord]).
      rewrite Hget in Hn. assert (exists m, get ns1 a = Some m) as [m Em].
      { unfold after in Hn. destruct (get ns1 a) as [m|]; [exists m; reflexivity|discriminate]. }
      destruct (after_edges E ns1 lgs a m n Em Hn) as (X & _). rewrite X in He. unfold live_edges in He. apply filter_In in He. destruct He as [He _].
      apply made_more; [|discriminate|discriminate].
      destruct (reordered_cut _ _ _ Hre a) as [Y|(m0 & Y1 & _ & _ & Y2)].
      * rewrite Em in Y. eapply IH1; [symmetry; exact Y|exact He].
      * rewrite Em in Y2. injection Y2 as ->. destruct He.
    + cbn [g_nodes] in Hn. apply made_more; [| |intros; intros ->; destruct Hm].
      2:{ intros ->. destruct Hm. }
      destruct (Nat.eq_dec i a) as [->|N].
      * rewrite get_update_eq in Hn. destruct (get (g_nodes g1) a) as [m|] eqn:Em; [|discriminate]. cbn [option_map] in Hn. injection Hn as <-.
        rewrite (proj1 (Hf m)) in He. eapply IH1; eassumption.
      * rewrite get_update_neq in Hn by exact N. eapply IH1; eassumption.
Qed.
End Diag.
