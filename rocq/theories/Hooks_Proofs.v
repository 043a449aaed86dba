(** Proofs about the life of processors *)
From Coq Require Import List Arith Bool Lia.
From Verif Require Import Graph_Model Graph_Spec Graph_OrderProofs Graph_RenderProofs
  Graph_TraceModel Graph_TraceSpec Graph_TraceProofs Hooks_Model Hooks_Spec.
Import ListNotations.

Section HooksProofs.
Context {P Q CFG : Type}.
Variable E : env P Q CFG.
Hypothesis EOK : env_ok E.
Notation graph := (graph P Q CFG).
Notation nodes := (nodes P Q CFG).
Notation proc_of := (option_map (@n_proc P Q CFG)).

Lemma course_app (p : P) l q : course p l (Some q) -> forall l' r, course q l' r -> course p (l ++ l') r.
Proof.
  intros H. remember (Some q) as x eqn:X. induction H; intros l' r' H'; cbn [app]; try discriminate; try (constructor; auto; fail).
  injection X as <-. exact H'.
Qed.

Lemma of_node_app id (a b : list (nat * hook (P := P))) : of_node id (a ++ b) = of_node id a ++ of_node id b.
Proof. apply flat_map_app. Qed.

Lemma hstep_gstep op g : match hstep E op g with Some (g', _) => exists l, gstep E op g = Some (g', l) | None => gstep E op g = None end.
Proof.
  destruct op; unfold hstep; try (match goal with |- context [gstep E ?o g] => destruct (gstep E o g) as [[g1 l1]|] eqn:X end; cbn; eauto; fail).
  - cbn [gstep]. unfold route_message. destruct (get (g_nodes g) id) as [n|]; [|reflexivity].
    destruct (onmsg (n_proc n)); cbn; [eexists; reflexivity|reflexivity].
  - cbn [gstep]. destruct (render E frame g) as [[[g1 lgs] o]|]; [eexists; reflexivity|reflexivity].
Qed.

Lemma hrun_grun ops : forall g g' tr, hrun E ops g = Some (g', tr) -> exists ls, grun E ops g = Some (g', ls).
Proof.
  induction ops as [|op ops IH]; intros g g' tr H; cbn [hrun grun] in *; [injection H as <- <-; eauto|].
  pose proof (hstep_gstep op g) as X. destruct (hstep E op g) as [[g1 l1]|]; [|discriminate]. destruct X as [l ->].
  destruct (hrun E ops g1) as [[g2 l2]|] eqn:E2; [|discriminate]. injection H as <- <-. destruct (IH _ _ _ E2) as [ls ->]. eauto.
Qed.
Lemma grun_hrun ops : forall g g' ls, grun E ops g = Some (g', ls) -> exists tr, hrun E ops g = Some (g', tr).
Proof.
  induction ops as [|op ops IH]; intros g g' tr H; cbn [hrun grun] in *; [injection H as <- <-; eauto|].
  pose proof (hstep_gstep op g) as X. destruct (hstep E op g) as [[g1 l1]|]; [|rewrite X in H; discriminate]. destruct X as [l X]. rewrite X in H.
  destruct (grun E ops g1) as [[g2 l2]|] eqn:E2; [|discriminate]. injection H as <- <-. destruct (IH _ _ _ E2) as [ls ->]. eauto.
Qed.
Lemma hrun_app a b : forall g g' tr, hrun E (a ++ b) g = Some (g', tr) ->
  exists g1 t1 t2, hrun E a g = Some (g1, t1) /\ hrun E b g1 = Some (g', t2) /\ tr = t1 ++ t2.
Proof.
  induction a as [|op a IH]; intros g g' tr H; cbn [app hrun] in *; [eauto 7|].
  destruct (hstep E op g) as [[g1 l1]|]; [|discriminate]. destruct (hrun E (a ++ b) g1) as [[g2 l2]|] eqn:E2; [|discriminate]. injection H as <- <-.
  destruct (IH _ _ _ E2) as (g3 & t1 & t2 & R1 & R2 & ->). exists g3, (l1 ++ t1), t2. rewrite R1. split; [reflexivity|]. split; [exact R2|]. apply app_assoc.
Qed.

(** ** One quantum *)
Lemma quantum_hooks id frame (lgs : list (step_log P Q)) : NoDup (map l_id lgs) ->
  of_node id (flat_map (node_hooks frame) lgs) = match logged lgs id with Some lg => map snd (node_hooks frame lg) | None => [] end.
Proof.
  assert (H1 : forall lg : step_log P Q, of_node id (node_hooks frame lg) = if Nat.eqb (l_id lg) id then map snd (node_hooks frame lg) else []).
  { intros lg. unfold node_hooks. destruct (l_result lg) as [[[p' o] t]|]; destruct (l_freed lg); cbn; destruct (Nat.eqb (l_id lg) id); reflexivity. }
  assert (H0 : forall l : list (step_log P Q), ~ In id (map l_id l) -> of_node id (flat_map (node_hooks frame) l) = []).
  { induction l as [|lg l IH]; intros HN; [reflexivity|]. cbn [flat_map]. rewrite of_node_app, H1. cbn in HN.
    destruct (Nat.eqb_spec (l_id lg) id); [tauto|]. apply IH. tauto. }
  induction lgs as [|lg lgs IH]; intros ND; [reflexivity|]. cbn [map] in ND. apply NoDup_cons_iff in ND. destruct ND as [N1 N2].
  cbn [flat_map]. rewrite of_node_app, H1. unfold logged. cbn [find]. destruct (Nat.eqb_spec (l_id lg) id) as [<-|N].
  - rewrite H0 by exact N1. apply app_nil_r.
  - apply IH. exact N2.
Qed.

Lemma cut_proc ns ns' i : cut_at_breakers ns ns' -> proc_of (get (ns' : nodes) i) = proc_of (get ns i).
Proof. intros H. destruct (H i) as [->|(n & -> & _ & _ & ->)]; reflexivity. Qed.

(** ** One step *)
Lemma step_course id g op g' tr : WF g -> legal E g op -> hstep E op g = Some (g', tr) -> not_registered id [op] ->
  match get (g_nodes g) id with
  | Some n => course (n_proc n) (of_node id tr) (proc_of (get (g_nodes g') id))
  | None => of_node id tr = [] /\ get (g_nodes g') id = None
  end.
Proof.
  intros HW HL HS HN. apply Forall_inv in HN.
  assert (UP : forall j (f : node P Q CFG -> node P Q CFG), (j = id -> forall n, n_proc (f n) = n_proc n) ->
    match get (g_nodes g) id with
    | Some n => course (n_proc n) [] (proc_of (get (update (g_nodes g) j f) id))
    | None => @nil (@hook P) = [] /\ get (update (g_nodes g) j f) id = None
    end).
  { intros j f Hf. destruct (Nat.eq_dec j id) as [->|N].
    - rewrite get_update_eq. destruct (get (g_nodes g) id) as [n|]; cbn; [rewrite Hf by reflexivity; constructor|auto].
    - rewrite get_update_neq by exact N. destruct (get (g_nodes g) id) as [n|]; cbn; [constructor|auto]. }
  destruct op as [i p ins outs cfg|src out dst port|src out dst port|i|i|i f|i m|frame]; cbn [hstep gstep option_map] in HS.
  - injection HS as <- <-. cbn [g_nodes add_node of_node flat_map]. rewrite get_insert. destruct (Nat.eqb_spec i id) as [X|X]; [contradiction|].
    destruct (get (g_nodes g) id); cbn; [constructor|auto].
  - unfold add_edge in HS. destruct (get (g_nodes g) src); [|discriminate]. injection HS as <- <-. apply UP. reflexivity.
  - unfold remove_edge in HS. destruct (get (g_nodes g) src); [|discriminate]. injection HS as <- <-. apply UP. reflexivity.
  - unfold mark_dropped in HS. destruct (Nat.ltb _ _); [|discriminate]. injection HS as <- <-. apply UP. reflexivity.
  - unfold mark_breaker in HS. destruct (get (g_nodes g) i); [|discriminate]. injection HS as <- <-. apply UP. reflexivity.
  - unfold set_cfg in HS. destruct (get (g_nodes g) i); [|discriminate]. injection HS as <- <-. apply UP. reflexivity.
  - unfold route_message in HS. destruct (get (g_nodes g) i) as [n|] eqn:En; [|discriminate]. destruct (m (n_proc n)) as [p'|]; [|discriminate]. injection HS as <- <-.
    cbn [g_nodes]. unfold of_node. cbn [flat_map fst snd]. destruct (Nat.eqb_spec i id) as [->|N].
    + rewrite En, get_update_eq, En. cbn. repeat constructor.
    + rewrite get_update_neq by exact N. cbn. destruct (get (g_nodes g) id); cbn; [constructor|auto].
  - destruct (render E frame g) as [[[g1 lgs] o]|] eqn:ER; [|discriminate]. injection HS as <- <-.
    destruct (render_quantum E EOK _ _ _ _ _ HW ER) as (ns1 & ord & [Hre Hids Hlogs Hget Hord]).
    pose proof (reordered_order _ _ _ HW Hre) as (ND & _ & _). rewrite <- Hids in ND. rewrite (quantum_hooks id frame lgs ND), Hget.
    pose proof (cut_proc _ _ id (reordered_cut _ _ _ Hre)) as CP. unfold after.
    destruct (get ns1 id) as [n1|] eqn:E1.
    + destruct (get (g_nodes g) id) as [n|]; cbn [option_map] in CP; [|discriminate]. injection CP as CP. rewrite <- CP.
      destruct (logged lgs id) as [lg|] eqn:EL.
      * apply logged_Some in EL. destruct EL as [Hin Hid]. destruct (logs_ok_In E _ _ _ _ _ Hlogs Hin) as (pre & n2 & En2 & _ & Hp & _ & _ & _ & Hm).
        rewrite Hid, E1 in En2. injection En2 as <-. unfold node_hooks. rewrite Hp. destruct (l_result lg) as [[[p' o'] t]|].
        -- destruct (l_freed lg); cbn; repeat constructor.
        -- destruct Hm as [_ ->]. cbn. constructor.
      * cbn. constructor.
    + destruct (get (g_nodes g) id) as [n|]; cbn [option_map] in CP; [discriminate|]. split; [|reflexivity].
      destruct (logged lgs id) as [lg|] eqn:EL; [|reflexivity]. exfalso. apply logged_Some in EL. destruct EL as [Hin Hid].
      destruct (logs_ok_In E _ _ _ _ _ Hlogs Hin) as (pre & n2 & En2 & _). rewrite Hid in En2. congruence.
Qed.

Lemma run_course id ops : forall g g' tr, WF g -> legal_run E g ops -> hrun E ops g = Some (g', tr) -> not_registered id ops ->
  match get (g_nodes g) id with
  | Some n => course (n_proc n) (of_node id tr) (proc_of (get (g_nodes g') id))
  | None => of_node id tr = [] /\ get (g_nodes g') id = None
  end.
Proof.
  induction ops as [|op ops IH]; intros g g' tr HW HL HR HN; cbn [hrun] in HR.
  - injection HR as <- <-. destruct (get (g_nodes g) id); cbn; [constructor|auto].
  - destruct HL as [L1 L2]. pose proof (hstep_gstep op g) as X. destruct (hstep E op g) as [[g1 l1]|] eqn:E1; [|discriminate]. destruct X as [ll X].
    destruct (hrun E ops g1) as [[g2 l2]|] eqn:E2; [|discriminate]. injection HR as <- <-.
    apply Forall_cons_iff in HN. destruct HN as [N1 N2].
    pose proof (step_course id g op g1 l1 HW L1 E1 ltac:(constructor; [exact N1|constructor])) as S1.
    pose proof (IH g1 g2 l2 (step_WF E EOK _ _ _ _ HW L1 X) (L2 _ _ X) E2 N2) as S2.
    rewrite of_node_app. destruct (get (g_nodes g) id) as [n|].
    + destruct (get (g_nodes g1) id) as [n1|]; cbn [option_map] in S1.
      * eapply course_app; [exact S1|exact S2].
      * destruct S2 as [-> ->]. rewrite app_nil_r. exact S1.
    + destruct S1 as [-> S1]. rewrite S1 in S2. exact S2.
Qed.

(** ** The end *)
Lemma unload_hooks id (g : graph) frame : of_node id (unload g frame) = match get (g_nodes g) id with Some n => [Dropped (n_proc n) frame] | None => [] end.
Proof.
  unfold unload. assert (ND : NoDup (keys (g_nodes g))) by apply keys_NoDup.
  assert (H0 : forall l, ~ In id l -> of_node id (flat_map (fun i => match get (g_nodes g) i with Some n => [(i, Dropped (n_proc n) frame)] | None => [] end) l) = []).
  { induction l as [|i l IH]; intros HN; [reflexivity|]. cbn [flat_map]. rewrite of_node_app. cbn in HN. rewrite IH by tauto.
    destruct (get (g_nodes g) i); cbn; [destruct (Nat.eqb_spec i id); [tauto|reflexivity]|reflexivity]. }
  destruct (get (g_nodes g) id) as [n|] eqn:En.
  - assert (HI : In id (keys (g_nodes g))) by (apply keys_In; exists n; exact En).
    apply in_split in HI. destruct HI as (a & b & EQ). rewrite EQ in ND |- *. apply NoDup_remove_2 in ND.
    rewrite flat_map_app, of_node_app. cbn [flat_map]. rewrite of_node_app, !H0 by (intros X; apply ND; apply in_or_app; tauto).
    rewrite En. cbn. rewrite Nat.eqb_refl. reflexivity.
  - apply H0. intros HI. apply keys_In in HI. destruct HI as [n Hn]. congruence.
Qed.

Lemma life_parts ops1 id p ins outs cfg ops2 frame tr :
  legal_run E graph_new (ops1 ++ OpAdd id p ins outs cfg :: ops2) -> not_registered id ops2 ->
  whole_life E (ops1 ++ OpAdd id p ins outs cfg :: ops2) frame = Some tr ->
  exists g1 t1 l2 g2, hrun E ops1 graph_new = Some (g1, t1) /\ hrun E ops2 (add_node E g1 id p ins outs cfg) = Some (g2, l2) /\
    legal_run E (add_node E g1 id p ins outs cfg) ops2 /\ WF (add_node E g1 id p ins outs cfg) /\
    tr = t1 ++ (l2 ++ unload g2 frame) /\ course p (of_node id (l2 ++ unload g2 frame)) None.
Proof.
  intros HL HN H. unfold whole_life in H. destruct (hrun E _ graph_new) as [[g l]|] eqn:ER; [|discriminate]. injection H as <-.
  destruct (hrun_app _ _ _ _ _ ER) as (g1 & t1 & t2 & R1 & R2 & ->). destruct (hrun_grun _ _ _ _ R1) as [ls G1].
  destruct (along_app E _ _ _ _ _ _ HL G1) as [L1 L2]. destruct L2 as [L2 L3]. cbn [hrun hstep gstep option_map fst] in R2, L3.
  destruct (run_WF E EOK _ _ WF_new L1) as (g1' & ls' & G1' & HW). rewrite G1 in G1'. injection G1' as <- <-.
  destruct (hrun E ops2 (add_node E g1 id p ins outs cfg)) as [[g2 l2]|] eqn:R3; [|discriminate]. injection R2 as <- <-.
    assert (HW1 : WF (add_node E g1 id p ins outs cfg)) by (apply WF_add; [exact HW|exact L2]).
  exists g1, t1, l2, g2. split; [exact R1|]. split; [exact R3|]. split; [exact (L3 _ _ eq_refl)|]. split; [exact HW1|]. split; [cbn; rewrite app_assoc; reflexivity|].
  pose proof (run_course id ops2 _ _ _ HW1 (L3 _ _ eq_refl) R3 HN) as C. cbn [g_nodes add_node] in C. rewrite get_insert, Nat.eqb_refl in C. cbn [n_proc] in C.
  rewrite of_node_app, unload_hooks. destruct (get (g_nodes g2) id) as [n|]; cbn [option_map] in C.
  - eapply course_app; [exact C|constructor].
  - rewrite app_nil_r. exact C.
Qed.

Theorem life ops1 id p ins outs cfg ops2 frame tr :
  legal_run E graph_new (ops1 ++ OpAdd id p ins outs cfg :: ops2) -> not_registered id ops2 ->
  whole_life E (ops1 ++ OpAdd id p ins outs cfg :: ops2) frame = Some tr ->
  exists g1 t1 t2, hrun E ops1 graph_new = Some (g1, t1) /\ tr = t1 ++ t2 /\ course p (of_node id t2) None.
Proof. intros HL HN H. destruct (life_parts _ _ _ _ _ _ _ _ _ HL HN H) as (g1 & t1 & l2 & g2 & R & _ & _ & _ & X & C). eauto 8. Qed.

Lemma life_total ops frame : legal_run E graph_new ops -> exists tr, whole_life E ops frame = Some tr.
Proof.
  intros HL. destruct (run_WF E EOK ops graph_new WF_new HL) as (g & ls & G & _). destruct (grun_hrun _ _ _ _ G) as [tr T]. unfold whole_life. rewrite T. eauto.
Qed.

(** every call of a history is one of [process] *)
Lemma called_process ops : forall g g' tr, WF g -> legal_run E g ops -> hrun E ops g = Some (g', tr) ->
  forall id h, In (id, h) tr -> match h with
  | Called p p' => exists ins o v f o' t, process E p ins o v f = Some (p', o', t)
  | Told p p' => exists m, In (OpMessage id m) ops /\ m p = Some p'
  | _ => True
  end.
Proof.
  induction ops as [|op ops IH]; intros g g' tr HW HL HR id h Hin; cbn [hrun] in HR; [injection HR as <- <-; destruct Hin|].
  destruct HL as [L1 L2]. pose proof (hstep_gstep op g) as X. destruct (hstep E op g) as [[g1 l1]|] eqn:E1; [|discriminate]. destruct X as [ll X].
  destruct (hrun E ops g1) as [[g2 l2]|] eqn:E2; [|discriminate]. injection HR as <- <-. apply in_app_or in Hin. destruct Hin as [Hin|Hin].
  - destruct op; cbn [hstep] in E1; try (destruct (gstep E _ g) as [[? ?]|] in E1; [|discriminate]; injection E1 as <- <-; destruct Hin; fail).
    + destruct (get (g_nodes g) id0) as [n|]; [|discriminate]. destruct (route_message g id0 onmsg); [|discriminate]. injection E1 as <- <-.
      destruct (onmsg (n_proc n)) as [p'|] eqn:Em; [|destruct Hin]. destruct Hin as [Hin|[]]. injection Hin as <- <-. exists onmsg. split; [left; reflexivity|exact Em].
    + destruct (render E frame g) as [[[g3 lgs] o]|] eqn:ER; [|discriminate]. injection E1 as <- <-.
      destruct (render_quantum E EOK _ _ _ _ _ HW ER) as (ns1 & ord & [Hre Hids Hlogs Hget Hord]).
      apply in_flat_map in Hin. destruct Hin as (lg & Hlg & Hin). destruct (logs_ok_In E _ _ _ _ _ Hlogs Hlg) as (pre & n2 & En2 & _ & Hp & _ & _ & Hr & Hm).
      unfold node_hooks in Hin. destruct (l_result lg) as [[[p' o'] t]|]; destruct (l_freed lg); cbn in Hin;
        repeat (destruct Hin as [Hin|Hin]; [injection Hin as <- <-; try exact I|]); try contradiction; rewrite Hp; eauto 10.
  - specialize (IH _ _ _ (step_WF E EOK _ _ _ _ HW L1 X) (L2 _ _ X) E2 id h Hin). destruct h; try exact IH. destruct IH as (m & I1 & I2). exists m. split; [right; exact I1|exact I2].
Qed.
End HooksProofs.

(** ** Sources *)
Section Ended.
Context {P : Type}.
Variables (over : P -> bool) (begun : P -> nat -> bool).

Lemma ended_spec (p : P) l : course p l None ->
  (forall a b, In (Told a b) l -> over b = over a) -> (forall a b, In (Called a b) l -> over a = true -> over b = true) ->
  exists l0 q frame, l = l0 ++ [Dropped q frame] /\
    ended_events over begun l = if over p then 0 else if over q || begun q frame then 1 else 0.
Proof.
  intros H. remember None as r eqn:X. induction H as [p|p p' l r H IH|p p' l r H IH|p frame|p frame]; intros HT HC; try discriminate.
  - destruct (IH X) as (l0 & q & frame & -> & EV); [intros a b Hab; apply HT; right; exact Hab|intros a b Hab; apply HC; right; exact Hab|].
    exists (Told p p' :: l0), q, frame. split; [reflexivity|]. unfold ended_events in *. cbn [filter sends_ended]. rewrite EV, (HT p p') by (left; reflexivity). reflexivity.
  - destruct (IH X) as (l0 & q & frame & EQ & EV); [intros a b Hab; apply HT; right; exact Hab|intros a b Hab; apply HC; right; exact Hab|].
    exists (Called p p' :: l0), q, frame. split; [rewrite EQ; reflexivity|]. unfold ended_events in *. cbn [filter sends_ended].
    destruct (over p) eqn:Op; cbn [negb andb]; [rewrite EV, (HC p p' (or_introl eq_refl) Op); reflexivity|].
    destruct (over p') eqn:Op'; cbn [length]; rewrite EV; [|reflexivity].
    (* over from here on *)
    assert (OQ : over q = true).
    { assert (G : forall (p : P) l r, course p l r -> (forall a b, In (Told a b) l -> over b = over a) -> (forall a b, In (Called a b) l -> over a = true -> over b = true) ->
        over p = true -> forall l0 q f, l = l0 ++ [Dropped q f] -> over q = true).
      { clear. induction 1 as [p|p p' l r H IH|p p' l r H IH|p frame|p frame]; intros HT HC HO l0 q f EQ.
        - destruct l0; discriminate.
        - destruct l0 as [|h l0]; cbn in EQ; [discriminate|]. injection EQ as _ EQ. eapply IH; [| | |exact EQ]; [intros a b I; apply HT; right; exact I|intros a b I; apply HC; right; exact I|].
          rewrite (HT p p') by (left; reflexivity). exact HO.
        - destruct l0 as [|h l0]; cbn in EQ; [discriminate|]. injection EQ as _ EQ. eapply IH; [| | |exact EQ]; [intros a b I; apply HT; right; exact I|intros a b I; apply HC; right; exact I|].
          apply (HC p p'); [left; reflexivity|exact HO].
        - destruct l0 as [|h [|h' l0]]; cbn in EQ; [discriminate| |destruct l0; discriminate]. injection EQ as _ <- _. exact HO.
        - destruct l0 as [|h l0]; cbn in EQ; [injection EQ as <- _; exact HO|destruct l0; discriminate]. }
      eapply (G p' l r H); [| |exact Op'|exact EQ]; [intros a b I; apply HT; right; exact I|intros a b I; apply HC; right; exact I]. }
    rewrite OQ. reflexivity.
  - exists [Failed p], p, frame. split; [reflexivity|]. unfold ended_events. cbn. destruct (over p), (begun p frame); reflexivity.
  - exists [], p, frame. split; [reflexivity|]. unfold ended_events. cbn. destruct (over p), (begun p frame); reflexivity.
Qed.
End Ended.
