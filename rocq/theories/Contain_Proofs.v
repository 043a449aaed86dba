(** A node has no influence on what is not downstream of it. *)
From Coq Require Import List Arith Bool Lia.
From Verif Require Import Graph_Model Graph_OrderProofs Graph_RenderProofs Flow_Spec Contain_Spec.
Import ListNotations.

Section ContainProofs.
Context {P Q CFG : Type}.
Variable E : env P Q CFG.
Variable D : nat -> bool.
Variable K : P -> Prop.
Hypothesis RD : do_not_read E D K.
Notation nodes := (nodes P Q CFG).
Notation node := (node P Q CFG).
Notation leads := (leads_outside D).
Notation outs_ := (fun i => negb (D i)).

Lemma same_node_refl (n : node) : same_node D n n.
Proof. repeat split. Qed.

(** two graphs that agree outside, under the invariants *)
Definition inv (g1 g2 : nodes) : Prop :=
  same_nodes D g1 g2 /\ downstream_closed D g1 /\ downstream_closed D g2 /\ held D g1 /\ processors_outside D K g1.

Lemma push_inside self outs g e g' : D (e_dest e) = true -> downstream_closed D g -> push_edge E self outs g e = Some g' ->
  (forall i, D i = false -> get g' i = get g i) /\ downstream_closed D g'.
Proof.
  intros HD HC H. unfold push_edge in H. destruct (e_port e) as [port|]; [|injection H as <-; auto].
  destruct (Nat.eqb (e_dest e) self); [discriminate|]. destruct (get g (e_dest e)) as [d|] eqn:Ed; [|discriminate].
  destruct (nth_error outs (e_self e)) as [sg|]; [|discriminate]. destruct (list_upd (n_inputs d) port _) as [ins|]; [|discriminate]. injection H as <-.
  split.
  - intros i Hi. apply get_set_slot_neq. intros X. subst i. congruence.
  - intros i n e' Hi Hg He. destruct (Nat.eq_dec (e_dest e) i) as [X|X].
    + subst i. rewrite get_set_slot_eq in Hg by (eapply get_In; exact Ed). injection Hg as <-. cbn in He. eapply HC; eauto.
    + rewrite get_set_slot_neq in Hg by exact X. eapply HC; eauto.
Qed.

Lemma pushes_inside self outs es : forall g g', Forall (fun e => D (e_dest e) = true) es -> downstream_closed D g -> push_edges E self outs g es = Some g' ->
  (forall i, D i = false -> get g' i = get g i) /\ downstream_closed D g'.
Proof.
  induction es as [|e es IH]; intros g g' F HC H; cbn [push_edges] in H; [injection H as <-; auto|].
  apply Forall_cons_iff in F. destruct F as [Fe F]. destruct (push_edge E self outs g e) as [g1|] eqn:E1; [|discriminate].
  destruct (push_inside _ _ _ _ _ Fe HC E1) as [A B]. destruct (IH _ _ F B H) as [A' B']. split; [|exact B'].
  intros i Hi. rewrite A', A by exact Hi. reflexivity.
Qed.

Lemma same_nodes_get (g1 g2 g1' g2' : nodes) : same_nodes D g1 g2 -> (forall i, D i = false -> get g1' i = get g1 i) -> (forall i, D i = false -> get g2' i = get g2 i) -> same_nodes D g1' g2'.
Proof. intros S A B i Hi. rewrite A, B by exact Hi. apply S. exact Hi. Qed.

Lemma same_nodes_some (g1 g2 : nodes) i n1 : same_nodes D g1 g2 -> D i = false -> get g1 i = Some n1 -> exists n2, get g2 i = Some n2 /\ same_node D n1 n2.
Proof. intros S Hi H. specialize (S i Hi). rewrite H in S. destruct (get g2 i) as [n2|]; [|contradiction]. exists n2. auto. Qed.

(** pushing along the same edge *)
Lemma push_same self outs e g1 g2 g1' g2' : D (e_dest e) = false -> inv g1 g2 ->
  push_edge E self outs g1 e = Some g1' -> push_edge E self outs g2 e = Some g2' -> inv g1' g2'.
Proof.
  intros He (S & C1 & C2 & H & KP) A B. unfold push_edge in A, B. destruct (e_port e) as [port|]; [|injection A as <-; injection B as <-; repeat split; assumption].
  destruct (Nat.eqb (e_dest e) self); [discriminate|]. destruct (get g1 (e_dest e)) as [d1|] eqn:E1; [|discriminate].
  destruct (same_nodes_some _ _ _ _ S He E1) as (d2 & E2 & SN). rewrite E2 in B.
  destruct (nth_error outs (e_self e)) as [sg|]; [|discriminate].
  destruct SN as (N1 & N2 & N3 & N4 & N5 & N6 & N7). rewrite <- N2, <- N4 in B.
  destruct (list_upd (n_inputs d1) port _) as [ins|]; [|discriminate]. injection A as <-. injection B as <-.
  pose proof (get_In _ _ _ E1) as L1. pose proof (get_In _ _ _ E2) as L2.
  split; [|split; [|split; [|split]]].
  - intros i Hi. destruct (Nat.eq_dec (e_dest e) i) as [X|X].
    + subst i. rewrite !get_set_slot_eq by assumption. repeat split; cbn; assumption.
    + rewrite !get_set_slot_neq by exact X. apply S. exact Hi.
  - intros i n e' Hi Hg Hin. rewrite get_set_slot_neq in Hg by congruence. eapply C1; eauto.
  - intros i n e' Hi Hg Hin. rewrite get_set_slot_neq in Hg by congruence. eapply C2; eauto.
  - intros i n Hi Hg. destruct (Nat.eq_dec (e_dest e) i) as [X|X].
    + subst i. rewrite get_set_slot_eq in Hg by assumption. injection Hg as <-. cbn. eapply H; eauto.
    + rewrite get_set_slot_neq in Hg by exact X. eapply H; eauto.
  - intros i n Hi Hg. destruct (Nat.eq_dec (e_dest e) i) as [X|X].
    + subst i. rewrite get_set_slot_eq in Hg by assumption. injection Hg as <-. cbn. eapply KP; eauto.
    + rewrite get_set_slot_neq in Hg by exact X. eapply KP; eauto.
Qed.

Lemma inv_inside1 g1 g2 g1' : inv g1 g2 -> (forall i, D i = false -> get g1' i = get g1 i) -> downstream_closed D g1' -> inv g1' g2.
Proof.
  intros (S & C1 & C2 & H & KP) A B. split; [eapply same_nodes_get; [exact S|exact A|reflexivity]|]. split; [exact B|]. split; [exact C2|].
  split; intros i n Hi Hg; rewrite A in Hg by exact Hi; [eapply H|eapply KP]; eauto.
Qed.
Lemma inv_inside2 g1 g2 g2' : inv g1 g2 -> (forall i, D i = false -> get g2' i = get g2 i) -> downstream_closed D g2' -> inv g1 g2'.
Proof.
  intros (S & C1 & C2 & H & KP) A B. split; [eapply same_nodes_get; [exact S|reflexivity|exact A]|]. split; [exact C1|]. split; [exact B|]. split; [exact H|exact KP].
Qed.

Lemma filter_cons_split {A} (f : A -> bool) l x r : filter f l = x :: r -> exists pre post, l = pre ++ x :: post /\ Forall (fun y => f y = false) pre /\ filter f post = r /\ f x = true.
Proof.
  induction l as [|y l IH]; cbn [filter]; [discriminate|]. destruct (f y) eqn:Ef.
  - intros H. injection H as <- <-. exists [], l. repeat split; auto.
  - intros H. destruct (IH H) as (pre & post & -> & F & R & X). exists (y :: pre), post. repeat split; auto.
Qed.
Lemma filter_nil_forall {A} (f : A -> bool) l : filter f l = [] -> Forall (fun y => f y = false) l.
Proof. induction l as [|y l IH]; cbn [filter]; intros H; [constructor|]. destruct (f y) eqn:Ef; [discriminate|]. constructor; auto. Qed.
Lemma inside_edges es : Forall (fun e => leads e = false) es -> Forall (fun e => D (e_dest e) = true) es.
Proof. intros F. eapply Forall_impl; [|exact F]. intros e He. unfold leads_outside in He. apply negb_false_iff in He. exact He. Qed.

Lemma push_edges_app self outs es1 : forall es2 g g', push_edges E self outs g (es1 ++ es2) = Some g' ->
  exists g1, push_edges E self outs g es1 = Some g1 /\ push_edges E self outs g1 es2 = Some g'.
Proof.
  induction es1 as [|e es1 IH]; intros es2 g g' H; [exists g; auto|]. cbn [app push_edges] in *. destruct (push_edge E self outs g e) as [g1|]; [|discriminate]. apply IH. exact H.
Qed.

Lemma pushes_same self outs es1 : forall es2 g1 g2 g1' g2', filter leads es1 = filter leads es2 -> inv g1 g2 ->
  push_edges E self outs g1 es1 = Some g1' -> push_edges E self outs g2 es2 = Some g2' -> inv g1' g2'.
Proof.
  induction es1 as [|e es1 IH]; intros es2 g1 g2 g1' g2' F I A B.
  - cbn in A, F. injection A as <-. symmetry in F. apply filter_nil_forall, inside_edges in F.
    destruct (pushes_inside _ _ _ _ _ F (proj1 (proj2 (proj2 I))) B) as [X Y]. eapply inv_inside2; eauto.
  - cbn [push_edges] in A. destruct (push_edge E self outs g1 e) as [h1|] eqn:A1; [|discriminate]. cbn [filter] in F.
    destruct (leads e) eqn:L.
    + symmetry in F. apply filter_cons_split in F. destruct F as (pre & post & -> & F1 & F2 & _).
      apply push_edges_app in B. destruct B as (k2 & B1 & B2). cbn [push_edges] in B2. destruct (push_edge E self outs k2 e) as [h2|] eqn:B3; [|discriminate].
      apply inside_edges in F1. destruct (pushes_inside _ _ _ _ _ F1 (proj1 (proj2 (proj2 I))) B1) as [X Y].
      pose proof (inv_inside2 _ _ _ I X Y) as I2. unfold leads_outside in L. apply negb_true_iff in L.
      pose proof (push_same _ _ _ _ _ _ _ L I2 A1 B3) as I3. eapply IH; [|exact I3|exact A|exact B2]. congruence.
    + unfold leads_outside in L. apply negb_false_iff in L. destruct (push_inside _ _ _ _ _ L (proj1 (proj2 I)) A1) as [X Y].
      eapply IH; [exact F|eapply inv_inside1; eauto|exact A|exact B].
Qed.

(** removing a node *)
Lemma get_strip id (g : nodes) i : get (strip_edges id g) i = option_map (fun n : node =>
    mk_node (n_proc n) (n_inputs n) (n_outputs n) (n_cfg n) (filter (fun e => negb (Nat.eqb (e_dest e) id)) (n_edges n)) (n_dropped n) (n_connected n) (n_breaker n)) (get g i).
Proof. apply get_map_opt. Qed.

Lemma get_remove_eq (g : nodes) i : get (remove g i) i = None.
Proof.
  unfold remove. destruct (get g i) as [n|] eqn:Hg; [|apply set_slot_same; exact Hg]. apply get_set_slot_eq. eapply get_In; exact Hg.
Qed.
Lemma get_remove_neq (g : nodes) i j : i <> j -> get (remove g i) j = get g j.
Proof. apply get_set_slot_neq. Qed.

Lemma filter_comm {A} (f h : A -> bool) l : filter f (filter h l) = filter h (filter f l).
Proof. induction l as [|x l IH]; cbn [filter]; [reflexivity|]. destruct (f x) eqn:F, (h x) eqn:H; cbn [filter]; rewrite ?F, ?H, IH; reflexivity. Qed.

(** a node of [D] is removed: nothing changes outside but connections into [D] *)
Lemma strip_inside id n : D id = true ->
  filter leads (filter (fun e => negb (Nat.eqb (e_dest e) id)) (n_edges (n : node))) = filter leads (n_edges n).
Proof.
  intros Hid. induction (n_edges n) as [|e l IH]; cbn [filter]; [reflexivity|]. destruct (Nat.eqb (e_dest e) id) eqn:X; cbn [negb filter].
  - apply Nat.eqb_eq in X. unfold leads_outside at 2. rewrite X, Hid. cbn [negb]. exact IH.
  - destruct (leads e); rewrite IH; reflexivity.
Qed.

Lemma closed_strip id (g : nodes) : downstream_closed D g -> downstream_closed D (strip_edges id (remove g id)).
Proof.
  intros C i n e Hi Hg He. rewrite get_strip in Hg. destruct (Nat.eq_dec id i) as [X|X]; [subst; rewrite get_remove_eq in Hg; discriminate|].
  rewrite get_remove_neq in Hg by exact X. destruct (get g i) as [m|] eqn:G; [|discriminate]. injection Hg as <-. cbn in He. apply filter_In in He. eapply C; [exact Hi|exact G|tauto].
Qed.

Lemma same_trans (n1 n2 n3 : node) : same_node D n1 n2 -> same_node D n2 n3 -> same_node D n1 n3.
Proof. intros (A1 & A2 & A3 & A4 & A5 & A6 & A7) (B1 & B2 & B3 & B4 & B5 & B6 & B7). repeat split; congruence. Qed.
Lemma same_sym (n1 n2 : node) : same_node D n1 n2 -> same_node D n2 n1.
Proof. intros (A1 & A2 & A3 & A4 & A5 & A6 & A7). repeat split; congruence. Qed.

(** rendering a node of [D] *)
Lemma node_inside frame g id g' lg : D id = true -> downstream_closed D g -> render_node E frame g id = Some (g', lg) ->
  l_id lg = id /\ (forall i, D i = false -> match get g i, get g' i with Some n1, Some n2 => same_node D n1 n2 | None, None => True | _, _ => False end) /\ downstream_closed D g'.
Proof.
  intros Hid C H. unfold render_node in H. destruct (get g id) as [n|] eqn:G; [|discriminate]. cbv zeta in H.
  set (res := process E (n_proc n) (n_inputs n) (n_outputs n) (view g id) frame) in *.
  set (trip := match res with Some (p', outs', tail) => (mk_node p' (n_inputs n) outs' (n_cfg n) (n_edges n) (n_dropped n) (n_connected n) (n_breaker n), true, tail) | None => (clear_edges n, false, false) end) in *.
  assert (TE : forall e, In e (n_edges (fst (fst trip))) -> In e (n_edges n)).
  { unfold trip. destruct res as [[[p' o'] tl]|]; cbn; [auto|contradiction]. }
  destruct trip as [[n1 success] tail] eqn:ET. cbn [fst snd] in TE.
  destruct (push_edges E id (n_outputs n1) (set_slot g id (Some n1)) (n_edges n1)) as [g2|] eqn:EP; [|discriminate].
  pose proof (get_In _ _ _ G) as LI.
  assert (FE : Forall (fun e => D (e_dest e) = true) (n_edges n1)) by (apply Forall_forall; intros e He; eapply C; [exact Hid|exact G|auto]).
  assert (C1 : downstream_closed D (set_slot g id (Some n1))).
  { intros i m e Hi Hg He. destruct (Nat.eq_dec id i) as [X|X].
    - subst i. rewrite get_set_slot_eq in Hg by exact LI. injection Hg as <-. rewrite Forall_forall in FE. apply FE. exact He.
    - rewrite get_set_slot_neq in Hg by exact X. eapply C; eauto. }
  destruct (pushes_inside _ _ _ _ _ FE C1 EP) as [A B].
  assert (A' : forall i, D i = false -> get g2 i = get g i) by (intros i Hi; rewrite A by exact Hi; apply get_set_slot_neq; congruence).
  destruct (negb success || can_free E n1 tail) eqn:EF; injection H as <- <-; (split; [reflexivity|]); split.
  - intros i Hi. rewrite get_strip, get_remove_neq by congruence. rewrite A' by exact Hi. destruct (get g i) as [m|]; cbn [option_map]; [|exact I].
    repeat split. cbn [n_edges]. symmetry. apply strip_inside. exact Hid.
  - apply closed_strip. exact B.
  - intros i Hi. rewrite get_set_slot_neq by congruence. rewrite A' by exact Hi. destruct (get g i); [apply same_node_refl|exact I].
  - intros i m e Hi Hg He. destruct (Nat.eq_dec id i) as [X|X].
    + subst i. destruct (get g2 id) as [m2|] eqn:G2.
      * rewrite get_set_slot_eq in Hg by (eapply get_In; exact G2). injection Hg as <-. rewrite Forall_forall in FE. apply FE. exact He.
      * destruct (Nat.lt_ge_cases id (length g2)) as [L|L].
        -- rewrite get_set_slot_eq in Hg by exact L. injection Hg as <-. rewrite Forall_forall in FE. apply FE. exact He.
        -- apply get_In in Hg. exfalso. clear - Hg L. assert (X : forall (l : nodes) k v, length (set_slot l k v) = length l) by (induction l as [|a l IH]; intros [|k] v; cbn; auto). rewrite X in Hg. lia.
    + rewrite get_set_slot_neq in Hg by exact X. eapply B; eauto.
Qed.

Lemma inv_replace1 g1 g2 g1' : inv g1 g2 ->
  (forall i, D i = false -> match get g1 i, get g1' i with Some n1, Some n2 => same_node D n1 n2 | None, None => True | _, _ => False end) -> downstream_closed D g1' -> inv g1' g2.
Proof.
  intros (S & C1 & C2 & H & KP) A B. split; [|split; [exact B|split; [exact C2|split]]].
  - intros i Hi. specialize (A i Hi). specialize (S i Hi). destruct (get g1 i), (get g1' i), (get g2 i); try contradiction; auto. eapply same_trans; [apply same_sym; exact A|exact S].
  - intros i n Hi Hg. specialize (A i Hi). rewrite Hg in A. destruct (get g1 i) as [m|] eqn:G; [|contradiction]. destruct A as (_ & _ & _ & _ & _ & X & _). rewrite <- X. eapply H; eauto.
  - intros i n Hi Hg. specialize (A i Hi). rewrite Hg in A. destruct (get g1 i) as [m|] eqn:G; [|contradiction]. destruct A as (X & _). rewrite <- X. eapply KP; eauto.
Qed.
Lemma inv_replace2 g1 g2 g2' : inv g1 g2 ->
  (forall i, D i = false -> match get g2 i, get g2' i with Some n1, Some n2 => same_node D n1 n2 | None, None => True | _, _ => False end) -> downstream_closed D g2' -> inv g1 g2'.
Proof.
  intros (S & C1 & C2 & H & KP) A B. split; [|split; [exact C1|split; [exact B|split; [exact H|exact KP]]]].
  intros i Hi. specialize (A i Hi). specialize (S i Hi). destruct (get g1 i), (get g2' i), (get g2 i); try contradiction; auto. eapply same_trans; [exact S|exact A].
Qed.

(** rendering a node outside of [D] in both graphs *)
Lemma node_same frame g1 g2 id g1' g2' lg1 lg2 : D id = false -> inv g1 g2 ->
  render_node E frame g1 id = Some (g1', lg1) -> render_node E frame g2 id = Some (g2', lg2) ->
  inv g1' g2' /\ doings D [lg1] = doings D [lg2].
Proof.
  intros Hid I H1 H2. pose proof I as (S & C1 & C2 & H & KP). unfold render_node in H1, H2.
  destruct (get g1 id) as [n1|] eqn:G1; [|discriminate]. destruct (same_nodes_some _ _ _ _ S Hid G1) as (n2 & G2 & SN). rewrite G2 in H2. cbv zeta in H1, H2.
  pose proof SN as (N1 & N2 & N3 & N4 & N5 & N6 & N7).
  assert (EV : process E (n_proc n2) (n_inputs n2) (n_outputs n2) (view g2 id) frame = process E (n_proc n1) (n_inputs n1) (n_outputs n1) (view g1 id) frame).
  { rewrite <- N1, <- N2, <- N3. apply (proj1 RD); [eapply KP; eauto|]. intros j Hj. unfold view. destruct (Nat.eqb j id); [reflexivity|].
    specialize (S j Hj). destruct (get g1 j), (get g2 j); try contradiction; [|reflexivity]. destruct S as (_ & _ & X & _). congruence. }
  rewrite EV in H2. destruct (process E (n_proc n1) (n_inputs n1) (n_outputs n1) (view g1 id) frame) as [[[p' o'] tl]|] eqn:EP.
  - cbn [n_outputs n_edges n_proc n_inputs n_cfg n_dropped n_connected n_breaker] in H1, H2.
    set (m1 := mk_node p' (n_inputs n1) o' (n_cfg n1) (n_edges n1) (n_dropped n1) (n_connected n1) (n_breaker n1)) in *.
    set (m2 := mk_node p' (n_inputs n2) o' (n_cfg n2) (n_edges n2) (n_dropped n2) (n_connected n2) (n_breaker n2)) in *.
    destruct (push_edges E id o' (set_slot g1 id (Some m1)) (n_edges n1)) as [h1|] eqn:P1; [|discriminate].
    destruct (push_edges E id o' (set_slot g2 id (Some m2)) (n_edges n2)) as [h2|] eqn:P2; [|discriminate].
    assert (I0 : inv (set_slot g1 id (Some m1)) (set_slot g2 id (Some m2))).
    { pose proof (get_In _ _ _ G1) as L1. pose proof (get_In _ _ _ G2) as L2. split; [|split; [|split; [|split]]].
      - intros i Hi. destruct (Nat.eq_dec id i) as [X|X]; [subst i; rewrite !get_set_slot_eq by assumption; repeat split; cbn; congruence|].
        rewrite !get_set_slot_neq by exact X. apply S. exact Hi.
      - intros i n e Hi Hg He. rewrite get_set_slot_neq in Hg by congruence. eapply C1; eauto.
      - intros i n e Hi Hg He. rewrite get_set_slot_neq in Hg by congruence. eapply C2; eauto.
      - intros i n Hi Hg. destruct (Nat.eq_dec id i) as [X|X]; [subst i; rewrite get_set_slot_eq in Hg by exact L1; injection Hg as <-; cbn; eapply H; eauto|].
        rewrite get_set_slot_neq in Hg by exact X. eapply H; eauto.
      - intros i n Hi Hg. destruct (Nat.eq_dec id i) as [X|X]; [subst i; rewrite get_set_slot_eq in Hg by exact L1; injection Hg as <-; cbn; eapply (proj2 RD); [|exact EP]; eapply KP; eauto|].
        rewrite get_set_slot_neq in Hg by exact X. eapply KP; eauto. }
    pose proof (pushes_same _ _ _ _ _ _ _ _ N5 I0 P1 P2) as I1.
    assert (F1 : can_free E m1 tl = false) by (unfold can_free; cbn [m1 n_dropped]; rewrite (H _ _ Hid G1); reflexivity).
    assert (F2 : can_free E m2 tl = false) by (unfold can_free; cbn [m2 n_dropped]; rewrite <- N6, (H _ _ Hid G1); reflexivity).
    rewrite F1 in H1. rewrite F2 in H2. cbn [negb orb] in H1, H2. injection H1 as <- <-. injection H2 as <- <-.
    split; [|unfold doings; cbn [filter l_id]; rewrite Hid; cbn; congruence].
    assert (X1 : exists q1, get h1 id = Some q1 /\ exists q2, get h2 id = Some q2).
    { assert (T : forall es g g', push_edges E id o' g es = Some g' -> length g' = length g).
      { assert (SL : forall (l : nodes) k v, length (set_slot l k v) = length l) by (induction l as [|a l IH]; intros [|k] v; cbn; auto).
        induction es as [|e es IH]; intros g g' X; cbn [push_edges] in X; [injection X as <-; reflexivity|].
        destruct (push_edge E id o' g e) as [k|] eqn:Y; [|discriminate]. rewrite (IH _ _ X). unfold push_edge in Y. destruct (e_port e); [|injection Y as <-; reflexivity].
        destruct (Nat.eqb _ _); [discriminate|]. destruct (get g (e_dest e)); [|discriminate]. destruct (nth_error _ _); [|discriminate]. destruct (list_upd _ _ _); [|discriminate]. injection Y as <-. apply SL. }
      assert (T2 : forall es g g', push_edges E id o' g es = Some g' -> get g' id = get g id).
      { induction es as [|e es IH]; intros g g' X; cbn [push_edges] in X; [injection X as <-; reflexivity|].
        destruct (push_edge E id o' g e) as [k|] eqn:Y; [|discriminate]. rewrite (IH _ _ X). unfold push_edge in Y. destruct (e_port e); [|injection Y as <-; reflexivity].
        destruct (Nat.eqb (e_dest e) id) eqn:Z; [discriminate|]. apply Nat.eqb_neq in Z. destruct (get g (e_dest e)); [|discriminate]. destruct (nth_error _ _); [|discriminate]. destruct (list_upd _ _ _); [|discriminate]. injection Y as <-. apply get_set_slot_neq. exact Z. }
      exists m1. split; [rewrite (T2 _ _ _ P1); apply get_set_slot_eq; eapply get_In; exact G1|]. exists m2. rewrite (T2 _ _ _ P2). apply get_set_slot_eq. eapply get_In; exact G2. }
    destruct X1 as (q1 & Q1 & q2 & Q2). pose proof (get_In _ _ _ Q1) as L1. pose proof (get_In _ _ _ Q2) as L2.
    destruct I1 as (S' & C1' & C2' & H' & KP'). split; [|split; [|split; [|split]]].
    + intros i Hi. destruct (Nat.eq_dec id i) as [X|X].
      * subst i. rewrite !get_set_slot_eq by assumption. unfold m1, m2. cbn [n_inputs]. rewrite <- N2. repeat split; cbn; congruence.
      * rewrite !get_set_slot_neq by exact X. apply S'. exact Hi.
    + intros i n e Hi Hg He. rewrite get_set_slot_neq in Hg by congruence. eapply C1'; eauto.
    + intros i n e Hi Hg He. rewrite get_set_slot_neq in Hg by congruence. eapply C2'; eauto.
    + intros i n Hi Hg. destruct (Nat.eq_dec id i) as [X|X]; [subst i; rewrite get_set_slot_eq in Hg by exact L1; injection Hg as <-; cbn; eapply H; eauto|].
      rewrite get_set_slot_neq in Hg by exact X. eapply H'; eauto.
    + intros i n Hi Hg. destruct (Nat.eq_dec id i) as [X|X]; [subst i; rewrite get_set_slot_eq in Hg by exact L1; injection Hg as <-; cbn; eapply (proj2 RD); [|exact EP]; eapply KP; eauto|].
      rewrite get_set_slot_neq in Hg by exact X. eapply KP'; eauto.
  - unfold clear_edges in H1, H2. cbn [n_outputs n_edges push_edges negb orb] in H1, H2. injection H1 as <- <-. injection H2 as <- <-.
    split; [|unfold doings; cbn [filter l_id]; rewrite Hid; cbn; congruence].
    assert (GR : forall (g : nodes) n m, get g id = Some n -> forall i, get (remove (set_slot g id (Some m)) id) i = if Nat.eqb id i then None else get g i).
    { intros g n m Hg i. destruct (Nat.eqb id i) eqn:X; [apply Nat.eqb_eq in X; subst i; apply get_remove_eq|]. apply Nat.eqb_neq in X. rewrite get_remove_neq, get_set_slot_neq by exact X. reflexivity. }
    split; [|split; [|split; [|split]]].
    + intros i Hi. rewrite !get_strip, (GR _ _ _ G1), (GR _ _ _ G2). destruct (Nat.eqb id i); [exact Logic.I|]. specialize (S i Hi).
      destruct (get g1 i), (get g2 i); try contradiction; cbn [option_map]; [|exact Logic.I]. destruct S as (A1 & A2 & A3 & A4 & A5 & A6 & A7). repeat split; cbn; try assumption.
      rewrite !(filter_comm leads), A5. reflexivity.
    + intros i n e Hi Hg He. rewrite get_strip, (GR _ _ _ G1) in Hg. destruct (Nat.eqb id i); [discriminate|]. destruct (get g1 i) as [q|] eqn:X; [|discriminate]. injection Hg as <-. cbn in He. apply filter_In in He. eapply C1; [exact Hi|exact X|tauto].
    + intros i n e Hi Hg He. rewrite get_strip, (GR _ _ _ G2) in Hg. destruct (Nat.eqb id i); [discriminate|]. destruct (get g2 i) as [q|] eqn:X; [|discriminate]. injection Hg as <-. cbn in He. apply filter_In in He. eapply C2; [exact Hi|exact X|tauto].
    + intros i n Hi Hg. rewrite get_strip, (GR _ _ _ G1) in Hg. destruct (Nat.eqb id i); [discriminate|]. destruct (get g1 i) as [q|] eqn:X; [|discriminate]. injection Hg as <-. cbn. eapply H; eauto.
    + intros i n Hi Hg. rewrite get_strip, (GR _ _ _ G1) in Hg. destruct (Nat.eqb id i); [discriminate|]. destruct (get g1 i) as [q|] eqn:X; [|discriminate]. injection Hg as <-. cbn. eapply KP; eauto.
Qed.

Lemma doings_app l1 l2 : doings D (l1 ++ l2) = doings D (l1 ++ []) ++ doings D (l2 : list (step_log P Q)).
Proof. unfold doings. rewrite app_nil_r, filter_app, map_app. reflexivity. Qed.
Lemma doings_cons lg l : doings D (lg :: l) = doings D [lg] ++ doings D (l : list (step_log P Q)).
Proof. apply (doings_app [lg]). Qed.

Lemma nodes_inside2 frame ids : forall g1 g2 g2' lgs, Forall (fun i => D i = true) ids -> inv g1 g2 ->
  render_nodes E frame g2 ids = Some (g2', lgs) -> inv g1 g2' /\ doings D lgs = [].
Proof.
  induction ids as [|id ids IH]; intros g1 g2 g2' lgs F I H; cbn [render_nodes] in H; [injection H as <- <-; auto|].
  apply Forall_cons_iff in F. destruct F as [Fi F]. destruct (render_node E frame g2 id) as [[h lg]|] eqn:A; [|discriminate].
  destruct (render_nodes E frame h ids) as [[h' lgs']|] eqn:B; [|discriminate]. injection H as <- <-.
  destruct (node_inside _ _ _ _ _ Fi (proj1 (proj2 (proj2 I))) A) as (X & Y & Z). destruct (IH _ _ _ _ F (inv_replace2 _ _ _ I Y Z) B) as [U W].
  split; [exact U|]. rewrite doings_cons, W. unfold doings. cbn [filter]. rewrite X, Fi. reflexivity.
Qed.

Lemma render_nodes_app frame ids1 : forall ids2 g g' lgs, render_nodes E frame g (ids1 ++ ids2) = Some (g', lgs) ->
  exists h l1 l2, render_nodes E frame g ids1 = Some (h, l1) /\ render_nodes E frame h ids2 = Some (g', l2) /\ lgs = l1 ++ l2.
Proof.
  induction ids1 as [|i ids1 IH]; intros ids2 g g' lgs H; [exists g, [], lgs; auto|]. cbn [app render_nodes] in *.
  destruct (render_node E frame g i) as [[h lg]|]; [|discriminate]. destruct (render_nodes E frame h (ids1 ++ ids2)) as [[h' l']|] eqn:A; [|discriminate]. injection H as <- <-.
  destruct (IH _ _ _ _ A) as (k & l1 & l2 & X & Y & ->). exists k, (lg :: l1), l2. rewrite X. auto.
Qed.

Lemma inside_ids ids : Forall (fun i => negb (D i) = false) ids -> Forall (fun i => D i = true) ids.
Proof. intros F. eapply Forall_impl; [|exact F]. intros i Hi. apply negb_false_iff in Hi. exact Hi. Qed.

Lemma nodes_same frame ids1 : forall ids2 g1 g2 g1' g2' l1 l2, filter outs_ ids1 = filter outs_ ids2 -> inv g1 g2 ->
  render_nodes E frame g1 ids1 = Some (g1', l1) -> render_nodes E frame g2 ids2 = Some (g2', l2) ->
  inv g1' g2' /\ doings D l1 = doings D l2.
Proof.
  induction ids1 as [|id ids1 IH]; intros ids2 g1 g2 g1' g2' l1 l2 F I A B.
  - cbn in A, F. injection A as <- <-. symmetry in F. apply filter_nil_forall, inside_ids in F.
    destruct (nodes_inside2 _ _ _ _ _ _ F I B) as [X Y]. split; [exact X|]. rewrite Y. reflexivity.
  - cbn [render_nodes] in A. destruct (render_node E frame g1 id) as [[h1 lg1]|] eqn:A1; [|discriminate].
    destruct (render_nodes E frame h1 ids1) as [[k1 m1]|] eqn:A2; [|discriminate]. injection A as <- <-. cbn [filter] in F.
    destruct (D id) eqn:Hd; cbn [negb] in F.
    + destruct (node_inside _ _ _ _ _ Hd (proj1 (proj2 I)) A1) as (X & Y & Z).
      destruct (IH _ _ _ _ _ _ _ F (inv_replace1 _ _ _ I Y Z) A2 B) as [U W]. split; [exact U|].
      rewrite doings_cons, <- W. unfold doings at 1. cbn [filter]. rewrite X, Hd. reflexivity.
    + symmetry in F. apply filter_cons_split in F. destruct F as (pre & post & -> & F1 & F2 & _). apply inside_ids in F1.
      apply render_nodes_app in B. destruct B as (k2 & m2 & n2 & B1 & B2 & ->). cbn [render_nodes] in B2.
      destruct (render_node E frame k2 id) as [[h2 lg2]|] eqn:B3; [|discriminate]. destruct (render_nodes E frame h2 post) as [[q2 r2]|] eqn:B4; [|discriminate]. injection B2 as <- <-.
      destruct (nodes_inside2 _ _ _ _ _ _ F1 I B1) as [I2 W2]. destruct (node_same _ _ _ _ _ _ _ _ Hd I2 A1 B3) as [I3 W3].
      assert (F3 : filter outs_ ids1 = filter outs_ post) by congruence.
      destruct (IH _ _ _ _ _ _ _ F3 I3 A2 B4) as [I4 W4]. split; [exact I4|].
      rewrite (doings_app m2), app_nil_r, W2. cbn [app]. rewrite (doings_cons lg1), (doings_cons lg2), W3, W4. reflexivity.
Qed.

Lemma render_same frame g1 g2 g1' g2' l1 l2 o1 o2 : inv (g_nodes g1) (g_nodes g2) -> filter outs_ (g_ordered g1) = filter outs_ (g_ordered g2) ->
  In 0 (g_ordered g1) -> In 0 (g_ordered g2) -> render E frame g1 = Some (g1', l1, o1) -> render E frame g2 = Some (g2', l2, o2) ->
  inv (g_nodes g1') (g_nodes g2') /\ filter outs_ (g_ordered g1') = filter outs_ (g_ordered g2') /\ In 0 (g_ordered g1') /\ In 0 (g_ordered g2') /\
  doings D l1 = doings D l2 /\ (D 0 = false -> o1 = o2).
Proof.
  intros I F Z1 Z2 A B. unfold render in A, B.
  assert (Y1 : match g_ordered g1 with [] => match order_nodes (g_nodes g1) with ORet g' o _ => Some (g', o) | _ => None end | _ => Some (g_nodes g1, g_ordered g1) end = Some (g_nodes g1, g_ordered g1)) by (destruct (g_ordered g1); [contradiction|reflexivity]).
  assert (Y2 : match g_ordered g2 with [] => match order_nodes (g_nodes g2) with ORet g' o _ => Some (g', o) | _ => None end | _ => Some (g_nodes g2, g_ordered g2) end = Some (g_nodes g2, g_ordered g2)) by (destruct (g_ordered g2); [contradiction|reflexivity]).
  cbv zeta in A, B. rewrite Y1 in A. rewrite Y2 in B.
  destruct (render_nodes E frame (g_nodes g1) (g_ordered g1)) as [[k1 m1]|] eqn:R1; [|discriminate]. destruct (render_nodes E frame (g_nodes g2) (g_ordered g2)) as [[k2 m2]|] eqn:R2; [|discriminate].
  destruct (get k1 0) as [d1|] eqn:D1; [|discriminate]. destruct (get k2 0) as [d2|] eqn:D2; [|discriminate].
  destruct (n_outputs d1) as [|q1 qs1] eqn:O1; [discriminate|]. destruct (n_outputs d2) as [|q2 qs2] eqn:O2; [discriminate|].
  injection A as <- <- <-. injection B as <- <- <-. destruct (nodes_same _ _ _ _ _ _ _ _ _ F I R1 R2) as [I' W]. cbn [g_nodes g_ordered].
  split; [exact I'|]. split; [|split; [|split; [|split; [exact W|]]]].
  - unfold prune. rewrite !(filter_comm outs_), F. apply filter_ext_in. intros i Hi. apply filter_In in Hi. destruct Hi as [_ Hi]. apply negb_true_iff in Hi.
    pose proof (proj1 I' i Hi) as S. destruct (get k1 i), (get k2 i); try contradiction; reflexivity.
  - apply filter_In. rewrite D1. auto.
  - apply filter_In. rewrite D2. auto.
  - intros H0. pose proof (proj1 I' 0 H0) as S. rewrite D1, D2 in S. destruct S as (_ & _ & S & _). congruence.
Qed.

Lemma play_same frames : forall g1 g2 g1' g2' l1 l2 o1 o2, inv (g_nodes g1) (g_nodes g2) -> filter outs_ (g_ordered g1) = filter outs_ (g_ordered g2) ->
  In 0 (g_ordered g1) -> In 0 (g_ordered g2) -> play E g1 frames = Some (g1', l1, o1) -> play E g2 frames = Some (g2', l2, o2) ->
  map (doings D) l1 = map (doings D) l2 /\ (D 0 = false -> o1 = o2).
Proof.
  induction frames as [|f fs IH]; intros g1 g2 g1' g2' l1 l2 o1 o2 I F Z1 Z2 A B; cbn [play] in A, B.
  - injection A as <- <- <-. injection B as <- <- <-. auto.
  - destruct (render E f g1) as [[[h1 m1] q1]|] eqn:R1; [|discriminate]. destruct (render E f g2) as [[[h2 m2] q2]|] eqn:R2; [|discriminate].
    destruct (play E h1 fs) as [[[k1 n1] s1]|] eqn:P1; [|discriminate]. destruct (play E h2 fs) as [[[k2 n2] s2]|] eqn:P2; [|discriminate].
    injection A as <- <- <-. injection B as <- <- <-.
    destruct (render_same _ _ _ _ _ _ _ _ _ I F Z1 Z2 R1 R2) as (I' & F' & Z1' & Z2' & W & O). destruct (IH _ _ _ _ _ _ _ _ I' F' Z1' Z2' P1 P2) as [X Y].
    cbn [map]. split; [congruence|]. intros H0. rewrite (O H0), (Y H0). reflexivity.
Qed.
End ContainProofs.
