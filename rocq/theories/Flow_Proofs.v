(** A graph of held nodes computes its equations. *)
From Coq Require Import List Arith Bool Lia.
From Verif Require Import Graph_Model Graph_Spec Graph_OrderProofs Graph_RenderProofs
  Graph_TraceModel Graph_TraceSpec Graph_TraceProofs Flow_Spec.
Import ListNotations.

Section Flow.
Context {P Q CFG : Type}.
Notation graph := (graph P Q CFG).
Notation nodes := (nodes P Q CFG).
Implicit Types g : graph.
Variable E : env P Q CFG.
Hypothesis EOK : env_ok E.

Definition held (ns : nodes) : Prop := forall i n, get ns i = Some n -> n_dropped n = false.
Definition at_rest g : Prop := WF g /\ settledg g /\ allquiet E g /\ held (g_nodes g) /\ (forall i, ~ on_delay_free_cycle (g_nodes g) i).

Lemma view_now f ns1 ord (lgs : list (step_log P Q)) l1 lb l2 la p' outs t :
  rendering_order ns1 ord -> map l_id lgs = ord -> logs_ok E f ns1 [] lgs -> lgs = l1 ++ lb :: l2 ->
  In la lgs -> before ord (l_id la) (l_id lb) -> l_result la = Some (p', outs, t) -> l_freed la = false ->
  l_view lb (l_id la) = Some outs.
Proof.
  intros (N & L & T) Hids Hlogs Hsp Hla Hbef Hres Hfr. subst ord.
  assert (Hlok : log_ok E f ns1 l1 lb).
  { change l1 with ([] ++ l1). eapply logs_ok_split. rewrite <- Hsp. exact Hlogs. }
  destruct Hlok as (n & En & _ & _ & _ & Hv & _). rewrite Hv.
  assert (Hneq : l_id la <> l_id lb).
  { intros X. rewrite X in Hbef. exact (before_NoDup_irrefl _ _ N Hbef). }
  rewrite (proj2 (Nat.eqb_neq _ _) Hneq).
  assert (Hin1 : In la l1).
  { rewrite Hsp in Hla. apply in_app_or in Hla. destruct Hla as [H|[H|H]]; [exact H|congruence|].
    exfalso. apply in_split in H. destruct H as (m1 & m2 & ->).
    assert (Hb2 : before (map l_id lgs) (l_id lb) (l_id la)).
    { rewrite Hsp, map_app. cbn. rewrite map_app. cbn.
      exists (map l_id l1), (map l_id m1), (map l_id m2). reflexivity. }
    apply (before_NoDup_irrefl _ (l_id la) N). eapply before_trans; eauto. }
  assert (N1 : NoDup (map l_id l1)).
  { rewrite Hsp, map_app in N. clear -N. induction (map l_id l1) as [|x l IH]; [constructor|].
    cbn in N. inversion N as [|? ? A B]; subst. constructor; [|apply IH; exact B].
    intros H. apply A. apply in_or_app; now left. }
  destruct (logs_ok_In E _ _ _ _ _ Hlogs Hla) as (pre' & n' & En' & _).
  unfold after. rewrite En', (logged_In l1 (l_id la) la N1 Hin1 eq_refl), Hfr, Hres. reflexivity.
Qed.

Lemma held_cut ns ns' : cut_at_breakers ns ns' -> held ns -> held ns'.
Proof.
  intros H Hh i n Hn. destruct (H i) as [X|(m & Em & _ & _ & X)]; rewrite X in Hn; [eapply Hh; exact Hn|].
  injection Hn as <-. cbn. eapply Hh; exact Em.
Qed.

Lemma rev_case {A} (l : list A) : l = [] \/ exists u x, l = u ++ [x].
Proof. destruct l as [|a l]; [left; reflexivity|]. right. destruct (exists_last (l := a :: l) ltac:(discriminate)) as (u & x & ->). exists u, x. reflexivity. Qed.

(** one quantum *)
Lemma quantum_flow f g g1 lgs o : at_rest g -> render E f g = Some (g1, lgs, o) -> Forall (fun lg => l_result lg <> None) lgs ->
  exists ns1 ord, reordered g ns1 ord /\ rendering_order ns1 ord /\ (forall i, live ns1 i -> In i ord) /\
    (forall i n, get ns1 i = Some n -> exists lg p' o' t,
        In lg lgs /\ l_id lg = i /\ l_result lg = Some (p', o', t) /\
        l_result lg = process E (n_proc n) (map (fun port => mixed E (n_cfg n) (signals_into lgs i port)) (seq 0 (length (n_inputs n)))) (n_outputs n) (l_view lg) f /\
        get (g_nodes g1) i = Some (mk_node p' (repeat (silence E) (length (n_inputs n))) o' (n_cfg n) (n_edges n) (n_dropped n) false (n_breaker n)) /\
        (forall a, connected ns1 a i -> exists m, get (g_nodes g1) a = Some m /\ l_view lg a = Some (n_outputs m))) /\
    (forall i, get ns1 i = None -> get (g_nodes g1) i = None) /\
    (forall i port, signals_into lgs i port = arriving ns1 ord (fun j => option_map (fun n => (n_proc n, n_outputs n)) (get (g_nodes g1) j)) i port) /\
    g_ordered g1 = ord /\ (exists d, get (g_nodes g1) 0 = Some d /\ hd_error (n_outputs d) = Some o) /\ at_rest g1.
Proof.
  intros (HW & HS & HQ & HH & HC) Hr HR. pose proof Hr as Hr0.
  destruct (render_quantum E EOK _ _ _ _ _ HW Hr) as (ns1 & ord & [Hre Hids Hlogs Hget Hord]).
  pose proof (reordered_order _ _ _ HW Hre) as RO. pose proof RO as (N & L & T).
  pose proof (reordered_cut _ _ _ Hre) as Hcut.
  assert (HC1 : forall i, ~ on_delay_free_cycle ns1 i) by (intros i Hi; apply (cut_delay_free _ _ i Hcut) in Hi; exact (HC i Hi)).
  assert (All : forall i, live ns1 i -> In i ord) by (apply complete_all; [eapply reordered_complete; eauto|exact HC1]).
  pose proof (held_cut _ _ Hcut HH) as HH1.
  assert (ND : NoDup (map l_id lgs)) by (rewrite Hids; exact N).
  assert (Fr : forall lg, In lg lgs -> l_freed lg = false).
  { intros lg Hlg. destruct (logs_ok_In E _ _ _ _ _ Hlogs Hlg) as (pre' & n & En & _ & _ & _ & _ & _ & Hm).
    rewrite Forall_forall in HR. specialize (HR lg Hlg). destruct (l_result lg) as [[[p' o'] t]|]; [|congruence].
    destruct Hm as [_ ->]. unfold can_free. cbn. rewrite (HH1 _ _ En). reflexivity. }
  assert (Rec : reclaimed lgs = []).
  { destruct (reclaimed lgs) as [|x l] eqn:Ex; [reflexivity|]. exfalso. assert (Hx : In x (reclaimed lgs)) by (rewrite Ex; left; reflexivity).
    apply reclaimed_In in Hx. destruct Hx as (lg & A & _ & B). rewrite (Fr lg A) in B. discriminate. }
  assert (LE : forall es, live_edges lgs es = es) by (intro es; apply live_edges_all; intros e _; unfold freed_ids; rewrite Rec; intros []).
  assert (Cell : forall i n, get ns1 i = Some n -> exists l1 lg l2 p' o' t, lgs = l1 ++ lg :: l2 /\ l_id lg = i /\ l_result lg = Some (p', o', t) /\
      get (g_nodes g1) i = Some (mk_node p' (repeat (silence E) (length (n_inputs n))) o' (n_cfg n) (n_edges n) (n_dropped n) false (n_breaker n))).
  { intros i n En. assert (Hin : In i (map l_id lgs)) by (rewrite Hids; apply All; exists n; exact En).
    apply in_map_iff in Hin. destruct Hin as (lg & Hid & Hlg). pose proof (in_split _ _ Hlg) as (l1 & l2 & Hsp).
    rewrite Forall_forall in HR. pose proof (HR lg Hlg) as Hres. destruct (l_result lg) as [[[p' o'] t]|] eqn:El; [|congruence].
    exists l1, lg, l2, p', o', t. split; [exact Hsp|]. split; [exact Hid|]. split; [exact El|].
    rewrite Hget. unfold after. rewrite En, (logged_In lgs i lg ND Hlg Hid), (Fr lg Hlg), El, LE. reflexivity. }
  exists ns1, ord. split; [exact Hre|]. split; [exact RO|]. split; [exact All|]. split; [|split; [|split; [|split; [|split]]]].
  - intros i n En. destruct (Cell i n En) as (l1 & lg & l2 & p' & o' & t & Hsp & Hid & Hres & Hg).
    assert (Hlg : In lg lgs) by (rewrite Hsp; apply in_or_app; right; left; reflexivity).
    exists lg, p', o', t. split; [exact Hlg|]. split; [exact Hid|]. split; [exact Hres|].
    destruct (logs_ok_In E _ _ _ _ _ Hlogs Hlg) as (pre' & m & Em & _ & _ & _ & _ & Hpr & _).
    rewrite Hid in Em. rewrite En in Em. injection Em as <-.
    pose proof (quantum_inputs E f ns1 ord lgs lg n RO Hids Hlogs Hlg) as Hin. rewrite Hid in Hin.
    split; [rewrite Hpr, Hin; [reflexivity|exact En|]; apply (reordered_quiet E _ _ _ _ Hre); apply HQ|]. split; [exact Hg|].
    intros a Ha. pose proof Ha as (m & e & Ea & _). destruct (Cell a m Ea) as (k1 & la & k2 & pa & oa & ta & Hspa & Hida & Hresa & Hga).
    eexists. split; [exact Hga|]. cbn [n_outputs]. rewrite <- Hida.
    assert (Hla : In la lgs) by (rewrite Hspa; apply in_or_app; right; left; reflexivity).
    eapply view_now; [exact RO|exact Hids|exact Hlogs|exact Hsp|exact Hla| |exact Hresa|apply Fr; exact Hla].
    rewrite Hida, Hid. apply T; [apply All; exists m; exact Ea|apply All; exists n; exact En|exact Ha].
  - intros i En. rewrite Hget. unfold after. rewrite En. reflexivity.
  - intros i port. unfold signals_into, arriving. rewrite <- Hids. rewrite flat_map_concat_map, (flat_map_concat_map _ (map l_id lgs)), map_map. f_equal.
    apply map_ext_in. intros lg Hlg. destruct (logs_ok_In E _ _ _ _ _ Hlogs Hlg) as (pre' & n & En & _ & _ & _ & _ & _ & Hm).
    destruct (Cell (l_id lg) n En) as (l1 & lg' & l2 & p' & o' & t & Hsp & Hid & Hres & Hg).
    assert (lg' = lg).
    { assert (Hlg' : In lg' lgs) by (rewrite Hsp; apply in_or_app; right; left; reflexivity).
      pose proof (logged_In lgs (l_id lg) lg ND Hlg eq_refl) as A. pose proof (logged_In lgs (l_id lg) lg' ND Hlg' Hid) as B. congruence. }
    subst lg'. rewrite Hres in *. destruct Hm as [-> _]. rewrite En. unfold outputs_of. rewrite Hg. reflexivity.
  - rewrite Hord. unfold prune.
    assert (Keep : forall l, (forall i, In i l -> live (g_nodes g1) i) -> filter (fun i => match get (g_nodes g1) i with Some _ => true | None => false end) l = l).
    { induction l as [|x l IH]; cbn; intro H; [reflexivity|]. destruct (H x (or_introl eq_refl)) as [m ->]. f_equal. apply IH. intros; apply H; right; assumption. }
    apply Keep. intros i Hi. destruct (L i Hi) as [n Hn]. destruct (Cell i n Hn) as (l1 & lg & l2 & p' & o' & t & _ & _ & _ & Hg). eexists; exact Hg.
  - unfold render in Hr. destruct (match g_ordered g with [] => _ | _ => _ end) as [[gn ord']|]; [|discriminate].
    destruct (render_nodes E f gn ord') as [[gn' lgs']|]; [|discriminate]. destruct (get gn' 0) as [d|] eqn:Ed; [|discriminate].
    destruct (n_outputs d) as [|q qs] eqn:Eq; [discriminate|]. injection Hr as <- <- <-. exists d. cbn. rewrite Eq. split; [exact Ed|reflexivity].
  - split; [eapply WF_render; eauto|]. split; [eapply settled_render; eauto|]. split; [|split].
    + intros i. eapply quiet_after; [exact Hget|]. rewrite Hids. exact All.
    + intros i m Hm. destruct (get ns1 i) as [n|] eqn:En; [|rewrite Hget in Hm; unfold after in Hm; rewrite En in Hm; discriminate].
      destruct (Cell i n En) as (l1 & lg & l2 & p' & o' & t & _ & _ & _ & Hg). rewrite Hg in Hm. injection Hm as <-. cbn. eapply HH1; exact En.
    + assert (Con : forall a b, connected (g_nodes g1) a b -> connected ns1 a b).
      { intros a b Hab. destruct (after_connected E ns1 lgs (g_nodes g1) a b Hget Hab) as [H _]. exact H. }
      intros i (c & C1 & C2 & C3). apply (HC1 i). exists c. split; [eapply is_cycle_weaken; [exact Con|exact C1]|]. split; [exact C2|].
      intros x Hx (n & En & Hb). apply (C3 x Hx). destruct (Cell x n En) as (l1 & lg & l2 & p' & o' & t & _ & _ & _ & Hg).
      eexists. split; [exact Hg|]. exact Hb.
Qed.

Lemma flow_ends frames : forall g g' ll os ns ord, at_rest g -> reordered g ns ord -> play E g frames = Some (g', ll, os) ->
  Forall (Forall (fun lg => l_result lg <> None)) ll ->
  exists state, dataflow E ns ord frames state /\
    ((forall k o, nth_error os k = Some o -> hd_error (outputs_of (state (S k)) 0) = Some o) /\ length os = length frames) /\
    forall i, state (length frames) i = option_map (fun n => (n_proc n, n_outputs n)) (get (g_nodes g') i).
Proof.
  induction frames as [|f frames IH]; intros g g' ll os ns ord HR Hre Hp Hll.
  - cbn in Hp. injection Hp as <- <- <-.
    exists (fun _ i => option_map (fun n => (n_proc n, n_outputs n)) (get ns i)). split; [|split; [split; [intros [|k] o; discriminate|reflexivity]|]];
      [|intros i; destruct (reordered_cut _ _ _ Hre i) as [->|(n & En & _ & _ & ->)]; [reflexivity|rewrite En; reflexivity]].
    destruct HR as (HW & HS & HQ & HH & HC). constructor.
    + eapply reordered_order; eauto.
    + apply complete_all; [eapply reordered_complete; eauto|]. intros i Hi. apply (cut_delay_free _ _ i (reordered_cut _ _ _ Hre)) in Hi. exact (HC i Hi).
    + reflexivity.
    + intros [|k] f i n; discriminate.
  - cbn [play] in Hp. destruct (render E f g) as [[[g1 lgs] o]|] eqn:Hr; [|discriminate].
    destruct (play E g1 frames) as [[[g2 ll2] os2]|] eqn:Hp2; [|discriminate]. injection Hp as <- <- <-. inversion Hll as [|? ? Hl1 Hl2]; subst.
    destruct (quantum_flow f g g1 lgs o HR Hr Hl1) as (ns1 & ord1 & Hre1 & RO & All & Hstep & Hnone & Hsig & Hord & (d & Hd0 & Hdo) & HR1).
    assert (ns1 = ns /\ ord1 = ord) as [-> ->].
    { destruct Hre as [(A1 & A2 & A3)|(A1 & cyc & A2 & _)], Hre1 as [(B1 & B2 & B3)|(B1 & cyc1 & B2 & _)]; try congruence.
      - split; congruence.
      - rewrite B2 in A2. injection A2 as <- <- <-. split; reflexivity. }
    assert (Hre2 : reordered g1 (g_nodes g1) ord).
    { left. split; [|split; [reflexivity|symmetry; exact Hord]]. rewrite Hord. intros ->.
      assert (L0 : live ns 0). { destruct (get ns 0) as [n|] eqn:E0; [exists n; exact E0|]. rewrite (Hnone 0 E0) in Hd0. discriminate. }
      destruct (All 0 L0). }
    destruct (IH g1 g2 ll2 os2 (g_nodes g1) ord HR1 Hre2 Hp2 Hl2) as (state & [D1 D2 D3 D4] & (Ho & Hlen) & Hend).
    exists (fun k => match k with O => fun i => option_map (fun n => (n_proc n, n_outputs n)) (get ns i) | S k' => state k' end).
    assert (Hout : forall j, state 0 j = option_map (fun n => (n_proc n, n_outputs n)) (get (g_nodes g1) j)) by exact D3.
    assert (Arr : forall m i port, arriving (g_nodes g1) ord m i port = arriving ns ord m i port).
    { intros m i port. unfold arriving. rewrite !flat_map_concat_map. f_equal. apply map_ext. intro a.
      destruct (get ns a) as [n|] eqn:En; [|rewrite (Hnone a En); reflexivity].
      destruct (Hstep a n En) as (lg & p' & o' & t & _ & _ & _ & _ & -> & _). reflexivity. }
    assert (Con : forall a b, connected ns a b -> connected (g_nodes g1) a b).
    { intros a b (n & e & En & He & Hd). destruct (Hstep a n En) as (lg & p' & o' & t & _ & _ & _ & _ & Hg & _). eexists _, e. split; [exact Hg|]. split; [exact He|exact Hd]. }
    split; [|split; [split; [|cbn; f_equal; exact Hlen]|exact Hend]].
    + constructor; [exact RO|exact All|reflexivity|]. intros [|k] f' i n Hf Hn.
      * cbn in Hf. injection Hf as <-. destruct (Hstep i n Hn) as (lg & p' & o' & t & Hlg & Hid & Hres & Hpr & Hg & Hv).
        exists (n_proc n), (n_outputs n), p', o', (l_view lg), t. rewrite Hn, Hout, Hg. split; [reflexivity|]. split; [reflexivity|]. split.
        -- rewrite <- Hres, Hpr. f_equal. apply map_ext. intro port. f_equal. rewrite Hsig. unfold arriving. rewrite !flat_map_concat_map. f_equal. apply map_ext. intro a.
           unfold outputs_of. rewrite Hout. reflexivity.
        -- intros a Ha. destruct (Hv a Ha) as (m & Em & ->). unfold outputs_of. rewrite Hout, Em. reflexivity.
      * destruct (Hstep i n Hn) as (lg & p' & o' & t & _ & _ & _ & _ & Hg & _).
        destruct (D4 k f' i _ Hf Hg) as (p & q & p2 & q2 & others & tail & A1 & A2 & A3 & A4). cbn [n_cfg n_inputs] in A3. rewrite repeat_length in A3.
        exists p, q, p2, q2, others, tail. split; [exact A1|]. split; [exact A2|]. split.
        -- rewrite <- A3. f_equal. apply map_ext. intro port. rewrite Arr. reflexivity.
        -- intros a Ha. apply A4. apply Con. exact Ha.
    + intros [|k] o1 Hk; cbn in Hk.
      * injection Hk as <-. unfold outputs_of. rewrite Hout, Hd0. exact Hdo.
      * apply Ho. exact Hk.
Qed.

Lemma play_total frames : never_panics E -> forall g, at_rest g -> (exists d, get (g_nodes g) 0 = Some d /\ n_outputs d <> []) ->
  exists g' ll os, play E g frames = Some (g', ll, os) /\ Forall (Forall (fun lg => l_result lg <> None)) ll.
Proof.
  intros NP. induction frames as [|f frames IH]; intros g HR (d & Hd & Ho); cbn [play]; [do 3 eexists; split; [reflexivity|constructor]|].
  pose proof HR as (HW & HS & HQ & HH & HC).
  destruct (render_total E EOK f g HW) as (g1 & lgs & o & Hr).
  { cbn. exists d. split; [exact Hd|]. split; [exact Ho|]. split; [eapply HH; exact Hd|]. intros; apply NP. }
  rewrite Hr. assert (HL : Forall (fun lg => l_result lg <> None) lgs).
  { apply Forall_forall. intros lg Hlg. destruct (render_quantum E EOK _ _ _ _ _ HW Hr) as (ns1 & ord & [_ _ Hlogs _ _]).
    destruct (logs_ok_In E _ _ _ _ _ Hlogs Hlg) as (pre' & m & Em & _ & _ & _ & _ & Hpr & _). rewrite Hpr. apply NP. }
  destruct (quantum_flow f g g1 lgs o HR Hr HL) as (ns1 & ord1 & _ & _ & _ & _ & _ & _ & _ & (d1 & Hd1 & Ho1) & HR1).
  destruct (IH g1 HR1) as (g2 & ll & os & Hp & HF); [exists d1; split; [exact Hd1|]; intros X; rewrite X in Ho1; discriminate|].
  rewrite Hp. do 3 eexists. split; [reflexivity|]. constructor; assumption.
Qed.

(** the equations have one solution *)
Lemma dataflow_unique ns ord frames s1 s2 : reads_connected E ns s1 -> dataflow E ns ord frames s1 -> dataflow E ns ord frames s2 ->
  forall k i n, k <= length frames -> get ns i = Some n -> s1 k i = s2 k i.
Proof.
  intros HRd [A1 A2 A3 A4] [B1 B2 B3 B4]. induction k as [|k IHk]; [intros i n _ _; rewrite A3, B3; reflexivity|].
  intros i n Hk Hi.
  assert (Hf : exists f, nth_error frames k = Some f) by (destruct (nth_error frames k) eqn:X; [eexists; reflexivity|apply nth_error_None in X; lia]).
  destruct Hf as [f Hf]. destruct A1 as (N & L & T).
  assert (Pre : forall m l1 l2, length l1 <= m -> ord = l1 ++ l2 -> forall a, In a l1 -> s1 (S k) a = s2 (S k) a).
  { induction m as [|m IHm]; intros l1 l2 Hm Hord a Ha; [destruct l1; [destruct Ha|cbn in Hm; lia]|].
    apply in_split in Ha. destruct Ha as (u & v & ->).
    assert (Hain : In a ord) by (rewrite Hord; apply in_or_app; left; apply in_or_app; right; left; reflexivity).
    destruct (L a Hain) as [na Hna].
    destruct (A4 k f a na Hf Hna) as (p & o & p' & o' & v1 & t & C1 & C2 & C3 & C4).
    destruct (B4 k f a na Hf Hna) as (q & o2 & q' & o2' & v2 & t2 & D1 & D2 & D3 & D4).
    pose proof C1 as C0. rewrite (IHk a na) in C1 by (lia || assumption). rewrite D1 in C1. injection C1 as -> ->.
    assert (Bef : forall b, connected ns b a -> s1 (S k) b = s2 (S k) b).
    { intros b Hb. pose proof Hb as (nb & e & Hnb & _). apply (IHm u (a :: v ++ l2)).
      - rewrite app_length in Hm. cbn in Hm. lia.
      - rewrite Hord, <- app_assoc. reflexivity.
      - pose proof (T b a (A2 b (ex_intro _ nb Hnb)) Hain Hb) as (w1 & w2 & w3 & Hw).
        assert (Heq : w1 ++ b :: w2 = u).
        { assert (Hw' : (w1 ++ b :: w2) ++ a :: w3 = u ++ a :: (v ++ l2)) by (rewrite <- app_assoc; cbn; rewrite <- Hw, Hord, <- app_assoc; reflexivity).
          assert (N' : NoDup ((w1 ++ b :: w2) ++ a :: w3)) by (rewrite <- app_assoc; cbn; rewrite <- Hw; exact N).
          clear -Hw' N'. revert u Hw' N'. induction (w1 ++ b :: w2) as [|x l IH]; intros u Hw' N'; destruct u as [|y u]; cbn in *; [reflexivity| | |].
          - injection Hw' as -> Hw'. inversion N' as [|? ? X _]; subst. exfalso. apply X. apply in_or_app. right; left; reflexivity.
          - injection Hw' as -> Hw'. inversion N' as [|? ? X _]; subst. exfalso. apply X. apply in_or_app. right; left; reflexivity.
          - injection Hw' as -> Hw'. inversion N'; subst. f_equal. apply IH; assumption. }
        rewrite <- Heq. apply in_or_app. right; left; reflexivity. }
    assert (Arr : forall port, arriving ns ord (s1 (S k)) a port = arriving ns ord (s2 (S k)) a port).
    { intro port. unfold arriving. rewrite !flat_map_concat_map. f_equal. apply map_ext. intro b. destruct (get ns b) as [nb|] eqn:Eb; [|reflexivity].
      destruct (existsb (fun e => Nat.eqb (e_dest e) a) (n_edges nb)) eqn:Ex.
      - apply existsb_exists in Ex. destruct Ex as (e & He & Hd). apply Nat.eqb_eq in Hd.
        assert (Hb : connected ns b a) by (exists nb, e; repeat split; assumption). unfold outputs_of. rewrite (Bef b Hb). reflexivity.
      - assert (Z : forall o : list Q, signals_of o (n_edges nb) a port = []).
        { intro oo. unfold signals_of. clear -Ex. induction (n_edges nb) as [|e es IH]; cbn in *; [reflexivity|].
          apply orb_false_iff in Ex. destruct Ex as [X1 X2]. rewrite X1. cbn. exact (IH X2). }
        rewrite !Z. reflexivity. }
    rewrite C2, D2.
    assert (Heq : process E p (map (fun port => mixed E (n_cfg na) (arriving ns ord (s1 (S k)) a port)) (seq 0 (length (n_inputs na)))) o v1 f =
                  process E p (map (fun port => mixed E (n_cfg na) (arriving ns ord (s2 (S k)) a port)) (seq 0 (length (n_inputs na)))) o v2 f).
    { transitivity (process E p (map (fun port => mixed E (n_cfg na) (arriving ns ord (s2 (S k)) a port)) (seq 0 (length (n_inputs na)))) o v1 f).
      - f_equal. apply map_ext. intro port. rewrite Arr. reflexivity.
      - apply (HRd k a); [exact C0|]. intros b Hb. rewrite (C4 b Hb), (D4 b Hb). unfold outputs_of. rewrite (Bef b Hb). reflexivity. }
    rewrite C3, D3 in Heq. injection Heq as -> -> _. reflexivity. }
  apply (Pre (length ord) ord []); [lia|symmetry; apply app_nil_r|]. apply A2. exists n; exact Hi.
Qed.

(** ** Solutions of the equations are played *)
Lemma quantum_solved f g ns ord (m' : @moment P Q) : at_rest g -> reordered g ns ord ->
  (forall i n ins v v', get ns i = Some n -> (forall a, connected ns a i -> v a = v' a) -> process E (n_proc n) ins (n_outputs n) v f = process E (n_proc n) ins (n_outputs n) v' f) ->
  (forall i n, get ns i = Some n -> exists p' o' others t, m' i = Some (p', o') /\
     process E (n_proc n) (map (fun port => mixed E (n_cfg n) (arriving ns ord m' i port)) (seq 0 (length (n_inputs n)))) (n_outputs n) others f = Some (p', o', t) /\
     forall a, connected ns a i -> others a = Some (outputs_of m' a)) ->
  (exists d, get (g_nodes g) 0 = Some d /\ n_outputs d <> []) ->
  exists g1 lgs o, render E f g = Some (g1, lgs, o) /\ Forall (fun lg => l_result lg <> None) lgs /\
    (forall i n, get ns i = Some n -> exists n1, get (g_nodes g1) i = Some n1 /\ m' i = Some (n_proc n1, n_outputs n1)) /\
    hd_error (outputs_of m' 0) = Some o.
Proof.
  intros (HW & HS & HQ & HH & HC) Hre HRd Hsol (d & Ed & Hout).
  pose proof (reordered_order _ _ _ HW Hre) as RO. pose proof RO as (N & L & T).
  pose proof (reordered_cut _ _ _ Hre) as Hcut. pose proof (held_cut _ _ Hcut HH) as HH1.
  destruct (render_nodes_post E EOK f ns ord (reordered_QOK _ _ _ HW Hre)) as (gn & lgs & Hrn & Hids & Hlogs & Hget).
  assert (HC1 : forall i, ~ on_delay_free_cycle ns i) by (intros i Hi; apply (cut_delay_free _ _ i Hcut) in Hi; exact (HC i Hi)).
  assert (All : forall i, live ns i -> In i ord) by (apply complete_all; [eapply reordered_complete; eauto|exact HC1]).
  assert (ND : NoDup (map l_id lgs)) by (rewrite Hids; exact N).
  assert (Good : forall k l1 l2, length l1 <= k -> lgs = l1 ++ l2 ->
    Forall (fun lg => exists p' o' t, l_result lg = Some (p', o', t) /\ m' (l_id lg) = Some (p', o')) l1).
  { induction k as [|k IH]; intros l1 l2 Hk Hsp; [destruct l1; [constructor|cbn in Hk; lia]|].
    destruct (rev_case l1) as [->|(u & lg & ->)]; [constructor|]. rewrite app_length in Hk. cbn in Hk.
    assert (Hsp' : lgs = u ++ lg :: l2) by (rewrite Hsp, <- app_assoc; reflexivity).
    pose proof (IH u (lg :: l2) ltac:(lia) Hsp') as HU. apply Forall_app. split; [exact HU|]. constructor; [|constructor].
    assert (Hlg : In lg lgs) by (rewrite Hsp'; apply in_or_app; right; left; reflexivity).
    destruct (logs_ok_In E _ _ _ _ _ Hlogs Hlg) as (pre' & n & En & _ & _ & _ & _ & Hpr & _).
    destruct (Hsol (l_id lg) n En) as (p' & o' & others & t & S1 & S2 & S3). exists p', o', t. split; [|exact S1].
    assert (Early : forall b, connected ns b (l_id lg) -> exists la, In la u /\ l_id la = b).
    { intros b Hb. pose proof Hb as (nb & e & Hnb & _).
      assert (Bef : before ord b (l_id lg)) by (apply T; [apply All; exists nb; exact Hnb|apply All; exists n; exact En|exact Hb]).
      destruct Bef as (w1 & w2 & w3 & Hw). rewrite <- Hids, Hsp', map_app in Hw. cbn [map] in Hw.
      assert (Hu : In b (map l_id u)).
      { assert (Eq : map l_id u = w1 ++ b :: w2).
        { assert (N' : NoDup (map l_id u ++ l_id lg :: map l_id l2)) by (rewrite <- Hids, Hsp', map_app in N; exact N).
          assert (Hw' : map l_id u ++ l_id lg :: map l_id l2 = (w1 ++ b :: w2) ++ l_id lg :: w3) by (rewrite <- app_assoc; exact Hw).
          clear - Hw' N'. revert Hw' N'. generalize (w1 ++ b :: w2) as y. generalize (map l_id u) as x. generalize (map l_id l2) as z. intros z x y. revert y.
          induction x as [|a x IHx]; intros y Hw' N'; destruct y as [|c y]; cbn in *; [reflexivity| | |].
          - injection Hw' as Hc Hw'. rewrite Hw' in N'. inversion N' as [|? ? X _]. exfalso. apply X. apply in_or_app. right; left; congruence.
          - injection Hw' as Hc Hw'. inversion N' as [|? ? X _]. exfalso. apply X. apply in_or_app. right; left; congruence.
          - injection Hw' as Hc Hw'. inversion N'; subst. f_equal. apply IHx; assumption. }
        rewrite Eq. apply in_or_app. right; left; reflexivity. }
      apply in_map_iff in Hu. destruct Hu as (la & A & B). exists la. split; assumption. }
    rewrite Forall_forall in HU.
    assert (HV : forall a, connected ns a (l_id lg) -> l_view lg a = others a).
    { intros a Ha. rewrite (S3 a Ha). destruct (Early a Ha) as (la & Hla & Hida). destruct (HU la Hla) as (pa & oa & ta & Ra & Ma).
      rewrite Hida in Ma. unfold outputs_of. rewrite Ma. rewrite <- Hida.
      assert (Hla' : In la lgs) by (rewrite Hsp'; apply in_or_app; left; exact Hla).
      eapply view_now; [exact RO|exact Hids|exact Hlogs|exact Hsp'|exact Hla'| |exact Ra|].
      - rewrite Hida. pose proof Ha as (nb & e & Hnb & _). apply T; [apply All; exists nb; exact Hnb|apply All; exists n; exact En|exact Ha].
      - destruct (logs_ok_In E _ _ _ _ _ Hlogs Hla') as (pre2 & m & Em & _ & _ & _ & _ & _ & Hm). rewrite Ra in Hm. destruct Hm as [_ ->].
        unfold can_free. cbn. rewrite (HH1 _ _ Em). reflexivity. }
    assert (HI : l_inputs lg = map (fun port => mixed E (n_cfg n) (arriving ns ord m' (l_id lg) port)) (seq 0 (length (n_inputs n)))).
    { rewrite (quantum_inputs E f ns ord lgs lg n RO Hids Hlogs Hlg En); [|apply (reordered_quiet E _ _ _ _ Hre); apply HQ].
      apply map_ext. intro port. f_equal. unfold signals_into, arriving. rewrite <- Hids.
      rewrite flat_map_concat_map, (flat_map_concat_map _ (map l_id lgs)), map_map. f_equal. apply map_ext_in. intros lb Hlb.
      destruct (logs_ok_In E _ _ _ _ _ Hlogs Hlb) as (pre2 & nb & Enb & _ & _ & _ & _ & _ & Hm). rewrite Enb.
      destruct (existsb (fun e => Nat.eqb (e_dest e) (l_id lg)) (n_edges nb)) eqn:Ex.
      - apply existsb_exists in Ex. destruct Ex as (e & He & Hd). apply Nat.eqb_eq in Hd.
        assert (Hb : connected ns (l_id lb) (l_id lg)) by (exists nb, e; repeat split; assumption).
        destruct (Early _ Hb) as (la & Hla & Hida). assert (la = lb).
        { pose proof (logged_In lgs (l_id lb) lb ND Hlb eq_refl) as A1. assert (Hla' : In la lgs) by (rewrite Hsp'; apply in_or_app; left; exact Hla).
          pose proof (logged_In lgs (l_id lb) la ND Hla' Hida) as A2. congruence. }
        subst la. destruct (HU lb Hla) as (pa & oa & ta & Ra & Ma). rewrite Ra in *. destruct Hm as [-> _]. unfold outputs_of. rewrite Ma. reflexivity.
      - assert (Z : forall o : list Q, signals_of o (n_edges nb) (l_id lg) port = []).
        { intro oo. unfold signals_of. clear -Ex. induction (n_edges nb) as [|e es IH]; cbn in *; [reflexivity|].
          apply orb_false_iff in Ex. destruct Ex as [X1 X2]. rewrite X1. cbn. exact (IH X2). }
        rewrite Z. destruct (l_result lb) as [[[pa oa] ta]|]; [|reflexivity]. destruct Hm as [-> _]. apply Z. }
    rewrite Hpr, HI, <- S2. apply (HRd (l_id lg)); [exact En|exact HV]. }
  pose proof (Good (length lgs) lgs [] (Nat.le_refl _) (eq_sym (app_nil_r _))) as HG. rewrite Forall_forall in HG.
  assert (NP : Forall (fun lg => l_result lg <> None) lgs).
  { apply Forall_forall. intros lg Hlg. destruct (HG lg Hlg) as (p' & o' & t & R & _). rewrite R. discriminate. }
  assert (Cell : forall i n, get ns i = Some n -> exists n1, get gn i = Some n1 /\ m' i = Some (n_proc n1, n_outputs n1)).
  { intros i n En. assert (Hin : In i (map l_id lgs)) by (rewrite Hids; apply All; exists n; exact En).
    apply in_map_iff in Hin. destruct Hin as (lg & Hid & Hlg). destruct (HG lg Hlg) as (p' & o' & t & R & M).
    rewrite Hget. unfold after. rewrite En, (logged_In lgs i lg ND Hlg Hid).
    assert (Fr : l_freed lg = false).
    { destruct (logs_ok_In E _ _ _ _ _ Hlogs Hlg) as (pre2 & m & Em & _ & _ & _ & _ & _ & Hm). rewrite R in Hm. destruct Hm as [_ ->]. unfold can_free. cbn. rewrite (HH1 _ _ Em). reflexivity. }
    rewrite Fr, R. eexists. split; [reflexivity|]. rewrite Hid in M. exact M. }
  assert (Eog : (match g_ordered g with
                 | [] => match order_nodes (g_nodes g) with ORet g' o _ => Some (g', o) | _ => None end
                 | _ => Some (g_nodes g, g_ordered g) end) = Some (ns, ord)).
  { destruct Hre as [(Ho & -> & ->)|(Ho & cyc & H & _)].
    - destruct (g_ordered g); [congruence|reflexivity].
    - rewrite Ho, H. reflexivity. }
  assert (Hd1 : exists d1, get ns 0 = Some d1 /\ n_outputs d1 = n_outputs d).
  { destruct (Hcut 0) as [X|(m & X & _ & _ & Y)].
    - rewrite Ed in X. exists d. tauto.
    - rewrite Ed in X. injection X as <-. exists (clear_edges d). tauto. }
  destruct Hd1 as (d1 & Ed1 & Eo1). destruct (Cell 0 d1 Ed1) as (n1 & G1 & M1).
  assert (Hl : length (n_outputs n1) = length (n_outputs d1)).
  { rewrite Hget in G1. eapply after_outputs_length; try eassumption. intros lg Hlg. eapply logs_ok_In; eauto. }
  unfold render. rewrite Eog, Hrn, G1. rewrite Eo1 in Hl. destruct (n_outputs n1) as [|o os] eqn:Eos; [destruct (n_outputs d); [congruence|discriminate]|].
  eexists _, lgs, o. split; [reflexivity|]. split; [exact NP|]. split; [exact Cell|]. unfold outputs_of. rewrite M1. reflexivity.
Qed.

Lemma flow_solved frames : forall g ns ord state, at_rest g -> reordered g ns ord -> reads_connected E ns state -> dataflow E ns ord frames state ->
  (exists d, get (g_nodes g) 0 = Some d /\ n_outputs d <> []) ->
  exists g' ll os, play E g frames = Some (g', ll, os) /\ Forall (Forall (fun lg => l_result lg <> None)) ll /\
    forall k o, nth_error os k = Some o -> hd_error (outputs_of (state (S k)) 0) = Some o.
Proof.
  induction frames as [|f frames IH]; intros g ns ord state HR Hre HRd [D1 D2 D3 D4] Hd; cbn [play].
  - do 3 eexists. split; [reflexivity|]. split; [constructor|]. intros [|k] o; discriminate.
  - destruct (quantum_solved f g ns ord (state 1) HR Hre) as (g1 & lgs & o & Hr & NP & Cell & Ho); [| |exact Hd|].
    { intros i n ins v v' Hn Hv. apply (HRd 0 i); [rewrite D3, Hn; reflexivity|exact Hv]. }
    { intros i n Hn. destruct (D4 0 f i n eq_refl Hn) as (p & q & p' & o' & others & tail & A1 & A2 & A3 & A4).
      rewrite D3, Hn in A1. cbn in A1. injection A1 as <- <-. exists p', o', others, tail. split; [exact A2|]. split; [exact A3|exact A4]. }
    destruct (quantum_flow f g g1 lgs o HR Hr NP) as (ns1 & ord1 & Hre1 & RO & All & Hstep & Hnone & Hsig & Hord & (d1 & Hd1 & Hdo) & HR1).
    assert (ns1 = ns /\ ord1 = ord) as [-> ->].
    { destruct Hre as [(A1 & A2 & A3)|(A1 & cyc & A2 & _)], Hre1 as [(B1 & B2 & B3)|(B1 & cyc1 & B2 & _)]; try congruence.
      - split; congruence.
      - rewrite B2 in A2. injection A2 as <- <- <-. split; reflexivity. }
    assert (Hre2 : reordered g1 (g_nodes g1) ord).
    { left. split; [|split; [reflexivity|symmetry; exact Hord]]. rewrite Hord. intros ->.
      assert (L0 : live ns 0). { destruct (get ns 0) as [n|] eqn:E0; [exists n; exact E0|]. rewrite (Hnone 0 E0) in Hd1. discriminate. }
      destruct (All 0 L0). }
    assert (Arr : forall m i port, arriving (g_nodes g1) ord m i port = arriving ns ord m i port).
    { intros m i port. unfold arriving. rewrite !flat_map_concat_map. f_equal. apply map_ext. intro a.
      destruct (get ns a) as [n|] eqn:En; [|rewrite (Hnone a En); reflexivity].
      destruct (Hstep a n En) as (lg & p' & o' & t & _ & _ & _ & _ & -> & _). reflexivity. }
    assert (Back : forall i m, get (g_nodes g1) i = Some m -> exists n, get ns i = Some n /\ n_edges m = n_edges n /\ n_cfg m = n_cfg n /\ length (n_inputs m) = length (n_inputs n)).
    { intros i m Hm. destruct (get ns i) as [n|] eqn:En; [|rewrite (Hnone i En) in Hm; discriminate].
      destruct (Hstep i n En) as (lg & p' & o' & t & _ & _ & _ & _ & Hg & _). rewrite Hg in Hm. injection Hm as <-. exists n. cbn. rewrite repeat_length. repeat split. }
    assert (Con : forall a b, connected (g_nodes g1) a b -> connected ns a b).
    { intros a b (m & e & Hm & He & Hb). destruct (Back a m Hm) as (n & En & Ee & _). exists n, e. rewrite <- Ee. repeat split; assumption. }
    assert (Con' : forall a b, connected ns a b -> connected (g_nodes g1) a b).
    { intros a b (n & e & En & He & Hb). destruct (Hstep a n En) as (lg & p' & o' & t & _ & _ & _ & _ & Hg & _). eexists _, e. split; [exact Hg|]. split; [exact He|exact Hb]. }
    destruct (IH g1 (g_nodes g1) ord (fun k i => match get ns i with Some _ => state (S k) i | None => None end) HR1 Hre2) as (g2 & ll & os & Hp & NP2 & Ho2).
    + intros k i p ins outs v v' f0 Hs Hv. destruct (get ns i); [|discriminate]. apply (HRd (S k) i); [exact Hs|]. intros a Ha. apply Hv. apply Con'. exact Ha.
    + constructor.
      * destruct RO as (N & L & T). split; [exact N|]. split.
        -- intros i Hi. destruct (L i Hi) as [n Hn]. destruct (Hstep i n Hn) as (lg & p' & o' & t & _ & _ & _ & _ & Hg & _). eexists; exact Hg.
        -- intros a b Ha Hb Hab. apply T; auto.
      * intros i [m Hm]. destruct (Back i m Hm) as (n & En & _). apply All. exists n; exact En.
      * intros i. destruct (get ns i) as [n|] eqn:En.
        -- destruct (Cell i n En) as (n1 & G1 & M1). rewrite G1. exact M1.
        -- rewrite (Hnone i En). reflexivity.
      * intros k f' i m Hf Hm. destruct (Back i m Hm) as (n & En & _ & Ec & El). rewrite Ec, El.
        destruct (D4 (S k) f' i n Hf En) as (p & q & p' & o' & others & tail & A1 & A2 & A3 & A4).
        exists p, q, p', o', others, tail. rewrite En. split; [exact A1|]. split; [exact A2|]. split.
        -- rewrite <- A3. f_equal. apply map_ext. intro port. rewrite Arr. f_equal. unfold arriving. rewrite !flat_map_concat_map. f_equal. apply map_ext. intro a.
           destruct (get ns a) as [na|] eqn:Ea; [|reflexivity]. unfold outputs_of. rewrite Ea. reflexivity.
        -- intros a Ha. apply Con in Ha. rewrite (A4 a Ha). unfold outputs_of. destruct Ha as (na & e & Ea & _). rewrite Ea. reflexivity.
    + exists d1. split; [exact Hd1|]. intros X. rewrite X in Hdo. discriminate.
    + rewrite Hr, Hp. do 3 eexists. split; [reflexivity|]. split; [constructor; assumption|].
      intros [|k] o1 Hk; cbn in Hk; [injection Hk as <-; exact Ho|]. specialize (Ho2 k o1 Hk). unfold outputs_of in Ho2.
      destruct (get ns 0); [exact Ho2|discriminate].
Qed.

(** from a new context on *)
Lemma history_ends ops g ls frames g' ll os :
  legal_run E graph_new ops -> registrations_in_time ops -> along E no_cycle_when_rendering graph_new ops ->
  grun E ops graph_new = Some (g, ls) -> (forall i, live (g_nodes g) i -> handle_alive i ops) -> (forall i, ~ on_delay_free_cycle (g_nodes g) i) ->
  play E g frames = Some (g', ll, os) -> Forall (Forall (fun lg => l_result lg <> None)) ll ->
  exists ns ord state, cut_at_breakers (g_nodes g) ns /\ dataflow E ns ord frames state /\
    ((forall k o, nth_error os k = Some o -> hd_error (outputs_of (state (S k)) 0) = Some o) /\ length os = length frames) /\
    forall i, state (length frames) i = option_map (fun n => (n_proc n, n_outputs n)) (get (g_nodes g') i).
Proof.
  intros HL HA HN Hr Ha HC Hp Hll. destruct (run_quiet E EOK ops g ls HL HA HN Hr) as (HW & HS & HQ).
  assert (HH : held (g_nodes g)) by (intros i n Hn; apply (run_undropped E EOK i ops g ls HL (Ha i (ex_intro _ n Hn)) Hr n Hn)).
  destruct (reorder_total g HW) as (ns & ord & Hre).
  assert (HR : at_rest g) by exact (conj HW (conj HS (conj HQ (conj HH HC)))).
  destruct (flow_ends frames g g' ll os ns ord HR Hre Hp Hll) as (state & D & Ho & He).
  exists ns, ord, state. split; [eapply reordered_cut; exact Hre|]. auto.
Qed.

Lemma flow_history ops g ls frames g' ll os :
  legal_run E graph_new ops -> registrations_in_time ops -> along E no_cycle_when_rendering graph_new ops ->
  grun E ops graph_new = Some (g, ls) -> (forall i, live (g_nodes g) i -> handle_alive i ops) -> (forall i, ~ on_delay_free_cycle (g_nodes g) i) ->
  play E g frames = Some (g', ll, os) -> Forall (Forall (fun lg => l_result lg <> None)) ll ->
  exists ns ord state, cut_at_breakers (g_nodes g) ns /\ dataflow E ns ord frames state /\
    (forall k o, nth_error os k = Some o -> hd_error (outputs_of (state (S k)) 0) = Some o) /\ length os = length frames.
Proof.
  intros HL HA HN Hr Ha HC Hp Hll. destruct (history_ends ops g ls frames g' ll os HL HA HN Hr Ha HC Hp Hll) as (ns & ord & state & A & B & C & _).
  exists ns, ord, state. auto.
Qed.

Lemma solved_history ops g ls :
  legal_run E graph_new ops -> registrations_in_time ops -> along E no_cycle_when_rendering graph_new ops ->
  grun E ops graph_new = Some (g, ls) -> (forall i, live (g_nodes g) i -> handle_alive i ops) -> (forall i, ~ on_delay_free_cycle (g_nodes g) i) ->
  (exists d, get (g_nodes g) 0 = Some d /\ n_outputs d <> []) ->
  exists ns ord, cut_at_breakers (g_nodes g) ns /\ rendering_order ns ord /\ (forall i, live ns i -> In i ord) /\
    forall frames state, reads_connected E ns state -> dataflow E ns ord frames state ->
    exists g' ll os, play E g frames = Some (g', ll, os) /\ Forall (Forall (fun lg => l_result lg <> None)) ll /\
      forall k o, nth_error os k = Some o -> hd_error (outputs_of (state (S k)) 0) = Some o.
Proof.
  intros HL HA HN Hr Ha HC Hd. destruct (run_quiet E EOK ops g ls HL HA HN Hr) as (HW & HS & HQ).
  assert (HH : held (g_nodes g)) by (intros i n Hn; apply (run_undropped E EOK i ops g ls HL (Ha i (ex_intro _ n Hn)) Hr n Hn)).
  destruct (reorder_total g HW) as (ns & ord & Hre).
  assert (HR : at_rest g) by exact (conj HW (conj HS (conj HQ (conj HH HC)))).
  exists ns, ord. split; [eapply reordered_cut; exact Hre|]. split; [eapply reordered_order; eauto|]. split.
  - apply complete_all; [eapply reordered_complete; eauto|]. intros i Hi. apply (cut_delay_free _ _ i (reordered_cut _ _ _ Hre)) in Hi. exact (HC i Hi).
  - intros frames state HRd HD. exact (flow_solved frames g ns ord state HR Hre HRd HD Hd).
Qed.

Lemma play_history ops g ls frames : never_panics E ->
  legal_run E graph_new ops -> registrations_in_time ops -> along E no_cycle_when_rendering graph_new ops ->
  grun E ops graph_new = Some (g, ls) -> (forall i, live (g_nodes g) i -> handle_alive i ops) -> (forall i, ~ on_delay_free_cycle (g_nodes g) i) ->
  (exists d, get (g_nodes g) 0 = Some d /\ n_outputs d <> []) ->
  exists g' ll os, play E g frames = Some (g', ll, os) /\ Forall (Forall (fun lg => l_result lg <> None)) ll.
Proof.
  intros NP HL HA HN Hr Ha HC Hd. destruct (run_quiet E EOK ops g ls HL HA HN Hr) as (HW & HS & HQ).
  assert (HH : held (g_nodes g)) by (intros i n Hn; apply (run_undropped E EOK i ops g ls HL (Ha i (ex_intro _ n Hn)) Hr n Hn)).
  apply play_total; [exact NP|exact (conj HW (conj HS (conj HQ (conj HH HC))))|exact Hd].
Qed.
End Flow.
