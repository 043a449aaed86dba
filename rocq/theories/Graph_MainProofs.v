(** Proofs of the statements of Graph_Props. *)
From Coq Require Import List Arith Bool Lia Permutation.
From Verif Require Import Graph_Model Graph_Spec Graph_OrderProofs Graph_RenderProofs
  Graph_TraceModel Graph_TraceSpec Graph_TraceProofs.
Import ListNotations.

Section Main.
Context {P Q CFG : Type}.
Notation graph := (graph P Q CFG).
Notation gop := (gop P CFG).
Implicit Types g : graph.
Variable E : env P Q CFG.
Hypothesis EOK : env_ok E.

Lemma reach_WF ops g ls : legal_run E graph_new ops -> grun E ops graph_new = Some (g, ls) -> WF g.
Proof.
  intros HL Hr. destruct (run_WF E EOK ops graph_new WF_new HL) as (g' & ls' & Hr' & HW).
  rewrite Hr in Hr'. injection Hr' as <- <-. exact HW.
Qed.

Lemma main_no_panic ops : legal_run E graph_new ops -> exists g ls, grun E ops graph_new = Some (g, ls).
Proof.
  intros HL. destruct (run_WF E EOK ops graph_new WF_new HL) as (g' & ls' & Hr' & HW). eauto.
Qed.

Lemma main_order ops g ls frame g' lgs out :
  legal_run E graph_new ops -> grun E ops graph_new = Some (g, ls) ->
  render E frame g = Some (g', lgs, out) ->
  NoDup (map l_id lgs) /\
  (forall i, In i (map l_id lgs) -> live (g_nodes g) i) /\
  (forall a b, In a (map l_id lgs) -> In b (map l_id lgs) -> connected (g_nodes g) a b ->
     ~ (breaker (g_nodes g) a /\ on_cycle (g_nodes g) a) -> before (map l_id lgs) a b).
Proof.
  intros HL Hr Hren. pose proof (reach_WF _ _ _ HL Hr) as HW.
  destruct (render_quantum E EOK _ _ _ _ _ HW Hren) as (ns1 & ord & [Hre Hids Hlogs Hget Hord]).
  pose proof (reordered_order _ _ _ HW Hre) as (N & L & T). rewrite Hids.
  pose proof (reordered_cut _ _ _ Hre) as Hcut.
  split; [exact N|]. split.
  - intros i Hi. apply (cut_live _ _ i Hcut). apply L. exact Hi.
  - intros a b Ha Hb (n & e & En & He & Hd) Hnb. apply T; try assumption.
    destruct (Hcut a) as [X|(m & Em & Hbr & Hcy & _)].
    + exists n, e. rewrite X. tauto.
    + exfalso. apply Hnb. split; [exists m; tauto|exact Hcy].
Qed.

Lemma render_total_order (ns : nodes P Q CFG) : closed ns ->
  exists ns' ord cyc, order_nodes ns = ORet ns' ord cyc.
Proof. intros H. destruct (order_nodes_post ns H) as (a & b & c & X & _). eauto. Qed.

Lemma main_view ops g ls frame g' lgs out :
  legal_run E graph_new ops -> grun E ops graph_new = Some (g, ls) ->
  render E frame g = Some (g', lgs, out) ->
  forall la lb p' outs t, In la lgs -> In lb lgs -> before (map l_id lgs) (l_id la) (l_id lb) ->
    l_result la = Some (p', outs, t) -> l_freed la = false ->
    l_view lb (l_id la) = Some outs.
Proof.
  intros HL Hr Hren la lb p' outs t Hla Hlb Hbef Hres Hfr. pose proof (reach_WF _ _ _ HL Hr) as HW.
  destruct (render_quantum E EOK _ _ _ _ _ HW Hren) as (ns1 & ord & [Hre Hids Hlogs Hget Hord]).
  pose proof (reordered_order _ _ _ HW Hre) as (N & L & T). rewrite <- Hids in N.
  apply in_split in Hlb. destruct Hlb as (l1 & l2 & Hsp).
  assert (Hlok : log_ok E frame ns1 l1 lb).
  { change l1 with ([] ++ l1). eapply logs_ok_split. rewrite <- Hsp. exact Hlogs. }
  destruct Hlok as (n & En & _ & _ & _ & Hv & _). rewrite Hv.
  assert (Hneq : l_id la <> l_id lb).
  { intros X. rewrite X in Hbef. exact (before_NoDup_irrefl _ _ N Hbef). }
  rewrite (proj2 (Nat.eqb_neq _ _) Hneq).
  assert (Hin1 : In la l1).
  { rewrite Hsp in Hla. apply in_app_or in Hla. destruct Hla as [H|[H|H]]; [exact H|congruence|].
    exfalso. apply in_split in H. destruct H as (m1 & m2 & ->).
    assert (Hb2 : before (map l_id lgs) (l_id lb) (l_id la)).
    { rewrite Hsp, map_app. cbn. rewrite map_app. cbn.
      exists (map l_id l1), (map l_id m1), (map l_id m2). reflexivity. }
    apply (before_NoDup_irrefl _ (l_id la) N). eapply before_trans; eauto. }
  assert (N1 : NoDup (map l_id l1)).
  { rewrite Hsp, map_app in N. clear -N. induction (map l_id l1) as [|x l IH]; [constructor|].
    cbn in N. inversion N as [|? ? A B]; subst. constructor; [|apply IH; exact B].
    intros H. apply A. apply in_or_app; now left. }
  destruct (logs_ok_In E _ _ _ _ _ Hlogs Hla) as (pre' & n' & En' & _).
  unfold after. rewrite En', (logged_In l1 (l_id la) la N1 Hin1 eq_refl), Hfr, Hres. reflexivity.
Qed.

Lemma main_complete ops g ls frame g' lgs out :
  legal_run E graph_new ops -> registrations_in_time ops ->
  grun E ops graph_new = Some (g, ls) ->
  render E frame g = Some (g', lgs, out) ->
  forall i, live (g_nodes g) i -> In i (map l_id lgs) \/ on_muted_cycle (g_nodes g) (map l_id lgs) i.
Proof.
  intros HL HA Hr Hren i Hi. destruct (run_settled E EOK ops g ls HL HA Hr) as [HW HS].
  destruct (render_quantum E EOK _ _ _ _ _ HW Hren) as (ns1 & ord & [Hre Hids Hlogs Hget Hord]).
  pose proof (reordered_cut _ _ _ Hre) as Hcut. rewrite Hids.
  apply (cut_live _ _ i Hcut) in Hi.
  destruct (reordered_complete _ _ _ HS Hre i Hi) as [H|(c & C1 & C2 & C3)]; [now left|right].
  exists c. split; [|split; [exact C2|]].
  - eapply is_cycle_weaken; [|exact C1]. intros x y. apply cut_connected_sub. exact Hcut.
  - intros x Hx. rewrite <- (cut_breaker _ _ x Hcut). apply C3. exact Hx.
Qed.

Lemma muted_delay_free (g : nodes P Q CFG) l i : on_muted_cycle g l i -> on_delay_free_cycle g i.
Proof. intros (c & A & B & C). exists c. split; [exact A|]. split; [exact B|]. intros x Hx. apply C, Hx. Qed.

Lemma main_all_rendered ops g ls frame g' lgs out :
  legal_run E graph_new ops -> registrations_in_time ops ->
  grun E ops graph_new = Some (g, ls) ->
  (forall c, is_cycle (connected (g_nodes g)) c -> exists x, In x c /\ breaker (g_nodes g) x) ->
  render E frame g = Some (g', lgs, out) ->
  Permutation (map l_id lgs) (keys (g_nodes g)).
Proof.
  intros HL HA Hr Hc Hren. destruct (main_order _ _ _ _ _ _ _ HL Hr Hren) as (N & L & _).
  apply NoDup_Permutation; [exact N|apply keys_NoDup|]. intros i. rewrite keys_In. split; [apply L|].
  intros Hi. destruct (main_complete _ _ _ _ _ _ _ HL HA Hr Hren i Hi) as [H|(c & C1 & C2 & C3)]; [exact H|].
  exfalso. destruct (Hc c C1) as (x & Hx & Hb). exact (proj1 (C3 x Hx) Hb).
Qed.

Lemma main_cycle_muted ops g ls frame g' lgs out :
  legal_run E graph_new ops -> grun E ops graph_new = Some (g, ls) ->
  render E frame g = Some (g', lgs, out) ->
  forall c, is_cycle (connected (g_nodes g)) c -> (forall x, In x c -> ~ breaker (g_nodes g) x) ->
  exists x, In x c /\ ~ In x (map l_id lgs).
Proof.
  intros HL Hr Hren c Hc Hnb. pose proof (reach_WF _ _ _ HL Hr) as HW.
  destruct (render_quantum E EOK _ _ _ _ _ HW Hren) as (ns1 & ord & [Hre Hids Hlogs Hget Hord]).
  pose proof (reordered_cut _ _ _ Hre) as Hcut. rewrite Hids.
  apply (cycle_not_ordered ns1 ord c); [eapply reordered_order; eauto|].
  destruct c as [|a l]; [destruct Hc|]. cbn in *.
  eapply (chain_mono _ _ (fun x => ~ breaker (g_nodes g) x)); [| | |exact Hc].
  - intros x y Hx. apply cut_connected_keep; assumption.
  - apply Hnb. now left.
  - intros x Hx. apply Hnb. now right.
Qed.

(** ** inputs *)
Lemma main_inputs ops g ls frame g' lgs out :
  legal_run E graph_new ops -> registrations_in_time ops ->
  along E no_cycle_when_rendering graph_new ops ->
  grun E ops graph_new = Some (g, ls) ->
  render E frame g = Some (g', lgs, out) ->
  forall lg, In lg lgs -> exists n, get (g_nodes g) (l_id lg) = Some n /\
    l_inputs lg = map (fun p => mixed E (n_cfg n) (signals_into lgs (l_id lg) p)) (seq 0 (length (n_inputs n))) /\
    l_result lg = process E (n_proc n) (l_inputs lg) (n_outputs n) (l_view lg) frame.
Proof.
  intros HL HA HN Hr Hren lg Hlg. destruct (run_quiet E EOK ops g ls HL HA HN Hr) as (HW & HS & HQ).
  destruct (render_quantum E EOK _ _ _ _ _ HW Hren) as (ns1 & ord & [Hre Hids Hlogs Hget Hord]).
  destruct (logs_ok_In E _ _ _ _ _ Hlogs Hlg) as (pre' & m & Em & _ & _ & _ & _ & Hres & _).
  pose proof (quantum_inputs E frame ns1 ord lgs lg m (reordered_order _ _ _ HW Hre) Hids Hlogs Hlg Em
                (reordered_quiet E _ _ _ _ Hre (HQ (l_id lg)))) as Hin.
  destruct (reordered_cut _ _ _ Hre (l_id lg)) as [X|(n & En & _ & _ & X)].
  - exists m. rewrite <- X. tauto.
  - rewrite X in Em. injection Em as <-. exists n. tauto.
Qed.

Lemma main_edges ops g ls frame g' lgs out :
  legal_run E graph_new ops -> grun E ops graph_new = Some (g, ls) ->
  render E frame g = Some (g', lgs, out) ->
  forall lg n, In lg lgs -> get (g_nodes g) (l_id lg) = Some n -> l_result lg <> None ->
    ~ (n_breaker n = true /\ on_cycle (g_nodes g) (l_id lg)) -> l_edges lg = n_edges n.
Proof.
  intros HL Hr Hren lg n Hlg En Hres Hnb. pose proof (reach_WF _ _ _ HL Hr) as HW.
  destruct (render_quantum E EOK _ _ _ _ _ HW Hren) as (ns1 & ord & [Hre Hids Hlogs Hget Hord]).
  destruct (logs_ok_In E _ _ _ _ _ Hlogs Hlg) as (pre' & m & Em & _ & _ & _ & _ & _ & Hm).
  destruct (l_result lg) as [[[p' o'] t]|]; [|congruence]. destruct Hm as [Hm _]. rewrite Hm.
  destruct (reordered_cut _ _ _ Hre (l_id lg)) as [X|(k & Ek & Hb & Hcy & _)].
  - congruence.
  - exfalso. apply Hnb. rewrite En in Ek. injection Ek as <-. tauto.
Qed.

(** ** life cycle *)
Lemma may_disappear_cut (ns ns1 : nodes P Q CFG) lgs lg : cut_at_breakers ns ns1 ->
  may_disappear E ns1 lgs lg -> may_disappear E ns lgs lg.
Proof.
  intros Hcut. unfold may_disappear. destruct (l_result lg) as [[[p' o'] t]|]; [|tauto].
  intros [(m & Em & Hd) H]. split; [|exact H].
  destruct (Hcut (l_id lg)) as [X|(n & En & _ & _ & X)].
  - exists m. rewrite <- X. tauto.
  - rewrite X in Em. injection Em as <-. exists n. tauto.
Qed.

Lemma main_freed ops g ls frame g' lgs out :
  legal_run E graph_new ops -> grun E ops graph_new = Some (g, ls) ->
  render E frame g = Some (g', lgs, out) ->
  forall lg, In lg lgs -> l_freed lg = true -> may_disappear E (g_nodes g) lgs lg.
Proof.
  intros HL Hr Hren lg Hlg Hf. pose proof (reach_WF _ _ _ HL Hr) as HW.
  destruct (render_quantum E EOK _ _ _ _ _ HW Hren) as (ns1 & ord & [Hre Hids Hlogs Hget Hord]).
  apply (may_disappear_cut _ ns1); [eapply reordered_cut; exact Hre|].
  pose proof (reordered_order _ _ _ HW Hre) as Hro.
  apply in_split in Hlg. destruct Hlg as (l1 & l2 & Hsp).
  destruct (later_logs_silent E frame ns1 ord lgs l1 lg l2 Hro Hids Hlogs Hsp) as [_ Hfb].
  assert (Hlok : log_ok E frame ns1 l1 lg).
  { change l1 with ([] ++ l1). eapply logs_ok_split. rewrite <- Hsp. exact Hlogs. }
  destruct Hlok as (n & En & _ & _ & _ & _ & _ & Hm).
  unfold may_disappear. destruct (l_result lg) as [[[p' o'] t]|]; [|exact I].
  destruct Hm as [He Hm]. rewrite Hf in Hm. symmetry in Hm. apply can_free_spec in Hm. cbn in Hm.
  destruct Hm as [Hd Hm]. split; [exists n; tauto|]. rewrite He.
  destruct Hm as [[Hc Hm]|Hm]; [left|right; exact Hm]. split; [|exact Hm].
  apply orb_false_iff in Hc. destruct Hc as [_ Hc]. rewrite <- Hfb in Hc.
  rewrite <- fedb_fed, Hc. discriminate.
Qed.

Lemma main_freed_iff ops g ls frame g' lgs out :
  legal_run E graph_new ops -> registrations_in_time ops ->
  along E no_cycle_when_rendering graph_new ops ->
  grun E ops graph_new = Some (g, ls) ->
  render E frame g = Some (g', lgs, out) ->
  forall lg, In lg lgs -> (may_disappear E (g_nodes g) lgs lg <-> l_freed lg = true).
Proof.
  intros HL HA HN Hr Hren lg Hlg. split; [|eapply main_freed; eauto].
  destruct (run_quiet E EOK ops g ls HL HA HN Hr) as (HW & HS & HQ).
  destruct (render_quantum E EOK _ _ _ _ _ HW Hren) as (ns1 & ord & [Hre Hids Hlogs Hget Hord]).
  intros Hmd. apply (quantum_freed E frame ns1 ord lgs lg (reordered_order _ _ _ HW Hre) Hids Hlogs Hlg).
  - eapply reordered_quiet; [exact Hre|apply HQ].
  - unfold may_disappear in *. destruct (l_result lg) as [[[p' o'] t]|]; [|exact I].
    destruct Hmd as [(n & En & Hd) H]. split; [|exact H].
    destruct (reordered_cut _ _ _ Hre (l_id lg)) as [X|(m & Em & _ & _ & X)].
    + exists n. rewrite X. tauto.
    + rewrite En in Em. injection Em as <-. exists (clear_edges n). tauto.
Qed.

Lemma main_handle ops g ls frame g' lgs out :
  legal_run E graph_new ops -> grun E ops graph_new = Some (g, ls) ->
  render E frame g = Some (g', lgs, out) ->
  forall lg, In lg lgs -> handle_alive (l_id lg) ops -> l_result lg <> None -> l_freed lg = false.
Proof.
  intros HL Hr Hren lg Hlg Hh Hres. destruct (l_freed lg) eqn:Hf; [|reflexivity]. exfalso.
  pose proof (main_freed _ _ _ _ _ _ _ HL Hr Hren lg Hlg Hf) as Hm. unfold may_disappear in Hm.
  destruct (l_result lg) as [[[p' o'] t]|]; [|congruence].
  destruct Hm as [(n & En & Hd) _].
  pose proof (run_undropped E EOK (l_id lg) ops g ls HL Hh Hr n En). congruence.
Qed.

Lemma main_reclaim_once ops g ls id :
  legal_run E graph_new ops -> grun E ops graph_new = Some (g, ls) ->
  (live (g_nodes g) id -> adds id ops = S (reclaims id ls)) /\
  (~ live (g_nodes g) id -> adds id ops = reclaims id ls).
Proof.
  intros HL Hr.
  pose proof (run_count E EOK id ops graph_new g ls WF_new HL Hr) as H.
  assert (X : liveb (g_nodes (graph_new : graph)) id = 0).
  { unfold liveb. destruct (get (g_nodes (graph_new : graph)) id) as [n|] eqn:En; [|reflexivity].
    exfalso. apply (graph_new_dead (P := P) (Q := Q) (CFG := CFG) id). exists n; exact En. }
  unfold liveb in *. rewrite X in H. split.
  - intros [n Hn]. rewrite Hn in H. lia.
  - intros Hn. destruct (get (g_nodes g) id) as [n|] eqn:En; [|lia]. exfalso. apply Hn. exists n; exact En.
Qed.

Lemma main_closed ops g ls :
  legal_run E graph_new ops -> grun E ops graph_new = Some (g, ls) ->
  forall a b, connected (g_nodes g) a b -> live (g_nodes g) b.
Proof. intros HL Hr. apply (reach_WF _ _ _ HL Hr). Qed.

(** a removed node is gone, a kept node stays *)
Lemma main_live_after ops g ls frame g' lgs out :
  legal_run E graph_new ops -> grun E ops graph_new = Some (g, ls) ->
  render E frame g = Some (g', lgs, out) ->
  forall i, live (g_nodes g') i <-> live (g_nodes g) i /\ ~ In i (reclaimed lgs).
Proof.
  intros HL Hr Hren i. pose proof (reach_WF _ _ _ HL Hr) as HW.
  destruct (render_quantum E EOK _ _ _ _ _ HW Hren) as (ns1 & ord & [Hre Hids Hlogs Hget Hord]).
  pose proof (reordered_order _ _ _ HW Hre) as (N & L & T). rewrite <- Hids in N.
  rewrite <- (cut_live _ _ i (reordered_cut _ _ _ Hre)).
  rewrite <- (after_live E ns1 lgs frame i Hlogs N). unfold live. rewrite Hget. reflexivity.
Qed.

End Main.
