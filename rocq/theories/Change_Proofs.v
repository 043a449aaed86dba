(** Proofs about renderings in stages *)
From Coq Require Import List Arith Bool Lia.
From Verif Require Import Graph_Model Graph_Spec Graph_OrderProofs Graph_RenderProofs
  Graph_TraceModel Graph_TraceSpec Graph_TraceProofs Flow_Spec Flow_Proofs
  Thread_Model Thread_Spec Thread_Proofs Thread_OfflineProofs Whole_Model Whole_Spec Whole_Proofs Change_Spec.
Import ListNotations.

Lemma nth_error_firstn' {A} (l : list A) m x : x < m -> nth_error (firstn m l) x = nth_error l x.
Proof. revert l m. induction x as [|x IH]; intros l m H; destruct m, l; try lia; cbn; auto. apply IH. lia. Qed.

Section Change.
Context {P Q CFG V : Type}.
Variable E : env P Q CFG.
Variable chans : Q -> list (list V).
Variable zero : V.
Variable RQ : nat.
Hypothesis RQ_pos : 0 < RQ.
Hypothesis QOK : forall q, well_formed RQ (chans q).
Notation GO := (audio_graph E chans).
Notation thread := (@thread (graph P Q CFG) V).
Notation node_state := (option_map (fun n : node P Q CFG => (n_proc n, n_outputs n))).

(** ** Outputs of a history *)
Fixpoint listen (ops : list (gop P CFG)) (g : graph P Q CFG) : option (graph P Q CFG * list Q) :=
  match ops with
  | [] => Some (g, [])
  | OpRender f :: r => match render E f g with
                       | None => None
                       | Some (g1, _, o) => match listen r g1 with None => None | Some (g2, os) => Some (g2, o :: os) end
                       end
  | op :: r => match gstep E op g with None => None | Some (g1, _) => listen r g1 end
  end.

Lemma listen_grun ops : forall g g' ls, grun E ops g = Some (g', ls) -> exists os, listen ops g = Some (g', os).
Proof.
  induction ops as [|op ops IH]; intros g g' ls H; cbn [grun] in H; [injection H as <- <-; eexists; reflexivity|].
  destruct (gstep E op g) as [[g1 l1]|] eqn:E1; [|discriminate]. destruct (grun E ops g1) as [[g2 l2]|] eqn:E2; [|discriminate]. injection H as <- <-.
  destruct (IH _ _ _ E2) as [os Ho]. destruct op; cbn [listen]; try (rewrite E1; exists os; exact Ho).
  cbn [gstep] in E1. destruct (render E frame g) as [[[g3 lgs] o]|]; [|discriminate]. injection E1 as <- <-. rewrite Ho. eexists. reflexivity.
Qed.

Lemma listen_app a b : forall g g' os, listen (a ++ b) g = Some (g', os) ->
  exists g1 o1 o2, listen a g = Some (g1, o1) /\ listen b g1 = Some (g', o2) /\ os = o1 ++ o2.
Proof.
  induction a as [|op a IH]; intros g g' os H; cbn [app] in H; [exists g, [], os; auto|].
  assert (X : (exists f, op = OpRender f) \/ forall r g0, listen (op :: r) g0 = match gstep E op g0 with None => None | Some (g1, _) => listen r g1 end) by (destruct op; eauto).
  destruct X as [[f ->]|X].
  - cbn [listen] in H |- *. destruct (render E f g) as [[[g1 lgs] o]|]; [|discriminate]. destruct (listen (a ++ b) g1) as [[g2 os2]|] eqn:E2; [|discriminate]. injection H as <- <-.
    destruct (IH _ _ _ E2) as (g3 & o1 & o2 & -> & Eb & ->). exists g3, (o :: o1), o2. auto.
  - rewrite X in H |- *. destruct (gstep E op g) as [[g1 l1]|]; [|discriminate]. apply IH. exact H.
Qed.

Lemma listen_messages ms : messages_only ms -> forall g g' os, listen ms g = Some (g', os) -> os = [] /\ exists ls, grun E ms g = Some (g', ls).
Proof.
  induction 1 as [|m ms H1 H2 IH]; intros g g' os H.
  - cbn in H. injection H as <- <-. split; [reflexivity|]. eexists. reflexivity.
  - cbn [grun]. assert (X : match gstep E m g with None => None | Some (g1, _) => listen ms g1 end = Some (g', os)) by (destruct m; try destruct H1; exact H).
    destruct (gstep E m g) as [[g1 l1]|]; [|discriminate]. destruct (IH _ _ _ X) as [-> [ls ->]]. split; [reflexivity|]. eexists. reflexivity.
Qed.

Lemma listen_play frames : forall g g' os, listen (map OpRender frames) g = Some (g', os) ->
  exists ll, play E g frames = Some (g', ll, os) /\ grun E (map OpRender frames) g = Some (g', ll).
Proof.
  induction frames as [|f frames IH]; intros g g' os H; cbn [map listen play grun gstep] in *; [injection H as <- <-; eexists; split; reflexivity|].
  destruct (render E f g) as [[[g1 lgs] o]|]; [|discriminate]. destruct (listen (map OpRender frames) g1) as [[g2 os2]|] eqn:E2; [|discriminate]. injection H as <- <-.
  destruct (IH _ _ _ E2) as (ll & -> & ->). exists (lgs :: ll). split; reflexivity.
Qed.

(** ** The loop, quantum by quantum *)
Definition to_cmsg (s : nat * list (gop P CFG)) : nat * list (@cmsg (graph P Q CFG) (gop P CFG)) := (fst s, map GraphMsg (snd s)).

Fixpoint by_quantum (k q : nat) (susp : list (nat * list (gop P CFG))) : list (gop P CFG) :=
  match k with
  | O => []
  | S k' => match susp with
            | (q', ms) :: r => if Nat.eqb q' q then ms ++ OpRender (q * RQ) :: by_quantum k' (S q) r else OpRender (q * RQ) :: by_quantum k' (S q) susp
            | [] => OpRender (q * RQ) :: by_quantum k' (S q) []
            end
  end.

Lemma loop_listen k : forall q cap (t : thread) buffer g g' os susp L n,
  Forall (fun b => length b = L) buffer -> L = Nat.min cap (q * RQ) -> length buffer = n -> 0 < n ->
  t_graph t = Some g -> t_listening t = true -> t_frames t = q * RQ -> Forall (fun s => messages_only (snd s)) susp ->
  listen (by_quantum k q susp) g = Some (g', os) ->
  exists t' buf ran, offline_loop GO zero RQ k q cap t buffer (map to_cmsg susp) [] = Some (t', buf, ran) /\ length buf = n /\
    (forall i b, nth_error buffer i = Some b -> nth_error buf i = Some (firstn cap (b ++ channel zero RQ i (map chans os)))).
Proof.
  induction k as [|k IH]; intros q cap t buffer g g' os susp L n HF HL Hn Hp HG HT HC HM H.
  - cbn [offline_loop]. cbn in H. injection H as <- <-. exists t, buffer, []. split; [reflexivity|]. split; [exact Hn|].
    intros i b Hb. rewrite Hb. unfold channel. cbn. rewrite app_nil_r. f_equal. symmetry. apply firstn_all2.
    assert (length b = L) by (apply nth_error_In in Hb; rewrite Forall_forall in HF; apply HF; exact Hb). lia.
  - assert (Case : exists ms ran susp', messages_only ms /\ Forall (fun s => messages_only (snd s)) susp' /\
      by_quantum (S k) q susp = ms ++ OpRender (q * RQ) :: by_quantum k (S q) susp' /\
      match map to_cmsg susp with
      | (q0, ms0) :: s0 => if Nat.eqb q0 q then (ms0, [(q0, t_frames t)], s0) else ([], [], map to_cmsg susp)
      | [] => ([], [], [])
      end = (map GraphMsg ms, ran, map to_cmsg susp')).
    { destruct susp as [|[q0 ms0] s0]; cbn [map to_cmsg fst snd by_quantum]; [exists [], [], []; repeat split; constructor|].
      inversion HM as [|? ? M1 M2]; subst. destruct (Nat.eqb q0 q).
      - exists ms0, [(q0, t_frames t)], s0. auto.
      - exists [], [], ((q0, ms0) :: s0). repeat split; [constructor|exact HM]. }
    destruct Case as (ms & ran & susp' & M1 & M2 & EQ & EC). rewrite EQ in H.
    destruct (listen_app _ _ _ _ _ H) as (g1 & o1 & o2 & A1 & A2 & ->). destruct (listen_messages ms M1 _ _ _ A1) as [-> [ls1 R1]]. cbn [app].
    cbn [listen] in A2. destruct (render E (q * RQ) g1) as [[[g2 lgs] o]|] eqn:ER; [|discriminate].
    destruct (listen (by_quantum k (S q) susp') g2) as [[g3 os3]|] eqn:EL; [|discriminate]. injection A2 as <- <-.
    cbn [offline_loop]. match type of EC with _ = ?b => match goal with |- exists t' buf ran, (match ?x with pair _ _ => _ end) = _ /\ _ => replace x with b by (symmetry; exact EC) end end. unfold handle_control_messages at 1. rewrite HT. rewrite (apply_all E chans ms g g1 ls1 t M1 HG R1).
    unfold render_quantum. assert (TG : t_graph (set_graph t (Some g1)) = Some g1) by (destruct t; reflexivity). rewrite TG. cbn [audio_graph g_render].
    assert (TF : t_frames (set_graph t (Some g1)) = q * RQ) by (destruct t; exact HC). rewrite TF, ER.
    match goal with |- context [extend_offline zero RQ cap buffer (chans o)] => idtac end.
    destruct (extend_offline zero RQ cap buffer (chans o)) as [buffer'|] eqn:EX; [|unfold extend_offline in EX; destruct buffer; [cbn in Hn; lia|discriminate]].
    destruct (extend_spec zero RQ RQ_pos cap buffer (chans o) buffer' L (QOK o) HF ltac:(lia) EX) as (L1 & F1 & N1).
    assert (TL : t_listening (set_graph t (Some g1)) = true) by (destruct t; exact HT).
    match goal with |- context [handle_control_messages GO ?x (hd [] [])] => set (t2 := x) end.
    assert (HH : handle_control_messages GO t2 (hd [] []) = Some (t2, [])) by (unfold handle_control_messages; cbn [hd handle_all]; destruct (t_listening t2); reflexivity).
    rewrite HH.
    destruct (IH (S q) cap t2 buffer' g2 g3 os3 susp' (Nat.min cap (L + RQ)) n F1) as (t' & buf & ran' & B1 & B2 & B3);
      [subst L; cbn; lia|congruence|exact Hp|reflexivity|exact TL|cbn; lia|exact M2|exact EL|].
    exists t', buf. cbn [tl]. rewrite B1. eexists. split; [reflexivity|]. split; [exact B2|].
    intros i b Hb. rewrite (B3 i _ (N1 i b Hb)). f_equal. rewrite firstn_app_firstn. f_equal. unfold channel. cbn. rewrite app_nil_r, <- app_assoc. reflexivity.
Qed.

(** ** Stages *)
Fixpoint marks (q : nat) (l : list (@stage P CFG)) : list (nat * list (gop P CFG)) :=
  match l with [] => [] | (ms, k) :: l' => (q, ms) :: marks (q + k) l' end.

Lemma marks_cmsg l : forall q, map to_cmsg (marks q l) = suspended_at q l.
Proof. induction l as [|[ms k] l IH]; intros q; cbn; [reflexivity|]. f_equal. apply IH. Qed.

Lemma frames_cons q k : frames_of RQ q (S k) = q * RQ :: frames_of RQ (S q) k.
Proof. unfold frames_of. cbn [seq map]. rewrite Nat.add_0_r. f_equal. rewrite <- seq_shift, map_map. apply map_ext. intros j. f_equal. lia. Qed.

Lemma by_performed l : Forall (fun s => 0 < snd s) l -> forall k q,
  by_quantum (k + duration l) q (marks (q + k) l) = map OpRender (frames_of RQ q k) ++ performed RQ (q + k) l.
Proof.
  induction 1 as [|[ms k1] l H1 H2 IH]; intros k.
  - cbn [duration fold_right marks performed]. induction k as [|k IHk]; intros q; [reflexivity|]. rewrite frames_cons. cbn. f_equal. apply IHk.
  - induction k as [|k IHk]; intros q.
    + rewrite Nat.add_0_r. cbn [Nat.add frames_of seq map app]. destruct k1 as [|k1]; [cbn in H1; lia|]. cbn [duration fold_right snd]. fold (duration l).
      cbn [Nat.add by_quantum marks performed]. rewrite Nat.eqb_refl. f_equal. rewrite frames_cons. cbn [map app]. f_equal.
      replace (q + S k1) with (S q + k1) by lia. apply IH.
    + cbn [Nat.add by_quantum marks]. destruct (Nat.eqb_spec (q + S k) q) as [X|_]; [lia|]. rewrite frames_cons. cbn [map app]. f_equal.
      replace (q + S k) with (S q + k) by lia. exact (IHk (S q)).
Qed.

Lemma performed_app (a b : list (@stage P CFG)) : forall q, performed RQ q (a ++ b) = performed RQ q a ++ performed RQ (q + duration a) b.
Proof.
  induction a as [|[ms k] a IH]; intros q; cbn [app performed duration fold_right snd]; [rewrite Nat.add_0_r; reflexivity|]. fold (duration a).
  rewrite IH, !app_assoc, Nat.add_assoc. reflexivity.
Qed.
Lemma duration_app (a b : list (@stage P CFG)) : duration (a ++ b) = duration a + duration b.
Proof. induction a as [|[ms k] a IH]; cbn [app duration fold_right snd]; [reflexivity|]. fold (duration (a ++ b)) (duration a). rewrite IH. lia. Qed.

(** ** Histories *)
Lemma in_time_prefix a f b : forall c l, in_time c l (a ++ OpRender f :: b) -> in_time c l (a : list (gop P CFG)).
Proof. induction a as [|m a IH]; intros c l; cbn [app in_time]; [tauto|]. destruct m; try apply IH. intros [H1 H2]. split; [exact H1|apply (IH _ _ H2)]. Qed.

Lemma live_added (EOK : env_ok E) ops g ls i : legal_run E graph_new ops -> grun E ops graph_new = Some (g, ls) -> Graph_Spec.live (g_nodes g) i ->
  exists p ins outs cfg, In (OpAdd i p ins outs cfg) ops.
Proof.
  intros HL HR [n Hn]. pose proof (run_count E EOK i ops graph_new g ls (WF_new) HL HR) as C.
  assert (L1 : liveb (g_nodes g) i = 1) by (unfold liveb; rewrite Hn; reflexivity).
  assert (L0 : liveb (g_nodes (graph_new : graph P Q CFG)) i = 0). { unfold liveb. destruct (get (g_nodes graph_new) i) as [m|] eqn:X; [|reflexivity]. exfalso. eapply (@graph_new_dead P Q CFG i). exists m. exact X. }
  assert (A : 0 < adds i ops) by lia. unfold adds in A. destruct (filter _ ops) as [|m l] eqn:F; [cbn in A; lia|].
  assert (X : In m (filter (fun op : gop P CFG => match op with OpAdd i0 _ _ _ _ => i0 =? i | _ => false end) ops)) by (rewrite F; left; reflexivity).
  apply filter_In in X. destruct X as [X1 X2]. destruct m; try discriminate. apply Nat.eqb_eq in X2. subst. eauto.
Qed.

(** messages for other nodes leave a node's processor and outputs as they are *)
Lemma untold_kept ms i : messages_only ms -> untold i ms -> forall g g' ls, grun E ms g = Some (g', ls) ->
  node_state (get (g_nodes g') i) = node_state (get (g_nodes g) i).
Proof.
  intros HM. induction HM as [|m ms H1 H2 IH]; intros HU g g' ls H; cbn [grun] in H; [injection H as <- <-; reflexivity|].
  inversion HU as [|? ? U1 U2]; subst. destruct (gstep E m g) as [[g1 l1]|] eqn:E1; [|discriminate]. destruct (grun E ms g1) as [[g2 l2]|] eqn:E2; [|discriminate]. injection H as <- <-.
  rewrite (IH U2 _ _ _ E2). clear - E1 U1 H1.
  assert (UP : forall j (f : node P Q CFG -> node P Q CFG), (j = i -> forall n, n_proc (f n) = n_proc n /\ n_outputs (f n) = n_outputs n) ->
    node_state (get (update (g_nodes g) j f) i) = node_state (get (g_nodes g) i)).
  { intros j f Hf. destruct (Nat.eq_dec j i) as [->|N]; [rewrite get_update_eq; destruct (get (g_nodes g) i) as [n|]; [|reflexivity]; cbn; destruct (Hf eq_refl n) as [-> ->]; reflexivity|rewrite get_update_neq by exact N; reflexivity]. }
  destruct m as [id p ins outs cfg|src out dst port|src out dst port|id|id|id f|id m|frame]; cbn in E1; try destruct H1.
  - injection E1 as <- _. cbn [g_nodes add_node]. unfold insert. rewrite get_set_slot_neq by exact U1. rewrite get_app_None. reflexivity.
  - unfold add_edge in E1. destruct (get (g_nodes g) src); [|discriminate]. injection E1 as <- _. apply UP. intros _ ?. split; reflexivity.
  - unfold remove_edge in E1. destruct (get (g_nodes g) src); [|discriminate]. injection E1 as <- _. apply UP. intros _ ?. split; reflexivity.
  - unfold mark_dropped in E1. destruct (Nat.ltb _ _); [|discriminate]. injection E1 as <- _. apply UP. intros _ ?. split; reflexivity.
  - unfold mark_breaker in E1. destruct (get (g_nodes g) id); [|discriminate]. injection E1 as <- _. apply UP. intros _ ?. split; reflexivity.
  - unfold set_cfg in E1. destruct (get (g_nodes g) id); [|discriminate]. injection E1 as <- _. apply UP. intros _ ?. split; reflexivity.
  - unfold route_message in E1. destruct (get (g_nodes g) id) as [n|]; [|discriminate]. destruct (m (n_proc n)); [|discriminate]. injection E1 as <- _. apply UP. intros X. contradiction.
Qed.

Lemma choose {A} (a0 : A) (R : nat -> A -> Prop) m : (forall s, s < m -> exists x, R s x) -> exists f, forall s, s < m -> R s (f s).
Proof.
  induction m as [|m IH]; intros H; [exists (fun _ => a0); intros; lia|].
  destruct IH as [f Hf]; [intros s Hs; apply H; lia|]. destruct (H m) as [x Hx]; [lia|].
  exists (fun s => if Nat.eqb s m then x else f s). intros s Hs. destruct (Nat.eqb_spec s m) as [->|N]; [exact Hx|apply Hf; lia].
Qed.

(** ** One stage *)
Section Run.
Hypothesis EOK : env_ok E.
Variables (all : list (@stage P CFG)) (gend : graph P Q CFG) (logs : list (list (step_log P Q))) (outs : list Q).
Hypothesis HM : Forall (fun s => messages_only (fst s)) all.
Hypothesis HL : legal_run E graph_new (performed RQ 0 all).
Hypothesis HT : registrations_in_time (performed RQ 0 all).
Hypothesis HC : along E no_cycle_when_rendering graph_new (performed RQ 0 all).
Hypothesis HD : forall i, ~ In (OpDrop i) (performed RQ 0 all).
Hypothesis HR : grun E (performed RQ 0 all) graph_new = Some (gend, logs).
Hypothesis HN : Forall (Forall (fun lg => l_result lg <> None)) logs.
Hypothesis HO : listen (performed RQ 0 all) graph_new = Some (gend, outs).

Lemma listen_len l : Forall (fun s => messages_only (fst s)) l -> forall q g g' os, listen (performed RQ q l) g = Some (g', os) -> length os = duration l.
Proof.
  induction 1 as [|[ms k] l H1 H2 IH]; intros q g g' os H; cbn [performed] in H; [cbn in H; injection H as <- <-; reflexivity|].
  destruct (listen_app _ _ _ _ _ H) as (g1 & o1 & o2 & A1 & A2 & ->). destruct (listen_messages ms H1 _ _ _ A1) as [-> _].
  destruct (listen_app _ _ _ _ _ A2) as (g2 & o3 & o4 & A3 & A4 & ->). destruct (listen_play _ _ _ _ A3) as (ll & A5 & _).
  cbn [app duration fold_right snd]. fold (duration l). rewrite app_length, (IH _ _ _ _ A4), (play_length E _ _ _ _ _ A5). unfold frames_of. rewrite map_length, seq_length. reflexivity.
Qed.

Lemma grun_end ops1 : forall ops2 g g' ls, grun E (ops1 ++ ops2) g = Some (g', ls) -> forall g1 l1, grun E ops1 g = Some (g1, l1) -> exists l2, grun E ops2 g1 = Some (g', l2) /\ ls = l1 ++ l2.
Proof. intros ops2 g g' ls H g1 l1 H1. destruct (grun_app E _ _ _ _ _ H) as (g2 & l2 & l3 & A & B & C). rewrite H1 in A. injection A as <- <-. eauto. Qed.

Lemma grun_snoc ops1 : forall ops2 g g1 l1 g2 l2, grun E ops1 g = Some (g1, l1) -> grun E ops2 g1 = Some (g2, l2) -> grun E (ops1 ++ ops2) g = Some (g2, l1 ++ l2).
Proof.
  induction ops1 as [|m ops1 IH]; intros ops2 g g1 l1 g2 l2 H1 H2; cbn [grun app] in *; [injection H1 as <- <-; exact H2|].
  destruct (gstep E m g) as [[g3 l3]|]; [|discriminate]. destruct (grun E ops1 g3) as [[g4 l4]|] eqn:E4; [|discriminate]. injection H1 as <- <-.
  rewrite (IH _ _ _ _ _ _ E4 H2), app_assoc. reflexivity.
Qed.

Lemma stage_flow before ms k after : all = before ++ (ms, k) :: after -> 0 < k ->
  exists g0 l0 g ls g' l' ns ord (state : nat -> @moment P Q),
    grun E (performed RQ 0 before) graph_new = Some (g0, l0) /\ grun E ms g0 = Some (g, ls) /\
    grun E (performed RQ 0 before ++ ms) graph_new = Some (g, l0 ++ ls) /\
    cut_at_breakers (g_nodes g) ns /\ dataflow E ns ord (frames_of RQ (duration before) k) state /\
    (forall i, state 0 i = node_state (get (g_nodes g) i)) /\
    grun E (performed RQ 0 (before ++ [(ms, k)])) graph_new = Some (g', l') /\ (forall i, state k i = node_state (get (g_nodes g') i)) /\
    forall j o, j < k -> nth_error outs (duration before + j) = Some o -> hd_error (outputs_of (state (S j)) 0) = Some o.
Proof.
  intros EA Hk. subst all. rewrite Forall_app in HM. destruct HM as [M1 M2]. inversion M2 as [|? ? M3 M4]; subst. cbn [fst] in M3.
  rewrite performed_app in *. cbn [performed] in *. rewrite Nat.add_0_l in *.
  set (D := duration before) in *. set (pre := performed RQ 0 before) in *. set (rs := map OpRender (frames_of RQ D k)) in *.
  destruct (listen_app _ _ _ _ _ HO) as (g0 & o0 & o1 & L1 & L2 & EO). destruct (listen_app _ _ _ _ _ L2) as (g & o2 & o3 & L3 & L4 & EO2).
  destruct (listen_messages ms M3 _ _ _ L3) as [-> _]. cbn in EO2. subst o1. destruct (listen_app _ _ _ _ _ L4) as (g' & o4 & o5 & L5 & L6 & ->). subst outs.
  destruct (listen_play _ _ _ _ L5) as (ll & P1 & P2).
  destruct (grun_app E _ _ _ _ _ HR) as (g0' & l0 & l1 & R1 & R2 & EL).
  destruct (grun_app E _ _ _ _ _ R2) as (g1' & l2 & l3 & R3 & R4 & EL2). destruct (grun_app E _ _ _ _ _ R4) as (g2' & l4 & l5 & R5 & R6 & EL3).
  assert (g0' = g0). { destruct (listen_grun _ _ _ _ R1) as [os X]. rewrite L1 in X. injection X as -> _. reflexivity. } subst g0'.
  assert (g1' = g). { destruct (listen_grun _ _ _ _ R3) as [os X]. rewrite L3 in X. injection X as -> _. reflexivity. } subst g1'.
  assert (RA : grun E (pre ++ ms) graph_new = Some (g, l0 ++ l2)) by (eapply grun_snoc; eassumption).
  fold rs in P2. rewrite P2 in R5. injection R5 as <- <-.
  assert (AL : forall C, along E C graph_new (pre ++ ms ++ rs ++ performed RQ (D + k) after) -> along E C graph_new (pre ++ ms) /\ along E C g (rs ++ performed RQ (D + k) after)).
  { intros C X. rewrite app_assoc in X. exact (along_app E C _ _ _ _ _ X RA). }
  destruct k as [|k]; [lia|]. assert (ERS : rs = OpRender (D * RQ) :: map OpRender (frames_of RQ (S D) k)) by (subst rs; rewrite frames_cons; reflexivity).
  assert (HT' : registrations_in_time (pre ++ ms)).
  { unfold registrations_in_time in HT |- *. rewrite ERS in HT. rewrite app_assoc in HT. cbn [app] in HT. exact (in_time_prefix _ _ _ _ _ HT). }
  assert (HLL : legal_run E graph_new (pre ++ ms)) by (apply AL; exact HL).
  assert (HCC : forall i, ~ on_delay_free_cycle (g_nodes g) i).
  { apply AL in HC. destruct HC as [_ X]. rewrite ERS in X. cbn in X. exact (proj1 X). }
  assert (HA : forall i, Graph_Spec.live (g_nodes g) i -> handle_alive i (pre ++ ms)).
  { intros i Li. destruct (live_added EOK _ _ _ _ HLL RA Li) as (p & ins & os & cfg & HI). apply in_split in HI. destruct HI as (a & b & EQ).
    exists a, p, ins, os, cfg, b. split; [exact EQ|]. intros X. apply (HD i). rewrite app_assoc, EQ. apply in_or_app. left. apply in_or_app. right. right. exact X. }
  destruct (history_ends E EOK (pre ++ ms) g (l0 ++ l2) (frames_of RQ D (S k)) g' ll o4 HLL HT' (proj1 (AL _ HC)) RA HA HCC P1) as (ns & ord & state & F1 & F2 & (F3 & F4) & F5).
  { subst logs. rewrite EL2, EL3, !Forall_app in HN. tauto. }
  assert (LF : length (frames_of RQ D (S k)) = S k) by (unfold frames_of; rewrite map_length, seq_length; reflexivity). rewrite LF in *.
  exists g0, l0, g, l2, g', ((l0 ++ l2) ++ ll), ns, ord, state. split; [exact R1|]. split; [exact R3|]. split; [exact RA|]. split; [exact F1|]. split; [exact F2|].
  split. { intros i. rewrite (df_start _ _ _ _ _ F2 i). destruct (F1 i) as [->|(n & En & _ & _ & ->)]; [reflexivity|rewrite En; reflexivity]. }
  split. { rewrite app_nil_r, app_assoc. eapply grun_snoc; [exact RA|exact P2]. }
  split; [exact F5|]. intros j o Hj Ho. apply F3. rewrite nth_error_app2 in Ho by (rewrite (listen_len before M1 _ _ _ _ L1); fold D; lia).
  rewrite (listen_len before M1 _ _ _ _ L1) in Ho. fold D in Ho. replace (D + j - D) with j in Ho by lia. rewrite nth_error_app1 in Ho by lia. exact Ho.
Qed.
End Run.

Notation stage := (@stage P CFG).

Theorem changes (EOK : env_ok E) n len msgs k0 (st : list stage) gend logs : 0 < n ->
  let all := (msgs, k0) :: st in
  Forall (fun s => messages_only (fst s)) all -> Forall (fun s => 0 < snd s) st -> duration all = div_ceil len RQ ->
  legal_run E graph_new (performed RQ 0 all) -> registrations_in_time (performed RQ 0 all) ->
  along E no_cycle_when_rendering graph_new (performed RQ 0 all) -> (forall i, ~ In (OpDrop i) (performed RQ 0 all)) ->
  grun E (performed RQ 0 all) graph_new = Some (gend, logs) -> Forall (Forall (fun lg => l_result lg <> None)) logs ->
  exists t' buf ran (state : nat -> nat -> @moment P Q),
    render_audiobuffer GO zero RQ n len new_thread (startup msgs) (suspended_at k0 st) [] = Some (t', buf, ran) /\
    length buf = n /\ Forall (fun ch => length ch = len) buf /\
    forall before ms k after, all = before ++ (ms, k) :: after -> 0 < k ->
      (exists g ls ns ord, grun E (performed RQ 0 before ++ ms) graph_new = Some (g, ls) /\ cut_at_breakers (g_nodes g) ns /\
         dataflow E ns ord (frames_of RQ (duration before) k) (state (length before))) /\
      (forall earlier ms' k' i, before = earlier ++ [(ms', k')] -> 0 < k' -> untold i ms -> state (length before) 0 i = state (length earlier) k' i) /\
      forall i j, i < n -> j < k * RQ -> duration before * RQ + j < len ->
        exists ch, nth_error buf i = Some ch /\ nth_error ch (duration before * RQ + j) = Some (heard chans zero RQ (state (length before)) i j).
Proof.
  intros Hn all HM HP HLen HL HT HC HD HR HN.
  destruct (listen_grun _ _ _ _ HR) as [outs HO].
  destruct (choose (fun _ _ => None) (fun s (x : nat -> @moment P Q) => forall before ms k after, all = before ++ (ms, k) :: after -> 0 < k -> length before = s ->
    exists g0 l0 g ls g' l' ns ord,
    grun E (performed RQ 0 before) graph_new = Some (g0, l0) /\ grun E ms g0 = Some (g, ls) /\
    grun E (performed RQ 0 before ++ ms) graph_new = Some (g, l0 ++ ls) /\
    cut_at_breakers (g_nodes g) ns /\ dataflow E ns ord (frames_of RQ (duration before) k) x /\
    (forall i, x 0 i = node_state (get (g_nodes g) i)) /\
    grun E (performed RQ 0 (before ++ [(ms, k)])) graph_new = Some (g', l') /\ (forall i, x k i = node_state (get (g_nodes g') i)) /\
    forall j o, j < k -> nth_error outs (duration before + j) = Some o -> hd_error (outputs_of (x (S j)) 0) = Some o) (length all)) as [state HS].
  { intros s Hs. destruct (nth_error all s) as [[ms k]|] eqn:Es; [|apply nth_error_None in Es; lia].
    apply nth_error_split in Es. destruct Es as (bef & aft & EA & EL).
    assert (U : forall before ms1 k1 after, all = before ++ (ms1, k1) :: after -> length before = s -> before = bef /\ ms1 = ms /\ k1 = k /\ after = aft).
    { intros before ms1 k1 after X Y. rewrite EA in X. assert (length bef = length before) by congruence.
      revert X H. clear. revert before. induction bef as [|b bef IH]; intros [|c before] X L; cbn in *; try lia; [injection X as <- <- <-; auto|].
      injection X as <- X. destruct (IH before X ltac:(lia)) as (-> & -> & -> & ->). auto. }
    destruct (Nat.eq_dec k 0) as [K0|K0].
    - exists (fun _ _ => None). intros before ms1 k1 after X K1 Y. destruct (U _ _ _ _ X Y) as (-> & -> & -> & ->). lia.
    - destruct (stage_flow EOK all gend logs outs HM HL HT HC HD HR HN HO bef ms k aft EA ltac:(lia)) as (g0 & l0 & g & ls & g' & l' & ns & ord & x & X).
      exists x. intros before ms1 k1 after Y K1 Z. destruct (U _ _ _ _ Y Z) as (-> & -> & -> & ->). exists g0, l0, g, ls, g', l', ns, ord. exact X. }
  (* the thread *)
  subst all. cbn [performed] in HO. rewrite Nat.add_0_l in HO.
  pose proof HM as HM0. inversion HM as [|? ? M1 M2]; subst. cbn [fst] in M1.
  destruct (listen_app _ _ _ _ _ HO) as (g & o1 & o2 & L1 & L2 & EO). destruct (listen_messages msgs M1 _ _ _ L1) as [-> [ls1 R1]]. cbn in EO. subst o2.
  destruct (started E chans msgs g ls1 M1 R1) as (t1 & S1 & S2 & S3 & _ & _ & S4).
  assert (BP : by_quantum (div_ceil len RQ) 0 (marks k0 st) = map OpRender (frames_of RQ 0 k0) ++ performed RQ k0 st).
  { rewrite <- HLen. cbn [duration fold_right snd]. fold (duration st). exact (by_performed st HP k0 0). }
  assert (MK : forall q, Forall (fun s => messages_only (snd s)) (marks q st)).
  { clear - M2. induction M2 as [|[ms k] l H1 H2 IH]; intros q; cbn [marks]; constructor; auto. }
  destruct (loop_listen (div_ceil len RQ) 0 len t1 (repeat [] n) g gend outs (marks k0 st) 0 n) as (t' & buf & ran & A1 & A2 & A3); auto.
  { apply Forall_forall. intros b Hb. apply repeat_spec in Hb. subst. reflexivity. }
  { cbn. lia. }
  { apply repeat_length. }
  { rewrite BP. exact L2. }
  assert (LO : length outs = div_ceil len RQ).
  { rewrite <- HLen. refine (listen_len _ HM0 0 graph_new gend outs _). cbn [performed]. exact HO. }
  assert (CH : forall i, i < n -> nth_error buf i = Some (firstn len (channel zero RQ i (map chans outs)))).
  { intros i Hi. apply (A3 i []). apply nth_error_repeat. exact Hi. }
  assert (LC : forall i, length (channel zero RQ i (map chans outs)) = div_ceil len RQ * RQ).
  { intros i. rewrite channel_length; [rewrite map_length, LO; reflexivity|]. apply Forall_map, Forall_forall. intros; apply QOK. }
  pose proof (ceil_covers RQ RQ_pos len) as CC.
  exists t', buf, ran, state. split. { unfold render_audiobuffer. rewrite S1, <- marks_cmsg. exact A1. }
  split; [exact A2|]. split.
  { apply Forall_forall. intros ch Hch. apply In_nth_error in Hch. destruct Hch as [i Hi]. assert (i < n) by (rewrite <- A2; apply nth_error_Some; congruence).
    rewrite CH in Hi by assumption. injection Hi as <-. rewrite firstn_length, LC. lia. }
  intros before ms k after EA Hk.
  assert (HB : length before < length ((msgs, k0) :: st)) by (rewrite EA, app_length; cbn; lia).
  destruct (HS (length before) HB before ms k after EA Hk eq_refl) as (g0 & l0 & g1 & ls & g' & l' & ns & ord & X1 & X2 & X3 & X4 & X5 & X6 & X7 & X8 & X9).
  split; [exists g1, (l0 ++ ls), ns, ord; auto|]. split.
  - intros earlier ms' k' i EB Hk' HU.
    assert (EA' : (msgs, k0) :: st = earlier ++ (ms', k') :: (ms, k) :: after) by (rewrite EA, EB, <- app_assoc; reflexivity).
    assert (HB' : length earlier < length ((msgs, k0) :: st)) by (rewrite EA', app_length; cbn; lia).
    destruct (HS (length earlier) HB' earlier ms' k' _ EA' Hk' eq_refl) as (e0 & m0 & e1 & ms1 & e' & m' & ns1 & ord1 & Y1 & Y2 & Y3 & Y4 & Y5 & Y6 & Y7 & Y8 & Y9).
    rewrite X6, Y8. rewrite EB in X1. rewrite X1 in Y7. injection Y7 as <- <-.
    apply (untold_kept ms i) with (ls := ls); [|exact HU|exact X2]. rewrite EA in HM0. rewrite Forall_app in HM0. destruct HM0 as [_ Z]. inversion Z; subst. assumption.
  - intros i j Hi Hj HJ. eexists. split; [exact (CH i Hi)|].
    rewrite nth_error_firstn' by exact HJ. set (D := duration before) in *.
    assert (QF : (D * RQ + j) / RQ = D + j / RQ) by (rewrite Nat.add_comm, Nat.div_add by lia; lia).
    assert (QM : (D * RQ + j) mod RQ = j mod RQ) by (rewrite Nat.add_comm; apply Nat.mod_add; lia).
    rewrite channel_nth; [|exact RQ_pos|apply Forall_map, Forall_forall; intros; apply QOK|rewrite map_length, LO; lia].
    rewrite QF, QM, nth_error_map.
    assert (JK : j / RQ < k) by (apply Nat.div_lt_upper_bound; lia).
    destruct (nth_error outs (D + j / RQ)) as [o|] eqn:Eo.
    + cbn [option_map]. f_equal. unfold heard. specialize (X9 _ _ JK Eo). destruct (outputs_of (state (length before) (S (j / RQ))) 0) as [|o' l]; [discriminate|]. cbn in X9. injection X9 as ->. reflexivity.
    + exfalso. apply nth_error_None in Eo. rewrite LO in Eo. assert (D * RQ + j < div_ceil len RQ * RQ) by lia.
      pose proof (Nat.div_mod j RQ ltac:(lia)). pose proof (Nat.mod_upper_bound j RQ ltac:(lia)). nia.
Qed.
End Change.

(** ** What comes later does not change what was rendered before *)
Section Causal.
Context {P Q CFG V : Type}.
Variable E : env P Q CFG.
Variable chans : Q -> list (list V).
Variable zero : V.
Variable RQ : nat.
Hypothesis RQ_pos : 0 < RQ.
Hypothesis QOK : forall q, well_formed RQ (chans q).
Hypothesis EOK : env_ok E.
Notation GO := (audio_graph E chans).
Notation stage := (@stage P CFG).

Lemma rendered_stages n len msgs k0 (st : list stage) : 0 < n ->
  Forall (fun s => messages_only (fst s)) ((msgs, k0) :: st) -> Forall (fun s => 0 < snd s) st -> duration ((msgs, k0) :: st) = div_ceil len RQ ->
  legal_run E graph_new (performed RQ 0 ((msgs, k0) :: st)) ->
  exists gend outs t' buf ran, listen E (performed RQ 0 ((msgs, k0) :: st)) graph_new = Some (gend, outs) /\ length outs = div_ceil len RQ /\
    render_audiobuffer GO zero RQ n len new_thread (startup msgs) (suspended_at k0 st) [] = Some (t', buf, ran) /\
    forall i, i < n -> nth_error buf i = Some (firstn len (channel zero RQ i (map chans outs))).
Proof.
  intros Hn HM HP HLen HL.
  destruct (run_WF E EOK _ _ (WF_new) HL) as (gend & logs & HR & _).
  destruct (listen_grun E _ _ _ _ HR) as [outs HO]. pose proof HO as HO'. cbn [performed] in HO'. rewrite Nat.add_0_l in HO'.
  inversion HM as [|? ? M1 M2]; subst. cbn [fst] in M1.
  destruct (listen_app E _ _ _ _ _ HO') as (g & o1 & o2 & L1 & L2 & EO). destruct (listen_messages E msgs M1 _ _ _ L1) as [-> [ls1 R1]]. cbn in EO. subst o2.
  destruct (started E chans msgs g ls1 M1 R1) as (t1 & S1 & S2 & S3 & _ & _ & S4).
  assert (BP : by_quantum RQ (div_ceil len RQ) 0 (marks k0 st) = map OpRender (frames_of RQ 0 k0) ++ performed RQ k0 st).
  { rewrite <- HLen. cbn [duration fold_right snd]. fold (duration st). exact (by_performed RQ RQ_pos st HP k0 0). }
  assert (MK : forall q, Forall (fun s => messages_only (snd s)) (marks q st)).
  { clear - M2. induction M2 as [|[ms k] l H1 H2 IH]; intros q; cbn [marks]; constructor; auto. }
  destruct (loop_listen E chans zero RQ RQ_pos QOK (div_ceil len RQ) 0 len t1 (repeat [] n) g gend outs (marks k0 st) 0 n) as (t' & buf & ran & A1 & A2 & A3); auto.
  { apply Forall_forall. intros b Hb. apply repeat_spec in Hb. subst. reflexivity. }
  { cbn. lia. }
  { apply repeat_length. }
  { rewrite BP. exact L2. }
  exists gend, outs, t', buf, ran. split; [exact HO|]. split. { rewrite <- HLen. exact (listen_len E RQ _ HM 0 _ _ _ HO). }
  split. { unfold render_audiobuffer. rewrite S1, <- marks_cmsg. exact A1. }
  intros i Hi. apply (A3 i []). apply nth_error_repeat. exact Hi.
Qed.

Theorem causal n len len' msgs k0 (pre st st' : list stage) : 0 < n ->
  Forall (fun s => messages_only (fst s)) ((msgs, k0) :: pre ++ st) -> Forall (fun s => 0 < snd s) (pre ++ st) -> duration ((msgs, k0) :: pre ++ st) = div_ceil len RQ ->
  Forall (fun s => messages_only (fst s)) ((msgs, k0) :: pre ++ st') -> Forall (fun s => 0 < snd s) (pre ++ st') -> duration ((msgs, k0) :: pre ++ st') = div_ceil len' RQ ->
  legal_run E graph_new (performed RQ 0 ((msgs, k0) :: pre ++ st)) -> legal_run E graph_new (performed RQ 0 ((msgs, k0) :: pre ++ st')) ->
  exists t buf ran t' buf' ran',
    render_audiobuffer GO zero RQ n len new_thread (startup msgs) (suspended_at k0 (pre ++ st)) [] = Some (t, buf, ran) /\
    render_audiobuffer GO zero RQ n len' new_thread (startup msgs) (suspended_at k0 (pre ++ st')) [] = Some (t', buf', ran') /\
    forall i j, i < n -> j < duration ((msgs, k0) :: pre) * RQ -> j < len -> j < len' ->
      exists ch ch' v, nth_error buf i = Some ch /\ nth_error buf' i = Some ch' /\ nth_error ch j = Some v /\ nth_error ch' j = Some v.
Proof.
  intros Hn A1 A2 A3 B1 B2 B3 AL BL.
  destruct (rendered_stages n len msgs k0 (pre ++ st) Hn A1 A2 A3 AL) as (g & o & t & buf & ran & C1 & C2 & C3 & C4).
  destruct (rendered_stages n len' msgs k0 (pre ++ st') Hn B1 B2 B3 BL) as (g' & o' & t' & buf' & ran' & D1 & D2 & D3 & D4).
  exists t, buf, ran, t', buf', ran'. split; [exact C3|]. split; [exact D3|]. intros i j Hi Hj J1 J2.
  assert (PA : forall y, performed RQ 0 ((msgs, k0) :: pre ++ y) = performed RQ 0 ((msgs, k0) :: pre) ++ performed RQ (0 + duration ((msgs, k0) :: pre)) y)
    by (intros y; exact (performed_app RQ ((msgs, k0) :: pre) y 0)).
  assert (C1' : listen E (performed RQ 0 ((msgs, k0) :: pre) ++ performed RQ (0 + duration ((msgs, k0) :: pre)) st) graph_new = Some (g, o)) by (rewrite <- PA; exact C1).
  assert (D1' : listen E (performed RQ 0 ((msgs, k0) :: pre) ++ performed RQ (0 + duration ((msgs, k0) :: pre)) st') graph_new = Some (g', o')) by (rewrite <- PA; exact D1).
  clear C1 D1. rename C1' into C1. rename D1' into D1. destruct (listen_app E _ _ _ _ _ C1) as (g1 & o1 & o2 & E1 & E2 & ->). destruct (listen_app E _ _ _ _ _ D1) as (g2 & o3 & o4 & E3 & E4 & ->).
  rewrite E1 in E3. injection E3 as <- <-. assert (A1' : Forall (fun s : stage => messages_only (fst s)) ((msgs, k0) :: pre)).
  { rewrite Forall_cons_iff, Forall_app in A1. constructor; tauto. }
  pose proof (listen_len E RQ _ A1' 0 _ _ _ E1) as LN.
  assert (WF : forall l, Forall (well_formed RQ) (map chans l)) by (intros; apply Forall_map, Forall_forall; intros; apply QOK).
  assert (JK : j / RQ < length o1) by (rewrite LN; apply Nat.div_lt_upper_bound; lia).
  assert (X : forall y, nth_error (channel zero RQ i (map chans (o1 ++ y))) j = nth_error (channel zero RQ i (map chans o1)) j).
  { intros y. rewrite !(channel_nth zero RQ RQ_pos) by (auto; rewrite map_length, ?app_length, LN; nia).
    rewrite !nth_error_map, nth_error_app1 by exact JK. reflexivity. }
  assert (S : nth_error (channel zero RQ i (map chans o1)) j <> None).
  { apply nth_error_Some. rewrite (channel_length zero RQ) by auto. rewrite map_length, LN. exact Hj. }
  destruct (nth_error (channel zero RQ i (map chans o1)) j) as [v|] eqn:Ev; [|congruence].
  eexists _, _, v. split; [exact (C4 i Hi)|]. split; [exact (D4 i Hi)|]. rewrite !nth_error_firstn' by assumption. rewrite !X. auto.
Qed.
End Causal.
