(** Properties of the diagnostics. *)
From Coq Require Import List Arith Bool Lia.
From Verif Require Import Graph_Model Graph_Spec Graph_TraceModel Graph_TraceSpec Graph_OrderProofs Graph_TraceProofs Graph_MainProofs Graph_Props Flow_Props
  Event_Model Diag_Model Diag_Spec Diag_Proofs Diag_RequestProofs.
Import ListNotations.

(** ** C79: what the report says *)

(** The report lists every node that was registered and not given back, once; its counts are right; the destination is
    listed exactly when the graph is reported as active; the connections lead to listed nodes and existing ports. *)
Theorem C79_nodes : forall P Q CFG (E : env P Q CFG) channels ops d ls, env_ok E -> legal_run E graph_new ops ->
  drun E ops (graph_new, []) = Some (d, ls) ->
  let r := diagnostics E channels d in
  NoDup (map r_id (r_nodes r)) /\
  (forall id, In id (map r_id (r_nodes r)) <-> adds id ops = S (reclaims id ls)) /\
  r_node_count r = length (r_nodes r) /\
  r_edge_count r = length (flat_map r_edges (r_nodes r)) /\
  r_breakers r = map r_id (filter r_breaker (r_nodes r)) /\
  (r_active r = true <-> In 0 (map r_id (r_nodes r))) /\
  (forall a out dst port, In a (r_nodes r) -> In (out, dst, port) (r_edges a) -> out < r_outputs a /\
     exists b, In b (r_nodes r) /\ r_id b = dst /\ forall p, port = Some p -> p < r_inputs b).
Proof.
  intros P Q CFG E channels ops d ls EOK HL Hd r. pose proof (drun_grun E ops _ _ _ Hd) as Hg. cbn [fst] in Hg.
  pose proof (reach_WF E EOK _ _ _ HL Hg) as (CL & PO & _). unfold r.
  split; [rewrite ids_eq; apply keys_NoDup|]. split; [|split; [|split; [|split; [|split]]]].
  - intros id. rewrite ids_eq, keys_In. destruct (main_reclaim_once E EOK ops (fst d) ls id HL Hg) as [A B]. split; [exact A|]. intros H.
    destruct (in_dec Nat.eq_dec id (keys (g_nodes (fst d)))) as [I|N]; [apply keys_In; exact I|]. rewrite keys_In in N. apply B in N. lia.
  - rewrite report_eq. cbn [r_node_count r_nodes]. rewrite map_length. reflexivity.
  - rewrite report_eq. cbn [r_edge_count r_nodes]. induction (listed (g_nodes (fst d))) as [|[i n] l IH]; [reflexivity|].
    cbn [map flat_map list_sum fold_right snd fst]. rewrite app_length. unfold report_node at 1. cbn [r_edges]. rewrite map_length. f_equal. exact IH.
  - rewrite report_eq. cbn [r_breakers r_nodes]. induction (listed (g_nodes (fst d))) as [|[i n] l IH]; [reflexivity|].
    cbn [map filter snd fst]. unfold report_node at 1. cbn [r_breaker]. destruct (n_breaker n); cbn [map fst r_id report_node]; rewrite IH; reflexivity.
  - rewrite ids_eq, keys_In. rewrite report_eq. cbn [r_active]. unfold is_active, live. destruct (get (g_nodes (fst d)) 0) as [n|].
    + split; [intros _; exists n; reflexivity|reflexivity].
    + split; [discriminate|intros [n Hn]; discriminate].
  - intros a out dst port Ha He. apply node_In in Ha. destruct Ha as (n & Hn & Er). rewrite Er in He |- *. cbn [report_node r_edges r_outputs] in He |- *.
    apply in_map_iff in He. destruct He as (e & X & He). injection X as <- <- <-. destruct (PO _ _ _ Hn He) as [H1 H2]. split; [exact H1|].
    destruct (CL (r_id a) (e_dest e)) as [m Hm]; [exists n, e; auto|].
    exists (report_node E channels (e_dest e) m). split; [apply node_In; exists m; split; [exact Hm|reflexivity]|]. split; [reflexivity|].
    intros p Hp. destruct (H2 p Hp) as (m' & Hm' & Hlt). rewrite Hm in Hm'. injection Hm' as <-. exact Hlt.
Qed.
Print Assumptions C79_nodes.

(** Every connection of the report was made by the user and not taken back. *)
Theorem C79_connections_made : forall P Q CFG (E : env P Q CFG) channels ops d ls, env_ok E -> legal_run E graph_new ops ->
  drun E ops (graph_new, []) = Some (d, ls) ->
  forall a out dst port, In a (r_nodes (diagnostics E channels d)) -> In (out, dst, port) (r_edges a) -> made ops (r_id a) out dst port.
Proof.
  intros P Q CFG E channels ops d ls EOK HL Hd a out dst port Ha He. pose proof (drun_grun E ops _ _ _ Hd) as Hg. cbn [fst] in Hg.
  apply node_In in Ha. destruct Ha as (n & Hn & Er). rewrite Er in He. cbn [report_node r_edges] in He. apply in_map_iff in He.
  destruct He as (e & X & He). injection X as <- <- <-. exact (edges_made E EOK ops (fst d) ls HL Hg _ _ _ Hn He).
Qed.
Print Assumptions C79_connections_made.

(** The connections of the report are those along which the nodes send their output in the next quantum (apart from
    delays on a cycle, whose connections only serve the ordering). *)
Theorem C79_connections_used : forall P Q CFG (E : env P Q CFG) channels ops d ls frame g' lgs out, env_ok E -> legal_run E graph_new ops ->
  drun E ops (graph_new, []) = Some (d, ls) -> render E frame (fst d) = Some (g', lgs, out) ->
  forall lg r, In lg lgs -> l_result lg <> None -> In r (r_nodes (diagnostics E channels d)) -> r_id r = l_id lg ->
    ~ (r_breaker r = true /\ on_cycle (g_nodes (fst d)) (r_id r)) ->
    r_edges r = map (fun e => (e_self e, e_dest e, e_port e)) (l_edges lg).
Proof.
  intros P Q CFG E channels ops d ls frame g' lgs out EOK HL Hd Hren lg r Hlg Hres Hr Hid Hb. pose proof (drun_grun E ops _ _ _ Hd) as Hg. cbn [fst] in Hg.
  apply node_In in Hr. destruct Hr as (n & Hn & Er). rewrite Er in Hb |- *. cbn [report_node r_edges r_breaker r_id] in *. rewrite Hid in *.
  rewrite (main_edges E EOK ops (fst d) ls frame g' lgs out HL Hg Hren lg n Hlg Hn Hres Hb). reflexivity.
Qed.
Print Assumptions C79_connections_used.

(** After a quantum every listed node is in exactly one of the two lists [ordered] and [in_cycle]; the nodes of
    [in_cycle] lie on a cycle without a delay, all of whose nodes are excluded; a connection leads from earlier to later
    in [ordered]; and unless [ordered] is empty the next quantum renders exactly these nodes in this order. *)
Theorem C79_ordering : forall P Q CFG (E : env P Q CFG) channels ops frame d ls, env_ok E -> legal_run E graph_new (ops ++ [OpRender frame]) ->
  registrations_in_time (ops ++ [OpRender frame]) -> drun E (ops ++ [OpRender frame]) (graph_new, []) = Some (d, ls) ->
  let r := diagnostics E channels d in
  NoDup (r_ordered r) /\
  (forall i, In i (map r_id (r_nodes r)) <-> In i (r_ordered r) \/ In i (r_in_cycle r)) /\
  (forall i, In i (r_ordered r) -> ~ In i (r_in_cycle r)) /\
  (forall i, In i (r_in_cycle r) -> on_muted_cycle (g_nodes (fst d)) (r_ordered r) i) /\
  (forall a out dst port, In a (r_nodes r) -> In (out, dst, port) (r_edges a) -> In (r_id a) (r_ordered r) -> In dst (r_ordered r) ->
     before (r_ordered r) (r_id a) dst) /\
  (forall frame' g' lgs o, r_ordered r <> [] -> render E frame' (fst d) = Some (g', lgs, o) -> map l_id lgs = r_ordered r).
Proof.
  intros P Q CFG E channels ops frame d ls EOK HL HT Hd r. pose proof (drun_grun E _ _ _ _ Hd) as Hg. cbn [fst] in Hg.
  pose proof (reach_WF E EOK _ _ _ HL Hg) as HW. pose proof HW as (CL & PO & ND & LV & TO).
  assert (cinv false false d) as (_ & C1 & C2 & C3).
  { destruct (run_cinv E EOK _ _ _ _ _ _ cinv_new HL HT Hd) as [[|] HC]; [|exact HC].
    (* the last step is a quantum *)
    destruct (grun_app E ops [OpRender frame] graph_new _ _ Hg) as (g1 & l1 & l2 & R1 & R2 & _).
    destruct (grun_drun E ops (graph_new, []) g1 l1 R1) as (cyc & D1).
    destruct (along_app E (legal E) ops [OpRender frame] graph_new g1 l1 HL R1) as [A1 [A2 _]].
    assert (exists l3, dstep E (OpRender frame) (g1, cyc) = Some (d, l3)) as (l3 & D2).
    { clear - D1 Hd. revert Hd D1. generalize (@graph_new P Q CFG, @nil nat). revert ls l1. induction ops as [|op ops IH]; intros ls l1 d0 Hd D1; cbn [app drun] in *.
      - injection D1 as -> <-. destruct (dstep E (OpRender frame) (g1, cyc)) as [[d2 l3]|]; [|discriminate]. injection Hd as <- <-. exists l3. reflexivity.
      - destruct (dstep E op d0) as [[d1 x1]|]; [|discriminate]. destruct (drun E (ops ++ [OpRender frame]) d1) as [[d2 x2]|] eqn:E2; [|discriminate].
        destruct (drun E ops d1) as [[d3 x3]|] eqn:E3; [|discriminate]. injection Hd as <- <-. injection D1 as -> <-. exact (IH x2 x3 d1 E2 E3). }
    assert (in_time false false ops) as HT1.
    { clear - HT. unfold registrations_in_time in HT. revert HT. generalize false at 1 3. generalize false. induction ops as [|op ops IH]; intros b c H; cbn [app in_time] in *; [apply H|].
      destruct op; try (now apply IH). destruct H as [H1 H2]. split; [exact H1|]. now apply IH. }
    destruct (run_cinv E EOK ops _ _ _ _ _ cinv_new A1 HT1 D1) as (ch & HC1).
    unfold dstep in D2. cbn [fst snd gstep] in D2. destruct (render E frame g1) as [[[g2 lgs] o]|] eqn:Er; [|discriminate]. injection D2 as <- <-.
    eapply render_cinv; [exact EOK|exact HC1|exact Er|reflexivity]. }
  unfold r. rewrite ids_eq. rewrite report_eq. cbn [r_ordered r_in_cycle r_nodes].
  split; [exact ND|]. split; [|split; [exact C2|split; [|split]]].
  - intros i. rewrite keys_In. split; [apply C3|]. intros [H|H]; [apply LV|apply C1]; exact H.
  - intros i Hi. destruct (grun_app E ops [OpRender frame] graph_new _ _ Hg) as (g1 & l1 & l2 & R1 & R2 & _).
    destruct (along_app E (legal E) ops [OpRender frame] graph_new g1 l1 HL R1) as [A1 [A2 _]].
    cbn [grun gstep] in R2. destruct (render E frame g1) as [[[g2 lgs] o]|] eqn:Er; [|discriminate]. injection R2 as Eg _.
    assert (in_time false false ops) as HT1.
    { clear - HT. unfold registrations_in_time in HT. revert HT. generalize false at 1 3. generalize false. induction ops as [|op ops IH]; intros b c H; cbn [app in_time] in *; [apply H|].
      destruct op; try (now apply IH). destruct H as [H1 H2]. split; [exact H1|]. now apply IH. }
    destruct (run_settled E EOK ops g1 l1 A1 HT1 R1) as [HW1 HS1].
    pose proof (complete_render E EOK _ _ _ _ _ HW1 HS1 Er) as HC. rewrite Eg in HC.
    destruct (HC i (C1 i Hi)) as [H|H]; [destruct (C2 i H Hi)|]. exact H.
  - intros a out dst port Ha He H1 H2. apply in_map_iff in Ha. destruct Ha as ([i n] & <- & Hin). apply listed_In in Hin.
    cbn [report_node r_id r_edges fst snd] in *. apply in_map_iff in He. destruct He as (e & X & He). injection X as <- <- <-.
    apply TO; [exact H1|exact H2|]. exists n, e. auto.
  - intros frame' g' lgs o Hne Hr. destruct (render_quantum E EOK _ _ _ _ _ HW Hr) as (ns1 & ord & [Hre Hids _ _ _]). rewrite Hids.
    destruct Hre as [(_ & _ & ->)|(H & _)]; [reflexivity|congruence].
Qed.
Print Assumptions C79_ordering.

(** Finding: the report never says that a node had inputs, and gives every input the channel count of silence: both are
    reset when a node has been processed, and reports are made between quanta.  (The documentation promises "whether this
    node had incoming connections during the latest render quantum" and the "current channel count for each input
    port".)  Here for all graphs without cycles that lack a delay; node 2 of the case below was fed. *)
Theorem C79_inputs_refuted : forall P Q CFG (E : env P Q CFG) channels ops d ls, env_ok E -> legal_run E graph_new ops ->
  registrations_in_time ops -> along E no_cycle_when_rendering graph_new ops -> drun E ops (graph_new, []) = Some (d, ls) ->
  forall r, In r (r_nodes (diagnostics E channels d)) -> r_connected r = false /\ r_input_channels r = repeat (channels (silence E)) (r_inputs r).
Proof.
  intros P Q CFG E channels ops d ls EOK HL HT HN Hd r Hr. pose proof (drun_grun E _ _ _ _ Hd) as Hg. cbn [fst] in Hg.
  destruct (run_quiet E EOK ops (fst d) ls HL HT HN Hg) as (_ & _ & HQ). apply node_In in Hr. destruct Hr as (n & Hn & Er). rewrite Er.
  cbn [report_node r_connected r_input_channels r_inputs]. destruct (HQ _ n Hn) as [A B]. split; [exact B|]. rewrite A at 1.
  clear. induction (length (n_inputs n)) as [|k IH]; [reflexivity|]. cbn [repeat map]. rewrite IH. reflexivity.
Qed.
Print Assumptions C79_inputs_refuted.

(** *** Cases *)
Definition reported (ops : list (gop nat unit)) : option graph_report := option_map (fun x => diagnostics E1 (fun _ => 1) (fst x)) (drun E1 ops (graph_new, [])).
(** source 1, gain 2, destination 0; nodes 3 and 4 in a cycle *)
Definition ops_diag : list (gop nat unit) :=
  [ OpAdd 0 0 1 1 tt; OpAdd 1 5 0 1 tt; OpAdd 2 0 1 1 tt; OpAdd 3 0 1 1 tt; OpAdd 4 0 1 1 tt; OpConnect 1 0 2 (Some 0); OpConnect 2 0 0 (Some 0);
    OpConnect 3 0 4 (Some 0); OpConnect 4 0 3 (Some 0) ].
Example C79_case_legal : legal_run E1 graph_new (ops_diag ++ [OpRender 0]) /\ registrations_in_time (ops_diag ++ [OpRender 0]).
Proof. split; [legal_tac|]. unfold registrations_in_time. cbn. auto. Qed.
Example C79_case : option_map (fun r => (r_node_count r, r_edge_count r, r_ordered r, r_in_cycle r)) (reported (ops_diag ++ [OpRender 0])) = Some (5, 4, [1; 2; 0], [3; 4]).
Proof. vm_compute. reflexivity. Qed.
Example C79_case_fed : legal_run E1 graph_new (ops_chain ++ [OpRender 0]) /\
  option_map (fun r => map (fun n => (r_id n, r_connected n)) (r_nodes r)) (reported (ops_chain ++ [OpRender 0])) = Some [(0, false); (1, false); (2, false)] /\
  exists g ls g' lgs o, grun E1 ops_chain graph_new = Some (g, ls) /\ render E1 0 g = Some (g', lgs, o) /\ fed lgs 2.
Proof.
  split; [legal_tac|]. split; [vm_compute; reflexivity|]. eexists _, _, _, _, _. split; [vm_compute; reflexivity|]. split; [vm_compute; reflexivity|].
  eexists _, _, 0. split; [left; reflexivity|]. split; [discriminate|]. split; [left; reflexivity|]. split; reflexivity.
Qed.
Example C79_case_no_cycle : registrations_in_time (ops_chain ++ [OpRender 0]) /\ along E1 no_cycle_when_rendering graph_new (ops_chain ++ [OpRender 0]).
Proof.
  split; [unfold registrations_in_time; cbn; auto|]. cbn [ops_chain app].
  repeat match goal with
    | |- along _ _ _ _ => hnf
    | |- no_cycle_when_rendering _ (OpRender _) /\ _ => fail 1
    | |- no_cycle_when_rendering _ _ /\ _ => split; [exact I|intros ? ? ?H; vm_compute in H; injection H as <- <-]
    end.
  split; [|intros ? ? _; exact I].
  cbn [no_cycle_when_rendering]. apply (no_cycle_rank _ (fun i => match i with 0 => 0 | 1 => 2 | _ => 1 end)).
  intros a b (n & e & Hn & He & Hb). assert (Hi : In a [0; 1; 2]) by (eapply live_check; [|exact Hn]; vm_compute; reflexivity).
  destruct Hi as [<-|[<-|[<-|[]]]]; vm_compute in Hn;
    injection Hn as <-; cbn in He; repeat destruct He as [He|He]; try contradiction; subst e; cbn in Hb; subst b; lia.
Qed.
(** Finding: a connection or disconnection empties the reported ordering until the next quantum, although all nodes
    were rendered in the last quantum and will be in the next. *)
Theorem C79_ordering_between_quanta_refuted : exists ops d ls g' lgs o,
  legal_run E1 graph_new (ops ++ [OpRender 1]) /\ drun E1 ops (graph_new, []) = Some (d, ls) /\
  r_node_count (diagnostics E1 (fun _ => 1) d) = 3 /\ r_ordered (diagnostics E1 (fun _ => 1) d) = [] /\
  map (map l_id) ls = [[1; 2; 0]] /\ render E1 1 (fst d) = Some (g', lgs, o) /\ map l_id lgs = [1; 2; 0].
Proof.
  exists (ops_chain ++ [OpRender 0; OpConnect 1 0 0 (Some 0)]). eexists _, _, _, _, _. split; [legal_tac|].
  repeat (split; [vm_compute; reflexivity|]). vm_compute. reflexivity.
Qed.
Print Assumptions C79_ordering_between_quanta_refuted.

(** ** C79: how the report reaches the callback *)

(** If reports are asked for one at a time, the callbacks are called in order, each at most once and with the report that
    answers its request; and when nothing is on its way any more and the render thread has not panicked all have been
    called.  Missing: overlapping requests and a full event queue, for which it is false (next theorems). *)
Theorem C79_answered_partial : forall capacity ms w, wrun capacity new_world ms = Some w -> one_at_a_time capacity new_world ms ->
  (exists rest, requests ms = delivered w ++ rest /\ length rest <= 1) /\
  (w_crashed w = false -> w_pending w = [] -> in_queue w = [] -> delivered w = requests ms).
Proof. exact answered. Qed.
Print Assumptions C79_answered_partial.
Example C79_answered_case : exists w, let ms := [Ask 7 1; Other (Send (mk_event 3 false 0)); Answer; Other Take; Other Take; Other Return; Ask 8 2; Answer; Other Take] in
  wrun 256 new_world ms = Some w /\ one_at_a_time 256 new_world ms /\ delivered w = [(Once 7, answer 1); (Once 8, answer 2)].
Proof. eexists. split; [vm_compute; reflexivity|]. split; [vm_compute; repeat split|reflexivity]. Qed.

(** Finding: when a second report is asked for before the first was delivered, the first callback is never called, the
    second gets the report of the first request, and the second report is dropped. *)
Theorem C79_two_requests_refuted : forall capacity ms w, 2 <= capacity ->
  wrun capacity new_world ([Ask 7 1; Ask 8 2; Answer; Answer; Other Take; Other Return; Other Take] ++ ms) = Some w ->
  (forall m, In m ms -> match m with Ask _ _ => False | _ => True end) ->
  delivered w = [(Once 8, answer 1)].
Proof. exact two_requests. Qed.
Print Assumptions C79_two_requests_refuted.

(** Finding: the render thread panics when the queue of events is full (256 events that no handler has taken), whereas
    all other events are dropped in that case. *)
Theorem C79_full_queue_refuted : forall w h r, let ms := map (fun i => Other (Try_send (mk_event 1 false i))) (seq 0 256) ++ [Ask h r; Answer] in
  wrun 256 new_world ms = Some w -> w_crashed w = true.
Proof.
  intros w h r ms H.
  assert (match wrun 256 new_world ms with Some w => w_crashed w = true | None => False end) as X by (vm_compute; reflexivity). rewrite H in X. exact X.
Qed.
Print Assumptions C79_full_queue_refuted.
Example C79_full_queue_case : wrun 256 new_world (map (fun i => Other (Try_send (mk_event 1 false i))) (seq 0 256) ++ [Ask 7 1; Answer]) <> None.
Proof. vm_compute. discriminate. Qed.
