(** The synchronous interface of an OfflineAudioContext: proofs. *)
From Coq Require Import List Arith Bool Lia Sorting.Sorted.
From Verif Require Import Thread_Model Thread_Spec Thread_Proofs Thread_OfflineProofs Offline_Model Offline_Spec Offline_Proofs Offline_LifeProofs Offline_ProgressProofs OfflineSync_Model OfflineSync_Spec.
Import ListNotations.

Section Sync.
Context {G M V : Type}.
Variable GO : @graph_ops G M V.
Variable zero : V.
Variable RQ channels len : nat.
Variable g0 : G.
Variable evs : nat -> list nat.
Variable ms : nat -> list M.
Notation world := (@world G M V).
Notation n := (div_ceil len RQ).
Notation gm := (map (@GraphMsg G M)).

Definition ready (w : world) : Prop := w_state w = Running /\ t_listening (w_thread w) = true /\ w_chan w = [].
Definition cb_msgs (cbs : list (nat * list M)) : list (nat * list (@cmsg G M)) := map (fun c => (fst c, gm (snd c))) cbs.
Definition cb_left (cbs : list (nat * list M)) : list (nat * nat) := map (fun c => (fst c, 0)) cbs.

Lemma panicked_task : forall w : world, has_panicked (panicked w) = true.
Proof. reflexivity. Qed.

(** one call of handle_control_messages *)
Lemma handle_ready : forall (w : world) next m, t_listening (w_thread w) = true -> w_chan w = gm m ->
  match handle_control_messages GO (w_thread w) (gm m) with
  | None => handle_messages GO w next = panicked w
  | Some (t', _) => t_listening t' = true /\
      handle_messages GO w next = mk_world (w_state w) (w_renderer w) (w_futures w) next (w_left w) (w_tokens w) [] t' (w_buffer w) (w_events w) (w_log w)
  end.
Proof.
  intros w next m L C. unfold handle_messages. rewrite C. destruct (handle_control_messages GO (w_thread w) (gm m)) as [[t' rest]|] eqn:E; [|reflexivity].
  unfold handle_control_messages in E. rewrite L in E. apply handle_graph in E. destruct E as (-> & E1 & E2). rewrite E1, skipn_all. cbn [last map].
  rewrite !app_nil_r. split; [congruence|reflexivity].
Qed.

Lemma callback_spec : forall (w : world) q c, ready w ->
  match handle_control_messages GO (w_thread w) (gm c) with
  | None => has_panicked (run_callback GO w q c) = true
  | Some (t', _) => let w' := run_callback GO w q c in
      w_state w' = Running /\ t_listening t' = true /\ w_chan w' = [] /\ w_thread w' = t' /\ w_buffer w' = w_buffer w /\ w_task w' = T_quantum q /\
      w_events w' = w_events w ++ [Changed Suspended; Changed Running] /\ w_log w' = w_log w ++ [Emit (Changed Suspended); Emit (Changed Running)]
  end.
Proof.
  intros w q c (St & L & C). unfold run_callback.
  set (w2 := change_state (with_chan (change_state w Suspended) (w_chan (change_state w Suspended) ++ gm c)) Running).
  assert (E : w2 = mk_world Running (w_renderer w) (w_futures w) (w_task w) (w_left w) (w_tokens w) (gm c) (w_thread w) (w_buffer w)
    (w_events w ++ [Changed Suspended; Changed Running]) (w_log w ++ [Emit (Changed Suspended); Emit (Changed Running)])).
  { unfold w2, change_state. rewrite St. cbn [cstate_eqb]. fields. cbn [cstate_eqb]. fields. unfold send_event. fields. rewrite C, <- !app_assoc. reflexivity. }
  pose proof (handle_ready w2 (T_quantum q) c) as H. rewrite E in *. fields. specialize (H L eq_refl).
  destruct (handle_control_messages GO (w_thread w) (gm c)) as [[t' r]|]; [|rewrite H; reflexivity]. destruct H as [H1 ->]. fields. repeat split; auto.
Qed.

Lemma handlers_spec : forall (w : world) q m, ready w -> let m' := match w_events w with [] => [] | _ => m end in
  match handle_control_messages GO (w_thread w) (gm m') with
  | None => has_panicked (run_handlers GO w q m) = true
  | Some (t', _) => let w' := run_handlers GO w q m in
      ready w' /\ w_thread w' = t' /\ w_buffer w' = w_buffer w /\ w_task w' = T_check (S q) /\ w_events w' = [] /\ w_log w' = w_log w ++ map Heard (w_events w)
  end.
Proof.
  intros w q m (St & L & C) m'. unfold run_handlers, m'. destruct (w_events w) as [|e es] eqn:Ev.
  - cbn [map]. unfold handle_control_messages. rewrite L. cbn [handle_all]. unfold ready. fields. rewrite app_nil_r. auto 10.
  - set (w2 := handle_pending_events (with_chan w (w_chan w ++ gm m))).
    assert (E : w2 = mk_world Running (w_renderer w) (w_futures w) (w_task w) (w_left w) (w_tokens w) (gm m) (w_thread w) (w_buffer w) [] (w_log w ++ map Heard (e :: es))).
    { unfold w2, handle_pending_events, with_chan. fields. rewrite C, St, Ev. reflexivity. }
    pose proof (handle_ready w2 (T_check (S q)) m) as H. rewrite E in *. fields. specialize (H L eq_refl).
    destruct (handle_control_messages GO (w_thread w) (gm m)) as [[t' r]|]; [|rewrite H; reflexivity]. destruct H as [H1 ->]. unfold ready. fields. repeat split; auto.
Qed.

Lemma quantum_listening : forall (t t' : @thread G V) o, render_quantum GO RQ t = Some (t', o) -> t_listening t' = t_listening t.
Proof.
  intros t t' o H. unfold render_quantum in H. destruct (t_graph t) as [g|]; [|discriminate]. destruct (g_render GO g (t_frames t)) as [[g' o']|]; [|discriminate].
  injection H as <- _. reflexivity.
Qed.

Lemma loop_spec : forall susp k q (w : world) cbs, ready w -> ordered cbs -> Forall (fun c => q <= fst c) cbs ->
  (forall x, q <= x -> (In x (map fst cbs) <-> In x susp)) -> (w_events w = [] <-> 0 < q) ->
  let w' := sync_loop GO zero RQ len evs ms k q w cbs in
  match offline_loop GO zero RQ k q len (w_thread w) (w_buffer w) (cb_msgs cbs) (map (fun j => gm (answers susp evs ms j)) (seq q k)) with
  | None => w_task w' = T_panicked
  | Some (_, b, _) => w_task w' = T_done b /\ marks (w_log w') = marks (w_log w) ++ loop k q (pending (w_events w)) (cb_left cbs)
  end.
Proof.
  intros susp. induction k as [|k IH]; intros q w cbs Rd O F HI Ev w'.
  - cbn [offline_loop]. unfold w'. cbn [sync_loop]. unfold finish, change_state, cancel. fields. destruct Rd as (St & _). rewrite St. cbn [cstate_eqb]. fields.
    split; [reflexivity|]. rewrite !marks_app, marks_heard. cbn [loop]. rewrite <- !app_assoc. reflexivity.
  - pose (fire := match cbs with (q', _) :: _ => Nat.eqb q' q | [] => false end).
    pose (here := match cbs with (q', c) :: _ => if Nat.eqb q' q then c else [] | [] => [] end).
    pose (cbs' := if fire then tl cbs else cbs).
    pose (w1 := if fire then run_callback GO w q here else with_task w (T_quantum q)).
    assert (Ew : w' = if has_panicked w1 then w1 else
      let w2 := render GO zero RQ len w1 q (evs q) in if has_panicked w2 then w2 else
      let w3 := run_handlers GO w2 q (ms q) in if has_panicked w3 then w3 else sync_loop GO zero RQ len evs ms k (S q) w3 cbs').
    { unfold w', w1, cbs', here, fire. cbn [sync_loop]. destruct cbs as [|[q' c] cbs0]; [reflexivity|]. destruct (Nat.eqb q' q); reflexivity. }
    assert (Eo : offline_loop GO zero RQ (S k) q len (w_thread w) (w_buffer w) (cb_msgs cbs) (map (fun j => gm (answers susp evs ms j)) (seq q (S k))) =
      match handle_control_messages GO (w_thread w) (gm here) with
      | None => None
      | Some (t1, _) =>
          match render_quantum GO RQ t1 with
          | None => None
          | Some (t2, o) => match extend_offline zero RQ len (w_buffer w) o with
                            | None => None
                            | Some b' => match handle_control_messages GO t2 (gm (answers susp evs ms q)) with
                                         | None => None
                                         | Some (t3, _) => match offline_loop GO zero RQ k (S q) len t3 b' (cb_msgs cbs') (map (fun j => gm (answers susp evs ms j)) (seq (S q) k)) with
                                                           | None => None
                                                           | Some (t4, buf, ran') => Some (t4, buf, (if fire then [(q, t_frames (w_thread w))] else []) ++ ran')
                                                           end
                                         end
                            end
          end
      end).
    { unfold cbs', here, fire. destruct cbs as [|[q' c] cbs0]; [reflexivity|]. cbn [cb_msgs map fst snd offline_loop]. destruct (Nat.eqb_spec q' q) as [->|]; reflexivity. }
    assert (El : loop (S k) q (pending (w_events w)) (cb_left cbs) =
      (if fire then [Changes Suspended; Changes Running] else []) ++ Renders q :: (pending (w_events w) ++ (if fire then [Hears Suspended; Hears Running] else [])) ++ loop k (S q) [] (cb_left cbs')).
    { unfold cbs', fire. destruct cbs as [|[q' c] cbs0]; cbn [cb_left map fst loop tl]; [rewrite app_nil_r; reflexivity|]. destruct (Nat.eqb q' q); cbn [app]; [reflexivity|rewrite app_nil_r; reflexivity]. }
    assert (Fs : fire = existsb (Nat.eqb q) susp).
    { unfold fire. destruct cbs as [|[q' c] cbs0].
      - symmetry. destruct (existsb (Nat.eqb q) susp) eqn:X; [|reflexivity]. apply existsb_exists in X. destruct X as (x & I & E). apply Nat.eqb_eq in E. subst x.
        apply (proj2 (HI q (le_n q))) in I. destruct I.
      - unfold ordered in O. cbn [map fst] in O. apply StronglySorted_inv in O. destruct O as [_ O2]. rewrite Forall_forall in O2. apply Forall_cons_iff in F. destruct F as [F1 _]. cbn [fst] in F1.
        destruct (Nat.eqb_spec q' q) as [->|NE].
        + symmetry. apply existsb_exists. exists q. split; [|apply Nat.eqb_refl]. apply (HI q (le_n q)). left. reflexivity.
        + symmetry. destruct (existsb (Nat.eqb q) susp) eqn:X; [|reflexivity]. apply existsb_exists in X. destruct X as (x & I & E). apply Nat.eqb_eq in E. subst x.
          apply (proj2 (HI q (le_n q))) in I. cbn [map fst In] in I. destruct I as [I|I]; [congruence|]. apply O2 in I. lia. }
    assert (O' : ordered cbs' /\ Forall (fun c => S q <= fst c) cbs' /\ (forall x, S q <= x -> (In x (map fst cbs') <-> In x susp))).
    { unfold cbs', fire. destruct cbs as [|[q' c] cbs0].
      - split; [exact O|]. split; [constructor|]. intros x Hx. apply HI. lia.
      - pose proof O as O0. unfold ordered in O0. cbn [map fst] in O0. apply StronglySorted_inv in O0. destruct O0 as [O1 O2]. rewrite Forall_forall in O2. apply Forall_cons_iff in F. destruct F as [F1 F2]. cbn [fst] in F1.
        destruct (Nat.eqb_spec q' q) as [->|NE]; cbn [tl].
        + split; [exact O1|]. split; [apply Forall_forall; intros p I; apply (in_map fst) in I; apply O2 in I; lia|].
          intros x Hx. rewrite <- (HI x) by lia. cbn [map fst In]. split; [auto|]. intros [->|I]; [lia|exact I].
        + split; [exact O|]. split; [constructor; [cbn; lia|]; apply Forall_forall; intros p I; apply (in_map fst) in I; apply O2 in I; lia|].
          intros x Hx. apply HI. lia. }
    destruct O' as (O1 & F1 & HI1). rewrite Eo, El.
    (* the callback *)
    assert (W1 : match handle_control_messages GO (w_thread w) (gm here) with
      | None => has_panicked w1 = true
      | Some (t', _) => w_state w1 = Running /\ t_listening t' = true /\ w_chan w1 = [] /\ w_thread w1 = t' /\ w_buffer w1 = w_buffer w /\ w_task w1 = T_quantum q /\
          w_events w1 = w_events w ++ (if fire then [Changed Suspended; Changed Running] else []) /\
          marks (w_log w1) = marks (w_log w) ++ (if fire then [Changes Suspended; Changes Running] else [])
      end).
    { unfold w1. pose proof (callback_spec w q here Rd) as Cb. destruct fire eqn:Fi.
      - destruct (handle_control_messages GO (w_thread w) (gm here)) as [[t' r]|]; [|exact Cb]. destruct Cb as (A1 & A2 & A3 & A4 & A5 & A6 & A7 & A8). rewrite A8, marks_app. auto 10.
      - assert (H0 : here = []) by (unfold here, fire in *; destruct cbs as [|[q' c] ?]; [reflexivity|]; rewrite Fi; reflexivity). rewrite H0. destruct Rd as (R1 & R2 & R3).
        cbn [map]. unfold handle_control_messages. rewrite R2. cbn [handle_all]. fields. rewrite !app_nil_r. auto 10. }
    destruct (handle_control_messages GO (w_thread w) (gm here)) as [[t1 r1]|].
    2:{ rewrite Ew, W1. unfold has_panicked in W1. destruct (w_task w1); try discriminate. reflexivity. }
    destruct W1 as (A1 & A2 & A3 & A4 & A5 & A6 & A7 & A8).
    assert (P1 : has_panicked w1 = false) by (unfold has_panicked; rewrite A6; reflexivity). rewrite P1 in Ew. cbv zeta in Ew.
    unfold render in Ew. rewrite A4, A5 in Ew. destruct (render_quantum GO RQ t1) as [[t2 o]|] eqn:Rq.
    2:{ rewrite panicked_task in Ew. rewrite Ew. reflexivity. }
    destruct (extend_offline zero RQ len (w_buffer w) o) as [b'|].
    2:{ rewrite panicked_task in Ew. rewrite Ew. reflexivity. }
    set (w2 := mk_world (w_state w1) (w_renderer w1) (w_futures w1) (T_events q) (w_left w1) (w_tokens w1) (w_chan w1) t2 b' (w_events w1 ++ map Node_event (evs q))
      (w_log w1 ++ Rendered q :: map (fun i : nat => Emit (Node_event i)) (evs q))) in *.
    change (has_panicked w2) with false in Ew. cbv iota in Ew.
    assert (Rd2 : ready w2) by (unfold ready, w2; fields; rewrite (quantum_listening _ _ _ Rq); auto).
    pose proof (handlers_spec w2 q (ms q) Rd2) as Hh. cbv zeta in Hh.
    assert (Em : match w_events w2 with [] => [] | _ :: _ => ms q end = answers susp evs ms q).
    { unfold answers, w2. fields. rewrite A7, <- Fs. destruct (Nat.eqb_spec q 0) as [->|NZ].
      - destruct (w_events w) as [|e es]; [destruct Ev as [Ev _]; specialize (Ev eq_refl); lia|]. reflexivity.
      - rewrite (proj2 Ev) by lia. destruct fire; [reflexivity|]. cbn [app orb]. destruct (evs q); reflexivity. }
    rewrite Em in Hh. change (w_thread w2) with t2 in Hh. destruct (handle_control_messages GO t2 (gm (answers susp evs ms q))) as [[t3 r3]|].
    2:{ rewrite Hh in Ew. rewrite Ew. unfold has_panicked in Hh. destruct (w_task (run_handlers GO w2 q (ms q))); try discriminate. reflexivity. }
    destruct Hh as (B1 & B2 & B3 & B4 & B5 & B6).
    assert (P3 : has_panicked (run_handlers GO w2 q (ms q)) = false) by (unfold has_panicked; rewrite B4; reflexivity). rewrite P3 in Ew.
    specialize (IH (S q) (run_handlers GO w2 q (ms q)) cbs' B1 O1 F1 HI1). rewrite B2, B3, B5 in IH. change (w_buffer w2) with b' in IH.
    specialize (IH ltac:(split; [lia|reflexivity])). cbv zeta in IH. rewrite <- Ew in IH.
    destruct (offline_loop GO zero RQ k (S q) len t3 b' (cb_msgs cbs') (map (fun j => gm (answers susp evs ms j)) (seq (S q) k))) as [[[t4 bf] ran]|]; [|exact IH].
    destruct IH as [I1 I2]. split; [exact I1|]. rewrite I2, B6. unfold w2. fields. rewrite A7. rewrite !marks_app, marks_heard, A8. 
    change (marks (Rendered q :: map (fun i : nat => Emit (Node_event i)) (evs q))) with (Renders q :: marks (V := V) (map (fun i : nat => Emit (Node_event i)) (evs q))).
    rewrite marks_nodes, !pending_app_ev, pending_nodes, app_nil_r. rewrite <- !app_assoc. cbn [app]. f_equal. f_equal. f_equal. f_equal. destruct fire; reflexivity.
Qed.

(** ** The calls before the start *)
Lemma calls_spec : forall cs (w : world) cbs pre, w = with_chan (new_context channels g0) (StartupMsg g0 :: gm (initial pre)) -> ordered cbs ->
  (forall q m, In (q, m) cbs <-> In (Suspend_sync q m) pre) -> forall w' cbs', sync_calls (w, cbs) cs = Some (w', cbs') ->
  w' = with_chan (new_context channels g0) (StartupMsg g0 :: gm (initial (pre ++ cs))) /\ ordered cbs' /\ (forall q m, In (q, m) cbs' <-> In (Suspend_sync q m) (pre ++ cs)).
Proof.
  induction cs as [|c cs IH]; intros w cbs pre Ew O HI w' cbs' H; cbn [sync_calls] in H.
  - injection H as <- <-. rewrite app_nil_r. auto.
  - destruct (sync_call (w, cbs) c) as [[w1 cbs1]|] eqn:E; [|discriminate]. replace (pre ++ c :: cs) with ((pre ++ [c]) ++ cs) by (rewrite <- app_assoc; reflexivity).
    apply (IH w1 cbs1 (pre ++ [c])); [| | |exact H]; clear IH H; unfold sync_call in E; destruct c as [q m|m].
    + rewrite Ew in E at 1. cbn in E. destruct (insert_suspension q m cbs); [|discriminate]. injection E as <- _. unfold initial. rewrite flat_map_app. cbn [flat_map]. rewrite !app_nil_r. exact Ew.
    + injection E as <- _. rewrite Ew. unfold with_chan. fields. unfold initial. rewrite flat_map_app. cbn [flat_map]. rewrite app_nil_r, map_app. reflexivity.
    + rewrite Ew in E at 1. cbn in E. destruct (insert_spec q m cbs O) as [_ I2]. destruct (insert_suspension q m cbs) as [c'|]; [|discriminate]. injection E as _ <-. exact (proj1 (I2 _ eq_refl)).
    + injection E as _ <-. exact O.
    + rewrite Ew in E at 1. cbn in E. destruct (insert_spec q m cbs O) as [_ I2]. destruct (insert_suspension q m cbs) as [c'|]; [|discriminate]. injection E as _ <-.
      destruct (I2 _ eq_refl) as [_ I3]. intros q' m'. rewrite in_app_iff, <- HI. cbn [In]. split.
      * intros X. apply I3 in X. destruct X as [X|X]; [right; left; congruence|left; exact X].
      * intros [X|[X|[]]]; apply I3; [right; exact X|left; congruence].
    + injection E as _ <-. intros q' m'. rewrite in_app_iff, <- HI. cbn [In]. split; [auto|]. intros [X|[X|[]]]; [exact X|discriminate].
Qed.

Lemma quanta_in : forall (cs : list call) cbs, (forall q m, In (q, m) cbs <-> In (Suspend_sync q m) cs) -> forall q, In q (map fst cbs) <-> In q (quanta (M := M) cs).
Proof.
  intros cs cbs H q. unfold quanta. rewrite in_flat_map, in_map_iff. split.
  - intros ((q' & m) & <- & I). exists (Suspend_sync q' m). split; [apply H; exact I|left; reflexivity].
  - intros ([q' m|m] & I & X); [|destruct X]. destruct X as [X|[]]. subst q'. exists (q, m). split; [reflexivity|apply H; exact I].
Qed.

Hypothesis HRQ : 0 < RQ.
Hypothesis Hlen : 0 < len.

Theorem start_spec : forall cs w cbs, sync_calls (new_context channels g0, []) cs = Some (w, cbs) ->
  ordered cbs /\ (forall q m, In (q, m) cbs <-> In (Suspend_sync q m) cs) /\
  let w' := start_rendering_sync GO zero RQ len evs ms (w, cbs) in
  match render_audiobuffer GO zero RQ channels len new_thread (StartupMsg g0 :: gm (initial cs)) (map (fun c => (fst c, gm (snd c))) cbs)
          (map (fun k => gm (answers (quanta cs) evs ms k)) (seq 0 n)) with
  | None => w_task w' = T_panicked
  | Some (_, b, _) => w_task w' = T_done b /\ marks (w_log w') = life n (quanta cs)
  end.
Proof.
  intros cs w cbs H. apply (calls_spec cs _ [] []) in H; [|reflexivity|constructor|intros; cbn; tauto]. cbn [app] in H. destruct H as (-> & O & HI).
  split; [exact O|]. split; [exact HI|]. intros w'. unfold render_audiobuffer.
  set (w0 := with_chan (new_context channels g0) (StartupMsg g0 :: gm (initial cs))) in *.
  set (w1 := change_state (with_task (with_renderer w0 None) T_init) Running).
  assert (E1 : w1 = mk_world Running None [] T_init [] 0 (StartupMsg g0 :: gm (initial cs)) new_thread (repeat [] channels) [Changed Running] [Emit (Changed Running)]) by reflexivity.
  assert (Ew : w' = let w2 := handle_messages GO w1 (T_check 0) in if has_panicked w2 then w2 else sync_loop GO zero RQ len evs ms n 0 w2 cbs) by reflexivity.
  cbv zeta in Ew. pose proof (handle_init GO g0 w1 (T_check 0) (initial cs)) as Hi. specialize (Hi ltac:(rewrite E1; reflexivity) ltac:(rewrite E1; reflexivity) ltac:(rewrite E1; reflexivity)).
  unfold handle_messages in Ew. change (w_thread w1) with (new_thread (G := G) (V := V)) in *. change (w_chan w1) with (StartupMsg g0 :: gm (initial cs)) in *.
  destruct (handle_control_messages GO new_thread (StartupMsg g0 :: gm (initial cs))) as [[t1 r1]|] eqn:Eh.
  2:{ cbv iota in Ew. rewrite panicked_task in Ew. rewrite Ew. reflexivity. }
  destruct Hi as [Hi|(t' & Ht & L & Hi)].
  { exfalso. unfold handle_messages in Hi. change (w_thread w1) with (new_thread (G := G) (V := V)) in Hi. change (w_chan w1) with (StartupMsg g0 :: gm (initial cs)) in Hi.
    rewrite Eh in Hi. apply (f_equal (fun w => w_task w)) in Hi. discriminate. }
  injection Ht as <- ->.
  assert (Ew2 : w' = sync_loop GO zero RQ len evs ms n 0 (handle_messages GO w1 (T_check 0)) cbs).
  { rewrite Ew. unfold handle_messages. change (w_thread w1) with (new_thread (G := G) (V := V)). change (w_chan w1) with (StartupMsg g0 :: gm (initial cs)). rewrite Eh. reflexivity. }
  rewrite Hi in Ew2. clear Ew Hi. rewrite E1 in Ew2. fields. cbn [app] in Ew2.
  match type of Ew2 with _ = sync_loop _ _ _ _ _ _ _ _ ?x _ => set (w2 := x) in * end.
  pose proof (loop_spec (quanta cs) n 0 w2 cbs) as Ls. specialize (Ls ltac:(unfold ready, w2; fields; auto) O ltac:(apply Forall_forall; intros; lia)).
  specialize (Ls (fun x _ => quanta_in cs cbs HI x)). specialize (Ls ltac:(unfold w2; fields; split; [discriminate|lia])). cbv zeta in Ls. rewrite <- Ew2 in Ls.
  change (w_thread w2) with t1 in Ls. change (w_buffer w2) with (repeat (@nil V) channels) in Ls. unfold cb_msgs in Ls.
  destruct (offline_loop GO zero RQ n 0 len t1 (repeat [] channels) (map (fun c : nat * list M => (fst c, gm (snd c))) cbs) (map (fun j : nat => gm (answers (quanta cs) evs ms j)) (seq 0 n))) as [[[t4 b] ran]|]; [|exact Ls].
  destruct Ls as [L1 L2]. split; [exact L1|]. rewrite L2. rewrite <- (loop_life (quanta cs) n (cb_left cbs)).
  - reflexivity.
  - apply n_pos; assumption.
  - unfold ordered, cb_left. rewrite map_map. exact O.
  - intros x. unfold cb_left. rewrite map_map. apply (quanta_in cs cbs HI).
Qed.

Hypothesis HG : never_panics GO.
Hypothesis Hch : 0 < channels.
Lemma quantum_some : forall (t : @thread G V), t_graph t <> None -> exists t' o, render_quantum GO RQ t = Some (t', o) /\ t_graph t' <> None.
Proof.
  intros t N. unfold render_quantum. destruct (t_graph t) as [g|]; [|congruence]. destruct (g_render GO g (t_frames t)) as [[g' o]|] eqn:E; [|destruct (proj1 HG g _ E)].
  eexists _, _. split; [reflexivity|]. discriminate.
Qed.
Lemma loop_some : forall k q t b cbs es, t_listening t = true -> t_graph t <> None -> b <> [] -> Forall (fun c => exists m, snd c = gm m) cbs -> Forall (fun m => exists m', m = gm m') es ->
  offline_loop GO zero RQ k q len t b cbs es <> None.
Proof.
  induction k as [|k IH]; intros q t b cbs es L N B F1 F2; [discriminate|]. cbn [offline_loop].
  match goal with |- match ?y with pair _ _ => _ end <> None => set (x := y) end.
  assert (X : (exists m, fst (fst x) = gm m) /\ Forall (fun c => exists m, snd c = gm m) (snd x)).
  { unfold x. destruct cbs as [|[q0 m0] cbs0]; [split; [exists []; reflexivity|constructor]|]. pose proof F1 as F1'. apply Forall_cons_iff in F1. destruct F1 as [Fa Fb].
    destruct (Nat.eqb q0 q); split; auto. exists []. reflexivity. }
  destruct x as [[here ran] cbs']. cbn [fst snd] in X. destruct X as [(m & ->) F1'].
  destruct (messages_some GO HG m t L N) as (t1 & E1 & N1). rewrite E1.
  assert (L1 : t_listening t1 = true) by (unfold handle_control_messages in E1; rewrite L in E1; apply handle_graph in E1; destruct E1 as (_ & _ & ->); exact L).
  destruct (quantum_some t1 N1) as (t2 & o & E2 & N2). rewrite E2. assert (L2 : t_listening t2 = true) by (rewrite (quantum_listening _ _ _ E2); exact L1).
  assert (E3 : exists b', extend_offline zero RQ len b o = Some b' /\ b' <> []).
  { unfold extend_offline. destruct b as [|b0 b]; [congruence|]. eexists. split; [reflexivity|]. discriminate. }
  destruct E3 as (b' & E3 & B'). rewrite E3.
  assert (X : exists m', hd [] es = gm m') by (destruct es; [exists []; reflexivity|]; apply Forall_cons_iff in F2; exact (proj1 F2)).
  assert (F2' : Forall (fun m => exists m', m = gm m') (tl es)) by (destruct es; [constructor|]; apply Forall_cons_iff in F2; exact (proj2 F2)).
  destruct X as (m' & ->). destruct (messages_some GO HG m' t2 L2 N2) as (t3 & E4 & N3). rewrite E4.
  assert (L3 : t_listening t3 = true) by (unfold handle_control_messages in E4; rewrite L2 in E4; apply handle_graph in E4; destruct E4 as (_ & _ & ->); exact L2).
  specialize (IH (S q) t3 b' cbs' (tl es) L3 N3 B' F1' F2'). destruct (offline_loop GO zero RQ k (S q) len t3 b' cbs' (tl es)) as [[[? ?] ?]|]; [discriminate|contradiction].
Qed.
Theorem buffer_some : forall init (cbs : list (nat * list M)) (es : nat -> list M),
  render_audiobuffer GO zero RQ channels len new_thread (StartupMsg g0 :: gm init) (map (fun c => (fst c, gm (snd c))) cbs) (map (fun k => gm (es k)) (seq 0 n)) <> None.
Proof.
  intros init cbs es. unfold render_audiobuffer. destruct (startup_some GO g0 HG init new_thread eq_refl) as (t' & E & N). rewrite E. apply loop_some; auto.
  - unfold handle_control_messages in E. cbn [t_listening new_thread handle_all handle_control_message] in E. apply handle_graph in E. destruct E as (_ & _ & ->). reflexivity.
  - destruct channels; [lia|discriminate].
  - apply Forall_forall. intros c I. apply in_map_iff in I. destruct I as (x & <- & _). exists (snd x). reflexivity.
  - apply Forall_forall. intros c I. apply in_map_iff in I. destruct I as (x & <- & _). exists (es x). reflexivity.
Qed.

End Sync.
