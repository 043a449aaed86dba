(** The render thread's reports: state changes and notifications in the order of the messages. *)
From Coq Require Import List Arith Bool Lia.
From Verif Require Import Thread_Model Thread_Spec.
Import ListNotations.

Section Report.
Context {G M V T : Type}.
Variable GO : @graph_ops G M V.
Variable zero : V.
Variable conv : V -> T.
Variable RQ : nat.
Notation thread := (@thread G V).
Notation cmsg := (@cmsg G M).

(** what changed between two states in which [rest], [rest'] are not yet handled *)
Definition reports (t : thread) (rest : list cmsg) (t' : thread) (rest' : list cmsg) : Prop :=
  exists ms, rest = ms ++ rest' /\ t_events t' = t_events t ++ flat_map changes ms /\ t_notified t' = t_notified t ++ flat_map asks ms /\
    t_state t' = last (flat_map changes ms) (t_state t) /\ t_suspended t' = pauses ms (t_suspended t).
Lemma last_app' : forall X (a b : list X) e, last (a ++ b) e = last b (last a e).
Proof. intros X a b e. revert e. induction b as [|x b IH] using rev_ind; intros e; [rewrite app_nil_r; reflexivity|]. rewrite app_assoc, !last_last. reflexivity. Qed.
Lemma pauses_app : forall (a b : list cmsg) s, pauses (a ++ b) s = pauses b (pauses a s).
Proof. intros a b s. unfold pauses. apply fold_left_app. Qed.
Lemma reports_refl : forall t rest, reports t rest t rest.
Proof. intros t rest. exists []. rewrite !app_nil_r. repeat split. Qed.
Lemma reports_trans : forall t r t1 r1 t2 r2, reports t r t1 r1 -> reports t1 r1 t2 r2 -> reports t r t2 r2.
Proof.
  intros t r t1 r1 t2 r2 (m1 & -> & A1 & A2 & A3 & A4) (m2 & -> & B1 & B2 & B3 & B4). exists (m1 ++ m2). rewrite app_assoc, !flat_map_app, last_app', pauses_app, B1, B2, B3, B4, A1, A2, A3, A4, !app_assoc. repeat split.
Qed.
Lemma handle_all_reports : forall q (t t' : thread) q', handle_all GO t q = Some (t', q') -> reports t q t' q'.
Proof.
  induction q as [|m q IH]; intros t t' q' H.
  - injection H as <- <-. apply reports_refl.
  - cbn [handle_all] in H. destruct (handle_control_message GO t m) as [[t1|t1]|] eqn:E; [| |discriminate].
    + apply reports_trans with (t1 := t1) (r1 := q); [|apply IH; exact H]. exists [m]. split; [reflexivity|].
      destruct m; cbn [handle_control_message] in E; try (injection E as <-; cbn; rewrite ?app_nil_r; repeat split; fail).
      * destruct (t_graph t) as [g|]; [|discriminate]. destruct (g_apply GO g m); [|discriminate]. injection E as <-. cbn. rewrite !app_nil_r. repeat split.
      * destruct (t_graph t); discriminate.
    + injection H as <- <-. exists [m]. split; [reflexivity|]. destruct m; cbn [handle_control_message] in E; try discriminate.
      * destruct (t_graph t) as [g|]; [|discriminate]. destruct (g_apply GO g m); discriminate.
      * destruct (t_graph t) as [g|]; [|discriminate]. injection E as <-. cbn. rewrite app_nil_r. repeat split.
Qed.
Lemma receive_reports : forall (t t' : thread) rest bs rest' bs', receive GO t rest bs = Some (t', rest', bs') -> reports t (rest ++ concat bs) t' (rest' ++ concat bs').
Proof.
  intros t t' rest bs rest' bs' H. unfold receive, handle_control_messages in H.
  assert (E : concat bs = hd [] bs ++ concat (tl bs)) by (destruct bs; reflexivity). rewrite E.
  assert (Add : forall a b (c : list cmsg), reports t a t' b -> reports t (a ++ c) t' (b ++ c)) by (intros a b c (ms & -> & X); exists ms; split; [symmetry; apply app_assoc|exact X]).
  rewrite app_assoc. destruct (t_listening t).
  - destruct (handle_all GO t (rest ++ hd [] bs)) as [[t1 r1]|] eqn:A; [|discriminate]. injection H as <- <- <-. apply Add. apply handle_all_reports. exact A.
  - injection H as <- <- <-. apply reports_refl.
Qed.
Lemma same_reports : forall (t t1 t' : thread) r r', reports t1 r t' r' -> t_events t1 = t_events t -> t_notified t1 = t_notified t -> t_state t1 = t_state t -> t_suspended t1 = t_suspended t -> reports t r t' r'.
Proof. intros t t1 t' r r' (ms & H) E1 E2 E3 E4. rewrite E1, E2, E3, E4 in H. exists ms. exact H. Qed.
Lemma chunks_reports : forall n cs (t t' : thread) rest bs out rest' bs', render_chunks GO zero conv RQ n t cs rest bs = Some (t', out, rest', bs') -> reports t (rest ++ concat bs) t' (rest' ++ concat bs').
Proof.
  intros n. induction cs as [|data cs IH]; intros t t' rest bs out rest' bs' H; cbn [render_chunks] in H.
  - injection H as <- <- <- <-. apply reports_refl.
  - destruct (render_quantum GO RQ t) as [[t1 q]|] eqn:Q; [|discriminate]. destruct (copy_channels conv n 0 n 0 (pad zero RQ n q) data) as [d'|]; [|discriminate].
    set (t2 := if length data =? RQ * n then t1 else _) in H. destruct (receive GO t2 rest bs) as [[[t3 r3] b3]|] eqn:Rc; [|discriminate].
    destruct (render_chunks GO zero conv RQ n t3 cs r3 b3) as [[[[t4 o4] r4] b4]|] eqn:C; [|discriminate]. injection H as <- <- <- <-.
    apply reports_trans with (2 := IH _ _ _ _ _ _ _ C). unfold render_quantum in Q. destruct (t_graph t) as [g|]; [|discriminate]. destruct (g_render GO g (t_frames t)) as [[g' q']|]; [|discriminate]. injection Q as <- <-.
    apply receive_reports in Rc. apply (same_reports t t2 _ _ _ Rc); unfold t2; destruct (length data =? RQ * n); reflexivity.
Qed.
Lemma next_reports : forall n buf (t t' : thread) rest bs out rest' bs', render_next GO zero conv RQ n t buf rest bs = Some (t', out, rest', bs') -> reports t (rest ++ concat bs) t' (rest' ++ concat bs').
Proof.
  intros n buf t t' rest bs out rest' bs' H. unfold render_next in H. destruct (receive GO t rest bs) as [[[t1 r1] b1]|] eqn:Rc; [|discriminate]. apply receive_reports in Rc. apply reports_trans with (1 := Rc).
  destruct (_ || _); [injection H as <- <- <- <-; apply reports_refl|]. exact (chunks_reports _ _ _ _ _ _ _ _ _ H).
Qed.
Lemma inner_reports : forall n buf (t t' : thread) rest bs out rest' bs', render_inner GO zero conv RQ n t buf rest bs = Some (t', out, rest', bs') -> reports t (rest ++ concat bs) t' (rest' ++ concat bs').
Proof.
  intros n buf t t' rest bs out rest' bs' H. unfold render_inner in H. destruct (t_offset t) as [[offset prev]|]; [|exact (next_reports _ _ _ _ _ _ _ _ _ H)]. cbv zeta in H.
  destruct (copy_channels _ _ _ _ _ _ _) as [first'|]; [|discriminate]. destruct (skipn _ buf) as [|x next].
  - injection H as <- <- <- <-. apply (same_reports t t); [|reflexivity..]. exists []. cbn. rewrite !app_nil_r. repeat split.
  - destruct (render_next GO zero conv RQ n (set_offset t None) (x :: next) rest bs) as [[[[t1 o1] r1] b1]|] eqn:N; [|discriminate]. injection H as <- <- <- <-.
    apply next_reports in N. apply (same_reports t _ _ _ _ N); reflexivity.
Qed.
Lemma callbacks_reports : forall n bufs (t t' : thread) rest bs outs rest' bs', callbacks GO zero conv RQ n t bufs rest bs = Some (t', outs, rest', bs') -> reports t (rest ++ concat bs) t' (rest' ++ concat bs').
Proof.
  intros n. induction bufs as [|buf bufs IH]; intros t t' rest bs outs rest' bs' H; cbn [callbacks] in H.
  - injection H as <- <- <- <-. apply reports_refl.
  - destruct (render_inner GO zero conv RQ n t buf rest bs) as [[[[t1 o1] r1] b1]|] eqn:I; [|discriminate]. destruct (callbacks GO zero conv RQ n t1 bufs r1 b1) as [[[[t2 o2] r2] b2]|] eqn:C; [|discriminate]. injection H as <- <- <- <-.
    apply reports_trans with (1 := inner_reports _ _ _ _ _ _ _ _ _ I). exact (IH _ _ _ _ _ _ _ C).
Qed.
End Report.
