(** A node in use: the attributes of the handle are those of the renderer once the messages are delivered. *)
From Coq Require Import List Arith Bool ZArith Lia.
From Verif Require Import Common_Model Arith_Model Quantum_Model Sched_Model Attr_Model Attr_Spec.
Import ListNotations.

Section Use.
Context {handle call msg rend quantum out : Type}.
Variable do_call : handle -> call -> res (handle * list msg).
Variable on_msg : rend -> msg -> res rend.
Variable process : rend -> quantum -> res (rend * out).
Notation use_step := (use_step do_call on_msg process).
Notation use := (use do_call on_msg process).
Notation deliver := (deliver on_msg).

Definition returns (h : handle) (c : call) : bool := match do_call h c with Ok _ => true | _ => false end.
Definition handle_step (h : handle) (e : event call quantum) : handle :=
  match e with Call c => match do_call h c with Ok (h', _) => h' | _ => h end | Render _ => h end.
Definition handle_after (h : handle) (l : list (event call quantum)) : handle := fold_left handle_step l h.

Lemma deliver_app r ms ms' : deliver r (ms ++ ms') = do r <- deliver r ms; deliver r ms'.
Proof. revert r. induction ms as [|m ms IH]; intros r; [reflexivity|]. cbn [app Attr_Model.deliver]. destruct (on_msg r m); cbn [bind]; auto. Qed.

Lemma use_app w l l' : use w (l ++ l') = do (w, ss) <- use w l; do (w, ss') <- use w l'; Ok (w, ss ++ ss').
Proof.
  revert w. induction l as [|e l IH]; intros w; cbn [app Attr_Model.use].
  - cbn [bind]. destruct (use w l') as [[]| |]; reflexivity.
  - destruct (use_step w e) as [[w1 s]| |]; cbn [bind]; try reflexivity. rewrite IH. destruct (use w1 l) as [[w2 ss]| |]; cbn [bind]; try reflexivity. destruct (use w2 l') as [[w3 ss']| |]; reflexivity.
Qed.
Lemma use_length w l w' ss : use w l = Ok (w', ss) -> length ss = length l.
Proof.
  revert w ss. induction l as [|e l IH]; intros w ss; cbn [Attr_Model.use]; [intros [= <- <-]; reflexivity|]. destruct (use_step w e) as [[w1 s]| |]; cbn [bind]; try discriminate.
  destruct (use w1 l) as [[w2 ss']| |] eqn:E; cbn [bind]; try discriminate. intros [= <- <-]. cbn. f_equal. eapply IH. exact E.
Qed.
Lemma step_handle w e w' s : use_step w e = Ok (w', s) -> u_handle w' = handle_step (u_handle w) e.
Proof.
  destruct e as [c|q]; cbn [Attr_Model.use_step handle_step].
  - destruct (do_call (u_handle w) c) as [[h ms]| |]; intros [= <- <-]; reflexivity.
  - destruct (deliver _ _) as [r| |]; cbn [bind]; try discriminate. destruct (process r q) as [[r' o]| |]; cbn [bind]; try discriminate. intros [= <- <-]. reflexivity.
Qed.
Lemma use_handle w l w' ss : use w l = Ok (w', ss) -> u_handle w' = handle_after (u_handle w) l.
Proof.
  revert w ss. induction l as [|e l IH]; intros w ss; cbn [Attr_Model.use]; [intros [= <- <-]; reflexivity|]. destruct (use_step w e) as [[w1 s]| |] eqn:E1; cbn [bind]; try discriminate.
  destruct (use w1 l) as [[w2 ss']| |] eqn:E; cbn [bind]; try discriminate. intros [= <- <-]. cbn [handle_after fold_left]. rewrite <- (step_handle _ _ _ _ E1). eapply IH. exact E.
Qed.
Lemma nth_step {X} (l : list X) i e : nth_error l i = Some e -> l = firstn i l ++ e :: skipn (S i) l.
Proof. revert i. induction l as [|x l IH]; intros [|i]; cbn; try discriminate; [intros [= <-]; reflexivity|]. intros E. f_equal. exact (IH i E). Qed.

(** what a call returns *)
Lemma use_calls w l w' ss i c : use w l = Ok (w', ss) -> nth_error l i = Some (Call c) -> nth_error ss i = Some (Returned (returns (handle_after (u_handle w) (firstn i l)) c)).
Proof.
  intros E N. pose proof (nth_step l i _ N) as S. assert (Li : i < length l) by (apply nth_error_Some; congruence). rewrite S, use_app in E.
  destruct (use w (firstn i l)) as [[w1 ss1]| |] eqn:E1; try discriminate. cbn [bind] in E. cbn [Attr_Model.use] in E.
  destruct (use_step w1 (Call c)) as [[w2 s]| |] eqn:E2; try discriminate. cbn [bind] in E. destruct (use w2 _) as [[w3 ss3]| |] eqn:E3; try discriminate. cbn [bind] in E. injection E as <- <-.
  pose proof (use_length _ _ _ _ E1) as L1. rewrite firstn_length_le in L1 by lia. rewrite nth_error_app2 by lia. rewrite L1, Nat.sub_diag. cbn [nth_error]. f_equal.
  rewrite <- (use_handle _ _ _ _ E1). unfold returns. cbn [Attr_Model.use_step] in E2. destruct (do_call _ c) as [[h ms]| |]; injection E2 as _ <-; reflexivity.
Qed.

(** the renderer agrees with the handle once its messages are delivered *)
Variable agrees : handle -> rend -> Prop.
Variable fine : event call quantum -> Prop.
Hypothesis call_agrees : forall h c h' ms r, fine (Call c) -> do_call h c = Ok (h', ms) -> agrees h r -> exists r', deliver r ms = Ok r' /\ agrees h' r'.
Hypothesis process_agrees : forall h q r r' o, fine (Render q) -> process r q = Ok (r', o) -> agrees h r -> agrees h r'.
Definition settled (w : node_in_use (handle := handle) (msg := msg) (rend := rend)) : Prop := exists r, deliver (u_rend w) (u_queue w) = Ok r /\ agrees (u_handle w) r.

Lemma step_settled w e w' s : fine e -> use_step w e = Ok (w', s) -> settled w -> settled w'.
Proof.
  intros F E (r & Er & Ag). destruct e as [c|q]; cbn [Attr_Model.use_step] in E.
  - destruct (do_call (u_handle w) c) as [[h ms]| |] eqn:Ec; injection E as <- <-; [|exists r; auto|exists r; auto].
    destruct (call_agrees _ _ _ _ r F Ec Ag) as (r' & Er' & Ag'). exists r'. cbn [u_rend u_queue u_handle]. rewrite deliver_app, Er. auto.
  - rewrite Er in E. cbn [bind] in E. destruct (process r q) as [[r' o]| |] eqn:Ep; try discriminate. injection E as <- <-. exists r'. split; [reflexivity|]. eapply process_agrees; eauto.
Qed.
Lemma use_settled w l w' ss : Forall fine l -> use w l = Ok (w', ss) -> settled w -> settled w'.
Proof.
  intros F. revert w ss. induction F as [|e l Fe F IH]; intros w ss E; cbn [Attr_Model.use] in E; [injection E as <- <-; auto|]. destruct (use_step w e) as [[w1 s]| |] eqn:E1; try discriminate. cbn [bind] in E.
  destruct (use w1 l) as [[w2 ss']| |] eqn:E2; try discriminate. injection E as <- <-. intros W. eapply IH; [exact E2|]. eapply step_settled; eauto.
Qed.
(** what is heard *)
Lemma use_sounds w l w' ss i q : Forall fine l -> settled w -> use w l = Ok (w', ss) -> nth_error l i = Some (Render q) ->
  exists r r' o, agrees (handle_after (u_handle w) (firstn i l)) r /\ process r q = Ok (r', o) /\ nth_error ss i = Some (Heard o).
Proof.
  intros F W E N. pose proof (nth_step l i _ N) as S. assert (Li : i < length l) by (apply nth_error_Some; congruence). rewrite S, use_app in E.
  destruct (use w (firstn i l)) as [[w1 ss1]| |] eqn:E1; try discriminate. cbn [bind] in E. cbn [Attr_Model.use] in E.
  destruct (use_step w1 (Render q)) as [[w2 s]| |] eqn:E2; try discriminate. cbn [bind] in E. destruct (use w2 _) as [[w3 ss3]| |] eqn:E3; try discriminate. cbn [bind] in E. injection E as <- <-.
  pose proof (use_length _ _ _ _ E1) as L1. rewrite firstn_length_le in L1 by lia. rewrite nth_error_app2 by lia. rewrite L1, Nat.sub_diag. cbn [nth_error].
  rewrite <- (use_handle _ _ _ _ E1). assert (F1 : Forall fine (firstn i l)). { rewrite S in F. apply Forall_app in F. apply F. }
  destruct (use_settled _ _ _ _ F1 E1 W) as (r & Er & Ag). cbn [Attr_Model.use_step] in E2. rewrite Er in E2. cbn [bind] in E2. destruct (process r q) as [[r' o]| |] eqn:Ep; try discriminate. injection E2 as _ <-. exists r, r', o. auto.
Qed.
(** nothing panics *)
Hypothesis process_ok : forall h q r, fine (Render q) -> agrees h r -> exists r' o, process r q = Ok (r', o).
Lemma use_ok w l : Forall fine l -> settled w -> exists w' ss, use w l = Ok (w', ss).
Proof.
  intros F. revert w. induction F as [|e l Fe F IH]; intros w W; cbn [Attr_Model.use]; [eauto|].
  assert (exists w1 s, use_step w e = Ok (w1, s)) as (w1 & s & E1).
  { destruct e as [c|q]; cbn [Attr_Model.use_step]; [destruct (do_call _ c) as [[]| |]; eauto|]. destruct W as (r & Er & Ag). rewrite Er. cbn [bind]. destruct (process_ok _ _ _ Fe Ag) as (r' & o & Ep). rewrite Ep. cbn [bind]. eauto. }
  rewrite E1. cbn [bind]. destruct (IH w1 (step_settled _ _ _ _ Fe E1 W)) as (w2 & ss & E2). rewrite E2. cbn [bind]. eauto.
Qed.
End Use.

(** ** Histories *)
Section Histories.
Context {call quantum X : Type}.
Lemma latest_app (pick : call -> option X) x (l l' : list (event call quantum)) : latest pick x (l ++ l') = latest pick (latest pick x l) l'.
Proof. revert x. induction l as [|[c|q] l IH]; intros x; cbn; auto. Qed.
End Histories.
