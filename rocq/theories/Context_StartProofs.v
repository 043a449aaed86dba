From Coq Require Import List Arith Bool.
From Verif Require Import Context_Model.
Import ListNotations.

Section Start.
Context {M : Type}.
Variable active : list M -> bool.
Variable RQ : nat.
Notation world := (world M).

(** [startup_pending] is reset only when the context starts running; events are not withdrawn *)
Definition later (w w' : world) : Prop := (w_pending w' = w_pending w \/ In Running (w_events w')) /\ incl (w_events w) (w_events w').
Lemma later_same (w w' : world) : w_pending w' = w_pending w -> w_events w' = w_events w -> later w w'.
Proof. intros H1 H2. split; [left; exact H1|rewrite H2; apply incl_refl]. Qed.
Lemma later_state (w w' : world) s : w_pending w' = w_pending w -> w_events w' = w_events w ++ [s] -> later w w'.
Proof. intros H1 H2. split; [left; exact H1|rewrite H2; apply incl_appl, incl_refl]. Qed.
Ltac same := first [apply later_same; reflexivity|eapply later_state; reflexivity].

Lemma send_later (w w' : world) m : send_msg w m = Some w' -> w_pending w' = w_pending w /\ w_events w' = w_events w.
Proof. unfold send_msg. destruct (w_state w); try (intros C; injection C as <-; split; reflexivity); (destruct (free (w_wlock w)); [|discriminate]; destruct (w_buf w); intros C; injection C as <-; split; reflexivity). Qed.
Lemma asked_later (w : world) t r k w' : asked w t r k = Some w' -> (forall w1, w_pending (k w1) = w_pending w1 /\ w_events (k w1) = w_events w1) -> later w w'.
Proof.
  unfold asked, ask. intros C K. injection C as <-. destruct (nth_error (w_streams w) (current w)) as [s|]; [|same]. destruct (s_alive s && _); [|same].
  destruct (K (put w (current w) (st_ask s r))) as (K1 & K2). apply later_same; [rewrite K1|rewrite K2]; reflexivity.
Qed.
Lemma call_later (w w' : world) t o : call w t o = Some w' -> later w w'.
Proof.
  unfold call. destruct (w_pcs w t); try discriminate. destruct o as [[]|[]|[]| |m]; try (destruct (free (w_lock w)); [|discriminate]); try (intros C; injection C as <-; same).
  destruct (w_state w); try (intros C; injection C as <-; same); (destruct (send_msg w (Apply m)) as [w1|] eqn:Es; [|discriminate]; destruct (send_later _ _ _ Es) as [S1 S2]; intros C; injection C as <-; apply later_same; cbn; assumption).
Qed.
Lemma thread_later (w w' : world) t : thread_step w t = Some w' -> later w w'.
Proof.
  unfold thread_step. destruct (w_pcs w t) as [|sync|sync st|sync|sync|sync|sync|sync|sync|sync|sync|sync|sync|sync|sync|sync| |st|st p|st p|st p|st p|st g p|st g p|st g p|st g p|[|m p]| ]; try discriminate; intros C.
  all: try (apply (asked_later w t _ _ w' C); intros w1; try destruct sync; split; reflexivity).
  all: try (destruct (may_lock w sync); [|discriminate]; apply (asked_later w t _ _ w' C); intros w1; destruct sync; split; reflexivity).
  all: try (injection C as <-; same).
  all: try (destruct (is_state (w_state w) _); injection C as <-; try destruct sync; same).
  all: try (destruct (w_state w); injection C as <-; try destruct sync; same).
  all: try (destruct (_ && _); injection C as <-; try destruct sync; same).
  all: try (destruct (free (w_wlock w)); [|discriminate]; injection C as <-; try destruct sync; same).
  all: try (destruct (remove_one t (w_done w)); [|discriminate]; injection C as <-; try destruct sync; same).
  all: try (destruct (take_given t (w_given w)) as [[g l]|]; [|discriminate]; injection C as <-; same).
  - destruct (send_msg w (Close t)) as [w1|] eqn:Es.
    + destruct (send_later _ _ _ Es) as [S1 S2]. destruct (w_state w); injection C as <-; first [same|apply later_same; [exact S1|exact S2]].
    + destruct (w_state w); try discriminate. injection C as <-. same.
  - destruct (w_chan w) as [|m c]; [|injection C as <-; same]. destruct p as [|[| | | | |] p]; injection C as <-; same.
  - destruct (send_msg w m) as [w1|] eqn:Es; [|discriminate]. destruct (send_later _ _ _ Es) as [S1 S2]. injection C as <-. apply later_same; [exact S1|exact S2].
Qed.
Lemma handle_later (w : world) i s m : later w (handle w i s m).
Proof.
  destruct m; cbn [handle]; try destruct (s_graph s); try same.
  all: split; [right; cbn; apply in_or_app; right; left; reflexivity|cbn; apply incl_appl, incl_refl].
Qed.
Lemma step_later (w w' : world) l : step active RQ w l = Some w' -> later w w'.
Proof.
  destruct l as [t o|t|i k|i|i]; cbn [step]; [apply call_later|apply thread_later| | |]; (destruct (nth_error (w_streams w) i) as [s|]; [|discriminate]).
  - unfold stream_start. destruct (s_pc s); try discriminate. destruct (_ && _); [|discriminate]. intros C. injection C as <-. same.
  - destruct (s_alive s); [|discriminate]. unfold render_step. destruct (s_pc s) as [|k|[|k]|k|]; try discriminate.
    + destruct (if s_listening s then w_chan w else []) as [|m c]; intros C; injection C as <-; [same|]. apply (handle_later (with_chan w c) i s m).
    + intros C. injection C as <-. same.
    + destruct (s_graph s); intros C; injection C as <-; same.
    + destruct (if s_listening s then w_chan w else []) as [|m c]; intros C; injection C as <-; [same|]. apply (handle_later (with_chan w c) i s m).
  - unfold stream_request. destruct (s_pc s); try discriminate. destruct (s_queue s); [discriminate|]. destruct (s_alive s); [|discriminate]. intros C. injection C as <-. same.
Qed.
Lemma exec_later ls : forall w w', exec active RQ w ls = Some w' -> later w w'.
Proof.
  induction ls as [|l ls IH]; intros w w' H; cbn [exec] in H; [injection H as <-; same|]. destruct (step active RQ w l) as [w1|] eqn:Es; [|discriminate].
  destruct (step_later _ _ _ Es) as [P1 I1]. destruct (IH _ _ H) as [P2 I2]. split; [|exact (incl_tran I1 I2)].
  destruct P2 as [P2|P2]; [|right; exact P2]. destruct P1 as [P1|P1]; [left; congruence|right; apply I2, P1].
Qed.

Theorem suspend_before_start ls w t sync st w' : exec active RQ new_context ls = Some w -> ~ In Running (w_events w) ->
  w_pcs w t = SuspChk2 sync st -> step active RQ w (LStep t) = Some w' -> w_pcs w' t = SuspSend sync.
Proof.
  intros HE HN HP HS. destruct (exec_later _ _ _ HE) as [[P|P] _]; [|contradiction]. cbn [step] in HS. unfold thread_step in HS. rewrite HP, P in HS. cbn [new_context w_pending negb andb] in HS. rewrite andb_false_r in HS.
  injection HS as <-. cbn. rewrite Nat.eqb_refl. reflexivity.
Qed.
End Start.
