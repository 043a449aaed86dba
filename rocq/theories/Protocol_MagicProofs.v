From Coq Require Import List Arith Bool Lia.
From Verif Require Import Graph_Model Graph_TraceModel Protocol_Model.
Import ListNotations.

Section Magic.
Context {P Q CFG : Type}.
Variable E : env P Q CFG.
Notation sys := (sys P Q CFG).
Notation msg := (msg P CFG).

Definition spares (m : msg) : Prop := match m with MDrop id => 10 < id | _ => True end.
Definition good (s : sys) : Prop := Forall spares (s_issued s).

Lemma send_issued (s : sys) m : s_issued (send s m) = s_issued s ++ [m].
Proof. unfold send. destruct (s_closed s); [reflexivity|]. destruct (s_buf s); reflexivity. Qed.
Lemma good_send s m : good s -> spares m -> good (send s m).
Proof. intros H Hm. unfold good. rewrite send_issued. apply Forall_app. split; [exact H|repeat constructor; exact Hm]. Qed.
Lemma good_all ms : forall s, good s -> Forall spares ms -> good (send_all s ms).
Proof. induction ms as [|m ms IH]; intros s H HF; [exact H|]. inversion HF; subst. cbn. apply IH; [apply good_send; assumption|assumption]. Qed.
Lemma good_params l : forall s, good s -> good (fold_left send_param l s).
Proof. induction l as [|pq l IH]; intros s H; [exact H|]. cbn [fold_left]. apply IH. unfold send_param. destruct (s_handle s (fst pq)); apply good_send; try exact I; exact H. Qed.
Lemma magic_large id : magic id = false -> 10 < id.
Proof. unfold magic. intros H. apply Nat.leb_gt in H. exact H. Qed.

Lemma step_good o (s s' : sys) : good s -> step E o s = Some s' -> good s'.
Proof.
  intros H HS. destruct o; cbn [step] in HS.
  - injection HS as <-. unfold alloc. destruct (s_reclaim s); exact H.
  - destruct (s_handle s id); injection HS as <-; try exact H. apply good_send; [exact H|exact I].
  - destruct (s_handle s param), (s_handle s node); injection HS as <-; exact H.
  - destruct (is_alive s id); injection HS as <-; [|exact H]. apply good_params. exact H.
  - destruct (s_handle s src); try (injection HS as <-; exact H). destruct (s_handle s dst); try (injection HS as <-; exact H). destruct (_ && _); injection HS as <-; [|exact H]. apply good_send; [exact H|exact I].
  - destruct (is_alive s src); injection HS as <-; [|exact H]. apply good_all; [exact H|]. apply Forall_forall. intros m Hm. apply in_map_iff in Hm. destruct Hm as ([[[? ?] ?] ?] & <- & _). exact I.
  - destruct (magic id) eqn:Em; [rewrite andb_false_r in HS; injection HS as <-; exact H|]. rewrite andb_true_r in HS. destruct (is_alive s id); injection HS as <-; [|exact H].
    apply (good_send (with_handle s id Dropped) (MDrop id)); [exact H|apply magic_large; exact Em].
  - destruct (is_alive s id); injection HS as <-; [apply good_send; [exact H|exact I]|exact H].
  - destruct (is_alive s id); injection HS as <-; [apply good_send; [exact H|exact I]|exact H].
  - destruct (is_alive s id); injection HS as <-; [apply good_send; [exact H|exact I]|exact H].
  - destruct (s_closed s); injection HS as <-; [exact H|]. apply Forall_app. split; [exact H|repeat constructor].
  - destruct (s_closed s); injection HS as <-; [exact H|]. apply Forall_app. split; [exact H|repeat constructor].
  - destruct (s_closed s); injection HS as <-; [exact H|]. apply good_send; [exact H|exact I].
  - injection HS as <-. exact H.
  - destruct (s_handle s id); try (injection HS as <-; exact H). destruct (magic id) eqn:Em; injection HS as <-; [exact H|]. apply good_send; [exact H|apply magic_large; exact Em].
  - destruct (magic id) eqn:Em; [rewrite andb_false_r in HS; injection HS as <-; exact H|]. rewrite andb_true_r in HS. destruct (is_alive s id); injection HS as <-; [|exact H].
    apply good_send; [exact H|apply magic_large; exact Em].
  - injection HS as <-. exact H.
  - destruct (s_chan s) as [|m ms]; [injection HS as <-; exact H|]. unfold handle_msg in HS. destruct (to_gop m); [destruct (gstep E g _) as [[g' l]|]; [|discriminate]|]; injection HS as <-; exact H.
  - destruct (_ || _); [injection HS as <-; exact H|]. destruct (render E frame (s_graph s)) as [[[g' lgs] o]|]; [|discriminate]. injection HS as <-. exact H.
Qed.
Lemma run_good ops : forall (s s' : sys), good s -> run E ops s = Some s' -> good s'.
Proof.
  induction ops as [|o ops IH]; intros s s' H HR; cbn [run] in HR; [injection HR as <-; exact H|]. destruct (step E o s) as [s1|] eqn:Es; [|discriminate]. exact (IH s1 s' (step_good o s s1 H Es) HR).
Qed.
Theorem never_dropped_ids dest cfg ops (s : sys) id : run E ops (sys0 dest cfg) = Some s -> In (MDrop id) (s_issued s) -> 10 < id.
Proof.
  intros HR HI. assert (G : good s) by (apply (run_good ops (sys0 dest cfg) s); [repeat constructor|exact HR]). unfold good in G. rewrite Forall_forall in G. exact (G _ HI).
Qed.
End Magic.
