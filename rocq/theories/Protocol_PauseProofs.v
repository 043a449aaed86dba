(** Pauses of the render thread. *)
From Coq Require Import List Arith Bool Lia.
From Verif Require Import Graph_Model Graph_TraceModel Protocol_Model Protocol_Spec.
Import ListNotations.

Section Pause.
Context {P Q CFG : Type}.
Variable E : env P Q CFG.
Notation sys := (sys P Q CFG).
Notation op := (op P CFG).

Definition same (s s' : sys) : Prop := s_idle s' = s_idle s /\ s_handled s' = s_handled s.
Lemma same_refl : forall s, same s s.
Proof. split; reflexivity. Qed.
Lemma same_trans : forall s s1 s2, same s s1 -> same s1 s2 -> same s s2.
Proof. intros s s1 s2 [A1 A2] [B1 B2]. split; congruence. Qed.
Lemma send_same : forall s m, same s (send s m).
Proof. intros s m. unfold send. destruct (s_closed s); [split; reflexivity|]. destruct (s_buf s); split; reflexivity. Qed.
Lemma send_all_same : forall ms s, same s (send_all s ms).
Proof. induction ms as [|m ms IH]; intros s; [apply same_refl|]. apply same_trans with (send s m); [apply send_same|apply IH]. Qed.
Lemma params_same : forall l s, same s (fold_left send_param l s).
Proof.
  induction l as [|x l IH]; intros s; [apply same_refl|]. cbn [fold_left]. apply same_trans with (2 := IH _). unfold send_param.
  destruct (s_handle s (fst x)); try apply send_same. eapply same_trans; [|apply send_same]. split; reflexivity.
Qed.

(** idle = the last of suspend, resume, close was not resume *)
Definition knows (s : sys) : Prop := s_idle s = paused (s_handled s).
Lemma paused_snoc : forall ms (m : msg P CFG), paused (ms ++ [m]) = match m with MSuspend | MClose => true | MResume => false | _ => paused ms end.
Proof. intros ms m. unfold paused. rewrite fold_left_app. reflexivity. Qed.
Lemma step_knows : forall (o : op) s s', step E o s = Some s' -> knows s -> knows s'.
Proof.
  intros o s s' H K. assert (Same : same s s' -> knows s') by (intros [E1 E2]; unfold knows; rewrite E1, E2; exact K).
  assert (W : forall s1, same s s1 -> forall m, s' = send s1 m -> knows s') by (intros s1 S1 m ->; apply Same; apply same_trans with s1; [exact S1|apply send_same]).
  destruct o; cbn [step] in H.
  - injection H as <-. apply Same. unfold alloc. destruct (s_reclaim s); split; reflexivity.
  - destruct (s_handle s id); injection H as <-; try (apply Same, same_refl). eapply W; [|reflexivity]. split; reflexivity.
  - destruct (s_handle s param), (s_handle s node); injection H as <-; apply Same; split; reflexivity.
  - destruct (is_alive s id); injection H as <-; apply Same; [|apply same_refl]. eapply same_trans; [|apply params_same]. split; reflexivity.
  - destruct (s_handle s src) as [| |i o f|], (s_handle s dst) as [| |i' o' f'|]; try (injection H as <-; apply Same, same_refl). destruct (_ && _); injection H as <-; [|apply Same, same_refl]. eapply W; [|reflexivity]. split; reflexivity.
  - destruct (is_alive s src); injection H as <-; apply Same; [|apply same_refl]. eapply same_trans; [|apply send_all_same]. split; reflexivity.
  - destruct (_ && _); injection H as <-; apply Same; [|apply same_refl]. apply same_trans with (send (with_handle s id Dropped) (MDrop id)); [|split; reflexivity]. eapply same_trans; [|apply send_same]. split; reflexivity.
  - destruct (is_alive s id); injection H as <-; apply Same; [apply send_same|apply same_refl].
  - destruct (is_alive s id); injection H as <-; apply Same; [apply send_same|apply same_refl].
  - destruct (is_alive s id); injection H as <-; apply Same; [apply send_same|apply same_refl].
  - destruct (s_closed s); injection H as <-; apply Same; split; reflexivity.
  - destruct (s_closed s); injection H as <-; apply Same; split; reflexivity.
  - destruct (s_closed s); injection H as <-; apply Same; [apply same_refl|apply send_same].
  - injection H as <-. apply Same. split; reflexivity.
  - destruct (s_handle s id); try (injection H as <-; apply Same, same_refl). destruct (magic id); injection H as <-; [apply Same, same_refl|]. eapply W; [|reflexivity]. split; reflexivity.
  - destruct (_ && _); injection H as <-; [|apply Same, same_refl]. eapply W; [|reflexivity]. split; reflexivity.
  - injection H as <-. apply Same. split; reflexivity.
  - destruct (s_chan s) as [|m ms]; [injection H as <-; apply Same, same_refl|]. unfold handle_msg in H. cbn [s_next s_reclaim s_handle s_conns s_queued s_buf s_closed s_chan s_graph s_idle s_issued s_handled s_trace] in H.
    destruct (to_gop m) as [g|] eqn:Tg.
    + destruct (gstep E g (s_graph s)) as [[g' l']|]; [|discriminate]. injection H as <-. unfold knows in *. cbn [s_idle s_handled]. rewrite paused_snoc. destruct m; cbn [to_gop] in Tg; (discriminate || exact K).
    + injection H as <-. unfold knows in *. cbn [s_idle s_handled]. rewrite paused_snoc. destruct m; cbn [to_gop] in Tg; (discriminate || reflexivity).
  - destruct (s_idle s || negb (is_active (s_graph s))); [injection H as <-; apply Same, same_refl|]. destruct (render E frame (s_graph s)) as [[[g' lgs] q]|]; [|discriminate]. injection H as <-. apply Same. split; reflexivity.
Qed.
Lemma run_knows : forall ops s s', run E ops s = Some s' -> knows s -> knows s'.
Proof. induction ops as [|o ops IH]; intros s s' H K; cbn [run] in H; [injection H as <-; exact K|]. destruct (step E o s) as [s1|] eqn:St; [|discriminate]. apply (IH _ _ H). exact (step_knows _ _ _ St K). Qed.

Lemma pause_render : forall dest cfg ops s, run E ops (sys0 dest cfg) = Some s -> forall frame,
  (paused (s_handled s) = true -> step E (RRender frame) s = Some s) /\
  (paused (s_handled s) = false -> is_active (s_graph s) = true -> forall s', step E (RRender frame) s = Some s' -> s_trace s' = s_trace s ++ [OpRender frame]).
Proof.
  intros dest cfg ops s H frame. assert (K : knows s) by (apply (run_knows _ _ _ H); reflexivity). unfold knows in K. cbn [step]. split.
  - intros Hp. rewrite K, Hp. reflexivity.
  - intros Hp Ha s' Hs. rewrite K, Hp, Ha in Hs. cbn [negb orb] in Hs. destruct (render E frame (s_graph s)) as [[[g' lgs] q]|]; [|discriminate]. injection Hs as <-. reflexivity.
Qed.
End Pause.

(** ** The connections of a disconnect call *)
Lemma port_eqb_spec : forall p q, port_eqb p q = true <-> p = q.
Proof.
  intros [p|] [q|]; cbn; try (split; congruence). rewrite Nat.eqb_eq. split; congruence.
Qed.
Lemma selects_spec : forall src out dst port a o b p, selects src out dst port (a, o, b, p) = true <-> disconnects src out dst port a o b p.
Proof.
  intros src out dst port a o b p. unfold selects, disconnects. rewrite !andb_true_iff, Nat.eqb_eq.
  assert (forall x : option nat, forall n, match x with Some y => Nat.eqb n y | None => true end = true <-> x = None \/ x = Some n) as G.
  { intros [y|] n; [rewrite Nat.eqb_eq; split; [intros ->; right; reflexivity | intros [H|H]; congruence] | split; auto]. }
  rewrite !G.
  assert (match port with Some x => port_eqb p x | None => true end = true <-> port = None \/ port = Some p) as K.
  { destruct port as [x|]; [rewrite port_eqb_spec; split; [intros ->; right; reflexivity | intros [H|H]; congruence] | split; auto]. }
  rewrite K. tauto.
Qed.
