From Coq Require Import List Arith Bool ZArith Lia.
From Verif Require Import Common_Model Arith_Model Source_Model Absn_Model Source_Spec Source_Proofs Sched_Model Sched_Spec Osc_Proofs.
Import ListNotations.

(** ** Sessions *)
Section Session.
Context {handle call quantum action : Type}.
Variable do_call : handle -> call -> res (handle * list action).
Variable render : quantum -> action.
Notation session := (session do_call render).
Definition handle_after h l : handle := fst (fst (session h l)).
Definition results h l : list bool := snd (fst (session h l)).
Definition messages h l : list action := snd (session h l).

Lemma session_parts : forall h l, session h l = (handle_after h l, results h l, messages h l).
Proof. intros h l. unfold handle_after, results, messages. destruct (session h l) as [[? ?] ?]. reflexivity. Qed.

Lemma session_app : forall l1 l2 h, session h (l1 ++ l2) =
  (handle_after (handle_after h l1) l2, results h l1 ++ results (handle_after h l1) l2, messages h l1 ++ messages (handle_after h l1) l2).
Proof.
  induction l1 as [|e l1 IH]; intros l2 h; [apply session_parts|]. unfold handle_after, results, messages in *. cbn [app Sched_Model.session].
  destruct e as [c|q].
  - destruct (do_call h c) as [[h1 m]| |]; rewrite IH; destruct (Sched_Model.session do_call render _ l1) as [[h' rs] ms]; cbn [fst snd]; rewrite <- ?app_assoc; reflexivity.
  - rewrite IH. destruct (Sched_Model.session do_call render h l1) as [[h' rs] ms]. reflexivity.
Qed.
Lemma after_app : forall l1 l2 h, handle_after h (l1 ++ l2) = handle_after (handle_after h l1) l2.
Proof. intros. unfold handle_after at 1. rewrite session_app. reflexivity. Qed.
Lemma results_app : forall l1 l2 h, results h (l1 ++ l2) = results h l1 ++ results (handle_after h l1) l2.
Proof. intros. unfold results at 1. rewrite session_app. reflexivity. Qed.
Lemma messages_app : forall l1 l2 h, messages h (l1 ++ l2) = messages h l1 ++ messages (handle_after h l1) l2.
Proof. intros. unfold messages at 1. rewrite session_app. reflexivity. Qed.

Definition returns (h : handle) (c : call) : bool := match do_call h c with Ok _ => true | _ => false end.
Lemma results_length : forall l h, length (results h l) = calls l.
Proof.
  induction l as [|e l IH]; intros h; [reflexivity|]. unfold results, calls in *. cbn [Sched_Model.session filter]. destruct e as [c|q].
  - destruct (do_call h c) as [[h1 m]| |]; [specialize (IH h1)|specialize (IH h)|specialize (IH h)]; destruct (Sched_Model.session do_call render _ l) as [[h' rs] ms]; cbn [fst snd length] in *; lia.
  - specialize (IH h). destruct (Sched_Model.session do_call render h l) as [[h' rs] ms]. exact IH.
Qed.
Lemma result_at : forall l1 c l2 h, nth_error (results h (l1 ++ Call c :: l2)) (calls l1) = Some (returns (handle_after h l1) c).
Proof.
  intros. rewrite results_app, nth_error_app2 by (rewrite results_length; lia). rewrite results_length, Nat.sub_diag. unfold results, returns. cbn [Sched_Model.session].
  destruct (do_call _ c) as [[h1 m]| |]; destruct (Sched_Model.session do_call render _ l2) as [[h' rs] ms]; reflexivity.
Qed.
(** a call that does not return has no effect *)
Lemma refused : forall l1 c l2 h, returns (handle_after h l1) c = false ->
  handle_after h (l1 ++ Call c :: l2) = handle_after h (l1 ++ l2) /\ messages h (l1 ++ Call c :: l2) = messages h (l1 ++ l2).
Proof.
  intros l1 c l2 h H. rewrite !after_app, !messages_app.
  assert (X : session (handle_after h l1) (Call c :: l2) = (handle_after (handle_after h l1) l2, false :: results (handle_after h l1) l2, messages (handle_after h l1) l2)).
  { unfold returns in H. cbn [Sched_Model.session]. rewrite (session_parts (handle_after h l1) l2). destruct (do_call (handle_after h l1) c) as [x| |]; [discriminate|reflexivity|reflexivity]. }
  split; [|f_equal]; [unfold handle_after at 1|unfold messages at 1]; rewrite X; reflexivity.
Qed.
End Session.

Section Calls.
Context {T V : Type}.
Variable A : arith T V.
Definition valid (t : T) : bool := t_finite A t && t_le A (t_zero A) t.
Lemma assert_valid : forall t, assert_valid_time A t = if valid t then Ok tt else Panic.
Proof. intros t. unfold assert_valid_time, valid. destruct (t_finite A t); [|reflexivity]. cbn. destruct (t_le A (t_zero A) t); reflexivity. Qed.

Definition some {X} (o : option X) : bool := match o with Some _ => true | None => false end.

(** ** Constant source *)
Notation cev := (event (@cs_call T) (list V)).
Notation begins := (begin_time valid).
Notation ends := (end_time valid).
Notation csess := (cs_do (V := V) A).
Notation after := (handle_after csess (@Quantum T V)).
Notation msgs := (messages csess (@Quantum T V)).

Lemma cs_do_spec : forall h c, cs_do (V := V) A h c =
  match begins c, ends c with
  | Some t, _ => if h then Panic else Ok (true, [Start t])
  | None, Some t => if h then Ok (h, [Stop t]) else Panic
  | None, None => Panic
  end.
Proof.
  intros h c. destruct c as [t|t|t|t]; unfold cs_do, cs_start_at, cs_stop_at; rewrite assert_valid; cbn [begin_time end_time]; destruct (valid t); destruct h; reflexivity.
Qed.
Lemma started_cons_none : forall (c : cs_call) l, begins c = None -> started begins (Call c :: l : list cev) = started begins l.
Proof. intros c l H. cbn. rewrite H. reflexivity. Qed.

Lemma cs_after_true : forall l, after true l = true.
Proof.
  induction l as [|e l IH]; [reflexivity|]. unfold handle_after in *. cbn [session]. destruct e as [c|q].
  - rewrite cs_do_spec. destruct (begins c) as [t|]; [|destruct (ends c) as [t|]]; destruct (session _ _ true l) as [[h' rs] ms]; exact IH.
  - destruct (session _ _ true l) as [[h' rs] ms]. exact IH.
Qed.
Lemma cs_after : forall l, after false l = some (started begins (l : list cev)).
Proof.
  induction l as [|e l IH]; [reflexivity|]. destruct e as [c|q].
  - change (Call c :: l) with ([Call c] ++ l). rewrite after_app. unfold handle_after at 2. cbn [session]. rewrite cs_do_spec. cbn [app started].
    destruct (begins c) as [t|]; cbn [fst]; [apply cs_after_true|]. destruct (ends c); exact IH.
  - cbn [started]. rewrite <- IH. unfold handle_after. cbn [session]. destruct (session _ _ false l) as [[h' rs] ms]. reflexivity.
Qed.
Lemma cs_returns : forall l c, returns csess (after false l) c = accepted begins ends cs_other (l : list cev) c.
Proof.
  intros l c. rewrite cs_after. unfold returns, accepted. rewrite cs_do_spec. destruct (begins c), (ends c), (started begins l); reflexivity.
Qed.

(** the times the renderer has after the messages *)
Fixpoint times (x : option T * option T) (l : list (@cs_action T V)) : option T * option T :=
  match l with
  | [] => x
  | Start t :: l' => times (Some t, snd x) l'
  | Stop t :: l' => times (fst x, Some t) l'
  | Quantum _ :: l' => times x l'
  end.
Lemma times_app : forall l1 l2 x, times x (l1 ++ l2) = times (times x l1) l2.
Proof. induction l1 as [|a l1 IH]; intros l2 x; [reflexivity|]. destruct a; apply IH. Qed.
Lemma expected_at : forall audible zero l1 o l2 st sp f,
  nth_error (expected audible zero st sp f (l1 ++ Quantum o :: l2)) (quanta l1) =
  Some (map (fun i => if audible (fst (times (st, sp) l1)) (snd (times (st, sp) l1)) (f + 128 * Z.of_nat (quanta l1) + Z.of_nat i)%Z then value_at zero o i else zero) (seq 0 128)).
Proof.
  intros audible zero l1 o l2. induction l1 as [|a l1 IH]; intros st sp f.
  - cbn [app expected quanta filter length nth_error times fst snd]. f_equal. apply map_ext. intros i. replace (f + 128 * Z.of_nat 0)%Z with f by lia. reflexivity.
  - destruct a as [t|t|o']; cbn [app expected times]; [apply IH|apply IH|].
    change (quanta (Quantum o' :: l1)) with (S (quanta l1)). cbn [nth_error]. rewrite IH. cbn [fst snd]. f_equal. apply map_ext. intros i.
    replace (f + 128 + 128 * Z.of_nat (quanta l1))%Z with (f + 128 * Z.of_nat (S (quanta l1)))%Z by lia. reflexivity.
Qed.
Lemma cs_quanta : forall l h, quanta (msgs h l) = renders l.
Proof.
  induction l as [|e l IH]; intros h; [reflexivity|]. unfold messages in *. cbn [session]. destruct e as [c|q].
  - rewrite cs_do_spec. change (renders (Call c :: l)) with (renders l).
    destruct (begins c) as [t|]; [|destruct (ends c) as [t|]]; [destruct h|destruct h|];
      match goal with |- context [session _ _ ?h l] => specialize (IH h); destruct (session csess (@Quantum T V) h l) as [[h' rs] ms] end; exact IH.
  - specialize (IH h). destruct (session _ _ h l) as [[h' rs] ms]. cbn [snd] in *. change (quanta (Quantum q :: ms)) with (S (quanta ms)). rewrite IH. reflexivity.
Qed.
Lemma times_running : forall l st sp, times (st, sp) (msgs true l) = (st, match latest_stop ends (l : list cev) with Some t => Some t | None => sp end).
Proof.
  induction l as [|e l IH]; intros st sp; [reflexivity|]. unfold messages in *. cbn [session latest_stop]. destruct e as [c|q].
  - rewrite cs_do_spec. assert (X : forall t, begins c = Some t -> ends c = None) by (intros t; destruct c; cbn; [reflexivity|reflexivity|discriminate|discriminate]).
    destruct (begins c) as [t|].
    + rewrite (X t eq_refl). specialize (IH st sp). destruct (session _ _ true l) as [[h' rs] ms]. cbn [snd] in *. rewrite IH. destruct (latest_stop ends l); reflexivity.
    + destruct (ends c) as [t|].
      * specialize (IH st (Some t)). destruct (session _ _ true l) as [[h' rs] ms]. cbn [snd app times fst] in *. rewrite IH. destruct (latest_stop ends l); reflexivity.
      * specialize (IH st sp). destruct (session _ _ true l) as [[h' rs] ms]. cbn [snd] in *. rewrite IH. destruct (latest_stop ends l); reflexivity.
  - specialize (IH st sp). destruct (session _ _ true l) as [[h' rs] ms]. cbn [snd times] in *. exact IH.
Qed.
Lemma times_session : forall l, times (None, None) (msgs false l) = (started begins (l : list cev), stopped begins ends l).
Proof.
  induction l as [|e l IH]; [reflexivity|]. destruct e as [c|q].
  - cbn [started stopped]. pose proof (cs_do_spec false c) as D. destruct (begins c) as [t|].
    + pose proof (times_running l (Some t) None) as X. unfold messages in *. cbn [session]. rewrite D. destruct (session _ _ true l) as [[h' rs] ms]. cbn [snd app times] in *. rewrite X. destruct (latest_stop ends l); reflexivity.
    + unfold messages in *. cbn [session]. rewrite D. destruct (ends c); destruct (session _ _ false l) as [[h' rs] ms]; exact IH.
  - unfold messages in *. cbn [session started stopped]. destruct (session _ _ false l) as [[h' rs] ms]. exact IH.
Qed.
Lemma cs_msgs_ok : forall (ok : T -> Prop) l h, (forall t, valid t = true -> ok t) -> Forall (fun e => match e with Render o => values_ok o | _ => True end) (l : list cev) -> Forall (action_ok ok) (msgs h l).
Proof.
  intros ok l h K. revert h. induction l as [|e l IH]; intros h F; [constructor|]. pose proof (Forall_inv F) as F1. apply Forall_inv_tail in F. unfold messages in *. cbn [session]. destruct e as [c|q].
  - rewrite cs_do_spec. assert (B : forall t, begins c = Some t -> ok t) by (intros t; destruct c as [x|x|x|x]; cbn; try discriminate; destruct (valid x) eqn:E; try discriminate; intros [= <-]; auto).
    assert (E : forall t, ends c = Some t -> ok t) by (intros t; destruct c as [x|x|x|x]; cbn; try discriminate; destruct (valid x) eqn:E; try discriminate; intros [= <-]; auto).
    destruct (begins c) as [t|]; [|destruct (ends c) as [t|]]; [destruct h|destruct h|];
      match goal with |- context [session _ _ ?h l] => specialize (IH h F); destruct (session csess (@Quantum T V) h l) as [[h' rs] ms] end; cbn [snd app]; try exact IH; constructor; try exact IH; cbn; auto.
  - specialize (IH h F). destruct (session _ _ h l) as [[h' rs] ms]. cbn [snd] in *. constructor; assumption.
Qed.

(** the output of quantum number [renders l1] *)
Lemma cs_sound : forall audible zero l1 o l2,
  nth_error (expected audible zero None None 0 (msgs false (l1 ++ Render o :: l2))) (renders l1) =
  Some (map (fun i => if audible (started begins (l1 : list cev)) (stopped begins ends l1) (128 * Z.of_nat (renders l1) + Z.of_nat i)%Z then value_at zero o i else zero) (seq 0 128)).
Proof.
  intros audible zero l1 o l2. rewrite messages_app. unfold messages at 2. cbn [session].
  destruct (session _ _ (after false l1) l2) as [[h' rs] ms]. cbn [snd]. pose proof (expected_at audible zero (msgs false l1) o ms None None 0%Z) as X.
  rewrite times_session, cs_quanta in X. cbn [fst snd] in X. exact X.
Qed.
End Calls.
