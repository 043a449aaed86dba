(** The thread that owns a stream: proofs. *)
From Coq Require Import List Arith Bool Lia.
From Verif Require Import Owner_Model Owner_Spec.
Import ListNotations.

Section Owner.
Context {D L R E : Type}.
Variable d_start : D -> D * option E.
Variable d_stop : D -> D * option E.
Variable d_latency : D -> R -> L + E.
Variable d0 : D.
Notation step := (@step D L R E d_start d_stop d_latency).
Notation run := (@run D L R E d_start d_stop d_latency).
Notation answers := (@answers D L R E d_start d_stop d_latency).
Notation world := (@world D L R E).
Notation label := (@label R).
Notation command := (@command R).
Notation call := (@call L E).

(** ** The sequential stream *)
Fixpoint after (d : D) (cs : list command) : D :=
  match cs with
  | [] => d
  | Resume :: cs' => after (fst (d_start d)) cs'
  | Suspend :: cs' => after (fst (d_stop d)) cs'
  | Latency _ :: cs' | Close :: cs' => after d cs'
  end.
Lemma answers_app : forall pre post d, ~ In Close pre -> answers d (pre ++ post) = answers d pre ++ answers (after d pre) post.
Proof.
  induction pre as [|c pre IH]; intros post d N; [reflexivity|]. assert (N' : ~ In Close pre) by (intros X; apply N; right; exact X).
  destruct c; cbn [app Owner_Spec.answers after]; try (f_equal; apply IH; exact N'). destruct N. left. reflexivity.
Qed.
Lemma acts_app : forall pre post : list command, ~ In Close pre -> acts (pre ++ post) = acts pre ++ acts post.
Proof.
  induction pre as [|c pre IH]; intros post N; [reflexivity|]. assert (N' : ~ In Close pre) by (intros X; apply N; right; exact X).
  destruct c; cbn [app acts]; try (f_equal; apply IH; exact N'). destruct N. left. reflexivity.
Qed.
Lemma after_app : forall pre post d, after d (pre ++ post) = after (after d pre) post.
Proof. induction pre as [|c pre IH]; intros post d; [reflexivity|]. destruct c; cbn [app after]; apply IH. Qed.
Lemma answers_length : forall cs d, length (answers d cs) = length cs.
Proof. induction cs as [|c cs IH]; intros d; [reflexivity|]. destruct c; cbn [Owner_Spec.answers length]; rewrite ?IH, ?map_length; reflexivity. Qed.
(** everything after a [Close] *)
Lemma answers_closed : forall p x d, ~ In Close p -> answers d (p ++ Close :: x) = answers d (p ++ [Close]) ++ map (fun _ => Stopped) x.
Proof. intros p x d N. rewrite !answers_app by exact N. cbn [Owner_Spec.answers map]. rewrite <- app_assoc. reflexivity. Qed.
Lemma acts_closed : forall p x : list command, ~ In Close p -> acts (p ++ Close :: x) = acts p ++ [Halted; Dropped].
Proof. intros p x N. rewrite acts_app by exact N. reflexivity. Qed.

(** ** Lists *)
Lemma set_call_app : forall (a b : list call) x y, set_call (length a) x (a ++ y :: b) = a ++ x :: b.
Proof. induction a as [|z a IH]; intros b x y; [reflexivity|]. cbn [length app set_call]. f_equal. apply IH. Qed.
Lemma returned_waiting : forall (a : list (@answer L E)) k i, nth_error (map Returned a ++ repeat Waiting k) i = Some Waiting -> length a <= i.
Proof.
  intros a k i H. destruct (Nat.le_gt_cases (length a) i) as [|X]; [assumption|]. rewrite nth_error_app1 in H by (rewrite map_length; exact X).
  rewrite nth_error_map in H. destruct (nth_error a i); discriminate.
Qed.
Lemma no_waiting : forall a : list (@answer L E), existsb waiting (map Returned a) = false.
Proof. induction a; [reflexivity|exact IHa]. Qed.
Definition queue_of (j : nat) (post : list command) : list (nat * command) := combine (seq j (length post)) post.
Lemma queue_snoc : forall post j c, queue_of j (post ++ [c]) = queue_of j post ++ [(j + length post, c)].
Proof.
  induction post as [|x post IH]; intros j c; [unfold queue_of; cbn; rewrite Nat.add_0_r; reflexivity|].
  unfold queue_of in *. cbn [app length seq combine]. rewrite (IH (S j) c). cbn [app]. do 2 f_equal. f_equal. f_equal. lia.
Qed.
Lemma end_calls : forall post (done : list call),
  fold_left (fun cs (m : nat * command) => set_call (fst m) (Returned Stopped) cs) (queue_of (length done) post) (done ++ repeat Waiting (length post)) = done ++ map (fun _ => Returned Stopped) post.
Proof.
  induction post as [|c post IH]; intros done; [reflexivity|]. unfold queue_of. cbn [length seq combine fold_left fst repeat map]. rewrite set_call_app.
  specialize (IH (done ++ [Returned Stopped])). rewrite app_length in IH. cbn [length] in IH. rewrite Nat.add_1_r in IH. rewrite <- !app_assoc in IH. exact IH.
Qed.

(** ** The invariant *)
Definition Inv (cs : list command) (w : world) : Prop :=
  match w_owner w with
  | Open d => exists pre post, cs = pre ++ post /\ ~ In Close pre /\ d = after d0 pre /\ w_queue w = queue_of (length pre) post /\
      w_calls w = map Returned (answers d0 pre) ++ repeat Waiting (length post) /\ w_acts w = acts pre
  | Closing =>
      (exists p post, cs = p ++ Close :: post /\ ~ In Close p /\ w_queue w = queue_of (S (length p)) post /\
         w_calls w = map Returned (answers d0 (p ++ [Close])) ++ repeat Waiting (length post) /\ w_acts w = acts p ++ [Halted; Dropped]) \/
      (~ In Close cs /\ w_handles w = 0 /\ w_queue w = [] /\ w_calls w = map Returned (answers d0 cs) /\ w_acts w = acts cs ++ [Dropped])
  | Gone =>
      w_queue w = [] /\ w_calls w = map Returned (answers d0 cs) /\
      ((exists p post, cs = p ++ Close :: post /\ ~ In Close p /\ w_acts w = acts p ++ [Halted; Dropped]) \/
       (~ In Close cs /\ w_handles w = 0 /\ w_acts w = acts cs ++ [Dropped]))
  end.

Lemma inv_new : Inv [] (spawned d0).
Proof. exists [], []. repeat split. auto. Qed.

Lemma repeat_snoc : forall A (x : A) k, repeat x k ++ [x] = repeat x (S k).
Proof. intros A x k. rewrite <- repeat_cons. reflexivity. Qed.

Lemma inv_step : forall cs w l w', Inv cs w -> step w l = Some w' -> Inv (cs ++ match l with Call c => [c] | _ => [] end) w'.
Proof.
  intros cs w l w' I H. destruct l as [c| | | | |]; cbn [Owner_Model.step] in H.
  - destruct (w_handles w) as [|h] eqn:Hh; [discriminate|]. unfold Inv in I. destruct (w_owner w) as [d| |] eqn:O.
    + injection H as <-. destruct I as (pre & post & Ec & N & Ed & Q & C & A). unfold Inv. cbn [w_owner w_queue w_calls w_handles w_acts]. exists pre, (post ++ [c]).
      rewrite Ec, <- app_assoc. split; [reflexivity|]. split; [exact N|]. split; [exact Ed|]. split.
      * rewrite queue_snoc, Q. do 3 f_equal. rewrite C, app_length, map_length, repeat_length, answers_length. reflexivity.
      * split; [|exact A]. rewrite C, app_length, <- app_assoc, repeat_snoc. cbn [length]. rewrite Nat.add_1_r. reflexivity.
    + injection H as <-. destruct I as [(p & post & Ec & N & Q & C & A)|(_ & X & _)]; [|congruence]. unfold Inv. cbn [w_owner w_queue w_calls w_handles w_acts]. left.
      exists p, (post ++ [c]). rewrite Ec, <- app_assoc. cbn [app]. split; [reflexivity|]. split; [exact N|]. split.
      * rewrite queue_snoc, Q. do 3 f_equal. rewrite C, app_length, map_length, repeat_length, answers_length, app_length. cbn [length]. lia.
      * split; [|exact A]. rewrite C, app_length, <- app_assoc, repeat_snoc. cbn [length]. rewrite Nat.add_1_r. reflexivity.
    + injection H as <-. destruct I as (Q & C & [(p & post & Ec & N & A)|(_ & X & _)]); [|congruence]. unfold Inv. cbn [w_owner w_queue w_calls w_handles w_acts].
      split; [exact Q|]. split.
      * rewrite C, Ec, <- app_assoc. cbn [app]. rewrite (answers_closed p post d0 N), (answers_closed p (post ++ [c]) d0 N). rewrite !map_app. cbn [map]. rewrite <- app_assoc. reflexivity.
      * left. exists p, (post ++ [c]). rewrite Ec, <- app_assoc. auto.
  - destruct (w_handles w) as [|h] eqn:Hh; [discriminate|]. injection H as <-. rewrite app_nil_r. unfold Inv in *. cbn [w_owner w_queue w_calls w_handles w_acts].
    destruct (w_owner w); [exact I| |].
    + destruct I as [I|(_ & X & _)]; [left; exact I|congruence].
    + destruct I as (Q & C & [I|(_ & X & _)]); [|congruence]. auto.
  - destruct (w_handles w) as [|h] eqn:Hh; [discriminate|]. destruct (Nat.eqb h 0 && existsb waiting (w_calls w)); [discriminate|]. injection H as <-. rewrite app_nil_r.
    unfold Inv in *. cbn [w_owner w_queue w_calls w_handles w_acts]. destruct (w_owner w); [exact I| |].
    + destruct I as [I|(_ & X & _)]; [left; exact I|congruence].
    + destruct I as (Q & C & [I|(_ & X & _)]); [|congruence]. auto.
  - (* Serve *) rewrite app_nil_r. unfold Inv in I. destruct (w_owner w) as [d| |]; try discriminate. destruct I as (pre & post & Ec & N & Ed & Q & C & A).
    rewrite Q in H. destruct post as [|c post]; [discriminate|]. unfold queue_of in H. cbn [length seq combine] in H.
    destruct (execute d_start d_stop d_latency d c) as [[d' a] ac] eqn:X. injection H as <-. cbn [length repeat] in C.
    assert (Sc : set_call (length pre) (Returned a) (w_calls w) = map Returned (answers d0 pre) ++ Returned a :: repeat Waiting (length post)).
    { rewrite C. pose proof (set_call_app (map Returned (answers d0 pre)) (repeat Waiting (length post)) (Returned a) Waiting) as S. rewrite map_length, answers_length in S. exact S. }
    unfold Inv. cbn [w_owner w_queue w_calls w_handles w_acts]. rewrite Sc, A. destruct d' as [d'|].
    + assert (NC : c <> Close) by (intros ->; cbn [execute] in X; discriminate).
      exists (pre ++ [c]), post. rewrite <- app_assoc. split; [exact Ec|]. split; [rewrite in_app_iff; intros [Y|[Y|[]]]; congruence|].
      rewrite after_app, answers_app by exact N. rewrite acts_app by exact N. rewrite app_length, Nat.add_1_r, map_app, <- app_assoc, <- Ed.
      destruct c as [| | |r]; [| |congruence|]; cbn [execute after Owner_Spec.answers acts map app] in *.
      * destruct (d_start d) as [d1 e]. injection X as <- <- <-. repeat split; reflexivity.
      * destruct (d_stop d) as [d1 e]. injection X as <- <- <-. repeat split; reflexivity.
      * injection X as <- <- <-. repeat split; reflexivity.
    + left. assert (c = Close) by (destruct c; cbn [execute] in X; [destruct (d_start d); discriminate|destruct (d_stop d); discriminate|reflexivity|discriminate]). subst c.
      cbn [execute] in X. injection X as <- <-. exists pre, post. split; [exact Ec|]. split; [exact N|]. split; [reflexivity|]. split; [|reflexivity].
      rewrite answers_app by exact N. rewrite map_app, <- app_assoc. reflexivity.
  - (* End *) rewrite app_nil_r. unfold Inv in I. destruct (w_owner w) as [d| |]; try discriminate. injection H as <-. unfold Inv. cbn [w_owner w_queue w_calls w_handles w_acts].
    split; [reflexivity|]. destruct I as [(p & post & Ec & N & Q & C & A)|(N & Hh & Q & C & A)].
    + split; [|left; exists p, post; auto]. rewrite Q, C. pose proof (end_calls post (map Returned (answers d0 (p ++ [Close])))) as X. rewrite map_length, answers_length, app_length in X. cbn [length] in X.
      rewrite Nat.add_1_r in X. rewrite X, Ec, (answers_closed p post d0 N). rewrite map_app, map_map. reflexivity.
    + rewrite Q. cbn [fold_left]. split; [exact C|]. right. auto.
  - (* Hang_up *) rewrite app_nil_r. unfold Inv in I. destruct (w_owner w) as [d| |]; try discriminate. destruct I as (pre & post & Ec & N & Ed & Q & C & A).
    destruct (w_queue w) eqn:Qw; [|discriminate]. destruct (w_handles w); [|discriminate]. injection H as <-.
    destruct post as [|c post]; [|discriminate]. rewrite app_nil_r in Ec. subst pre. cbn [length repeat] in C. rewrite app_nil_r in C.
    unfold Inv. cbn [w_owner w_queue w_calls w_handles w_acts]. right. rewrite A. auto.
Qed.

Lemma run_app : forall a b (w : world), run w (a ++ b) = match run w a with None => None | Some w' => run w' b end.
Proof. induction a as [|l a IH]; intros b w; [reflexivity|]. cbn [app Owner_Model.run]. destruct (step w l); [apply IH|reflexivity]. Qed.
Lemma commands_app : forall a b : list label, commands (a ++ b) = commands a ++ commands b.
Proof. intros. apply flat_map_app. Qed.
Lemma inv_from : forall ls cs w w', Inv cs w -> run w ls = Some w' -> Inv (cs ++ commands ls) w'.
Proof.
  induction ls as [|l ls IH]; intros cs w w' I H; cbn [Owner_Model.run] in H.
  - injection H as <-. cbn. rewrite app_nil_r. exact I.
  - destruct (step w l) as [w1|] eqn:S; [|discriminate]. apply (inv_step _ _ _ _ I) in S. specialize (IH _ _ _ S H). unfold commands. cbn [flat_map]. rewrite app_assoc. exact IH.
Qed.
Lemma inv_run : forall ls w, run (spawned d0) ls = Some w -> Inv (commands ls) w.
Proof. intros ls w H. exact (inv_from ls [] _ _ inv_new H). Qed.

(** ** Consequences *)
Theorem answers_spec : forall ls w, run (spawned d0) ls = Some w ->
  length (w_calls w) = length (commands ls) /\
  (exists j, w_calls w = map Returned (firstn j (answers d0 (commands ls))) ++ repeat Waiting (length (commands ls) - j)).
Proof.
  intros ls w H. apply inv_run in H. set (cs := commands ls) in *. unfold Inv in H.
  assert (K : exists j, j <= length cs /\ w_calls w = map Returned (firstn j (answers d0 cs)) ++ repeat Waiting (length cs - j)).
  { destruct (w_owner w) as [d| |].
    - destruct H as (pre & post & Ec & N & _ & _ & C & _). exists (length pre). rewrite Ec, app_length. split; [lia|]. rewrite answers_app by exact N.
      rewrite firstn_app, answers_length, Nat.sub_diag, firstn_O, app_nil_r. rewrite firstn_all2 by (rewrite answers_length; lia).
      replace (length pre + length post - length pre) with (length post) by lia. exact C.
    - destruct H as [(p & post & Ec & N & _ & C & _)|(N & _ & _ & C & _)].
      + exists (S (length p)). rewrite Ec, app_length. cbn [length]. split; [lia|]. rewrite (answers_closed p post d0 N).
        rewrite firstn_app, answers_length, app_length. cbn [length]. replace (S (length p) - (length p + 1)) with 0 by lia. rewrite firstn_O, app_nil_r.
        rewrite firstn_all2 by (rewrite answers_length, app_length; cbn [length]; lia). replace (length p + S (length post) - S (length p)) with (length post) by lia. exact C.
      + exists (length cs). split; [lia|]. rewrite firstn_all2 by (rewrite answers_length; lia). rewrite Nat.sub_diag, app_nil_r. exact C.
    - destruct H as (_ & C & _). exists (length cs). split; [lia|]. rewrite firstn_all2 by (rewrite answers_length; lia). rewrite Nat.sub_diag, app_nil_r. exact C. }
  destruct K as (j & Le & C). split; [|exists j; exact C]. rewrite C, app_length, map_length, repeat_length, firstn_length, answers_length. lia.
Qed.

Theorem acts_spec : forall ls w, run (spawned d0) ls = Some w ->
  (w_handles w = 0 /\ ~ In Close (commands ls) /\ w_acts w = acts (commands ls) ++ [Dropped]) \/
  (exists j, j <= length (commands ls) /\ w_acts w = acts (firstn j (commands ls)) /\ forall i a, nth_error (w_calls w) i = Some (Returned a) -> i < j \/ In Close (firstn j (commands ls))).
Proof.
  intros ls w H. apply inv_run in H. set (cs := commands ls) in *. unfold Inv in H. destruct (w_owner w) as [d| |].
  - destruct H as (pre & post & Ec & N & _ & _ & C & A). right. exists (length pre). rewrite Ec, app_length, firstn_app, Nat.sub_diag, firstn_O, app_nil_r, firstn_all2 by lia.
    split; [lia|]. split; [exact A|]. intros i a X. left. destruct (Nat.lt_ge_cases i (length pre)) as [|G]; [assumption|]. exfalso. rewrite C in X.
    rewrite nth_error_app2 in X by (rewrite map_length, answers_length; exact G). apply nth_error_In, repeat_spec in X. discriminate.
  - destruct H as [(p & post & Ec & N & _ & C & A)|(N & Hh & _ & _ & A)]; [|left; auto]. right. exists (S (length p)).
    assert (F : firstn (S (length p)) cs = p ++ [Close]).
    { rewrite Ec. rewrite firstn_app, firstn_all2 by lia. replace (S (length p) - length p) with 1 by lia. reflexivity. }
    rewrite F. split; [rewrite Ec, app_length; cbn; lia|]. split; [rewrite acts_closed by exact N; exact A|]. intros i a _. right. apply in_or_app. right. left. reflexivity.
  - destruct H as (_ & C & [(p & post & Ec & N & A)|(N & Hh & A)]); [|left; auto]. right. exists (S (length p)).
    assert (F : firstn (S (length p)) cs = p ++ [Close]).
    { rewrite Ec. rewrite firstn_app, firstn_all2 by lia. replace (S (length p) - length p) with 1 by lia. reflexivity. }
    rewrite F. split; [rewrite Ec, app_length; cbn; lia|]. split; [rewrite acts_closed by exact N; exact A|]. intros i a _. right. apply in_or_app. right. left. reflexivity.
Qed.

(** ** Every call returns *)
Definition count (w : world) : nat := length (filter waiting (w_calls w)).
Definition measure (w : world) : nat := match w_owner w with Open _ => 2 + length (w_queue w) | Closing => 1 | Gone => 0 end.
Lemma owner_decreases : forall w l w', of_owner l -> step w l = Some w' -> measure w' < measure w.
Proof.
  intros w l w' [->|[->| ->]] H; cbn [Owner_Model.step] in H; unfold measure.
  - destruct (w_owner w) as [d| |]; try discriminate. destruct (w_queue w) as [|[i c] q]; [discriminate|]. destruct (execute d_start d_stop d_latency d c) as [[d' a] ac].
    injection H as <-. cbn [w_owner w_queue length]. destruct d'; lia.
  - destruct (w_owner w) as [d| |]; try discriminate. injection H as <-. cbn. lia.
  - destruct (w_owner w) as [d| |]; try discriminate. destruct (w_queue w); [|discriminate]. destruct (w_handles w); [|discriminate]. injection H as <-. cbn. lia.
Qed.
Lemma owner_can : forall cs w, Inv cs w -> existsb waiting (w_calls w) = true -> exists l w', of_owner l /\ step w l = Some w'.
Proof.
  intros cs w I X. unfold Inv in I. destruct (w_owner w) as [d| |] eqn:O.
  - destruct I as (pre & post & Ec & N & Ed & Q & C & A). rewrite C, existsb_app, no_waiting in X. cbn [orb] in X. destruct post as [|c post]; [discriminate|].
    exists Serve. cbn [Owner_Model.step]. rewrite O, Q. unfold queue_of. cbn [length seq combine]. destruct (execute d_start d_stop d_latency d c) as [[d' a] ac].
    eexists. split; [left; reflexivity|reflexivity].
  - exists End. cbn [Owner_Model.step]. rewrite O. eexists. split; [right; left; reflexivity|reflexivity].
  - destruct I as (_ & C & _). rewrite C, no_waiting in X. discriminate.
Qed.
Lemma owner_bound : forall ls w w', Forall of_owner ls -> run w ls = Some w' -> length ls + measure w' <= measure w.
Proof.
  induction ls as [|l ls IH]; intros w w' F H; cbn [Owner_Model.run] in H; [injection H as <-; cbn; lia|]. apply Forall_cons_iff in F. destruct F as [F1 F2].
  destruct (step w l) as [w1|] eqn:S; [|discriminate]. apply (owner_decreases _ _ _ F1) in S. specialize (IH _ _ F2 H). cbn [length]. lia.
Qed.
Lemma owner_commands : forall ls : list label, Forall of_owner ls -> commands ls = [].
Proof.
  induction ls as [|l ls IH]; intros F; [reflexivity|]. apply Forall_cons_iff in F. destruct F as [F1 F2]. destruct F1 as [->|[->| ->]]; exact (IH F2).
Qed.
Theorem returns_spec : forall k cs w, measure w <= k -> Inv cs w -> exists ls' w', Forall of_owner ls' /\ run w ls' = Some w' /\ existsb waiting (w_calls w') = false.
Proof.
  induction k as [|k IH]; intros cs w Le I; (destruct (existsb waiting (w_calls w)) eqn:X; [|exists [], w; repeat split; auto]).
  - destruct (owner_can cs w I X) as (l & w1 & O & S). apply (owner_decreases _ _ _ O) in S. lia.
  - destruct (owner_can cs w I X) as (l & w1 & O & S). pose proof (owner_decreases _ _ _ O S) as Lt. pose proof (inv_step _ _ _ _ I S) as I1.
    destruct (IH _ w1 ltac:(lia) I1) as (ls' & w' & F & R1 & R2). exists (l :: ls'), w'. split; [constructor; assumption|]. split; [|exact R2].
    cbn [Owner_Model.run]. rewrite S. exact R1.
Qed.

(** ** After [Close] *)
Definition dead (w : world) : Prop := match w_owner w with Open _ => False | _ => True end.
Lemma dead_step : forall w l w', dead w -> step w l = Some w' -> dead w' /\ w_acts w' = w_acts w.
Proof.
  intros w l w' Dd H. unfold dead in *. destruct l as [c| | | | |]; cbn [Owner_Model.step] in H; destruct (w_owner w); try contradiction; try discriminate;
    try (destruct (w_handles w); [discriminate|]); try (destruct (_ && _); [discriminate|]); injection H as <-; cbn; auto.
Qed.
Lemma dead_run : forall ls w w', dead w -> run w ls = Some w' -> w_acts w' = w_acts w.
Proof.
  induction ls as [|l ls IH]; intros w w' Dd H; cbn [Owner_Model.run] in H; [congruence|]. destruct (step w l) as [w1|] eqn:S; [|discriminate].
  destruct (dead_step _ _ _ Dd S) as [D1 D2]. rewrite (IH _ _ D1 H). exact D2.
Qed.
Theorem closed_spec : forall ls w k a, run (spawned d0) ls = Some w -> nth_error (commands ls) k = Some Close -> nth_error (w_calls w) k = Some (Returned a) ->
  (exists before, w_acts w = before ++ [Halted; Dropped]) /\ forall ls' w', run w ls' = Some w' -> w_acts w' = w_acts w.
Proof.
  intros ls w k a H Hc Ha. apply inv_run in H. unfold Inv in H. destruct (w_owner w) as [d| |] eqn:O.
  - exfalso. destruct H as (pre & post & Ec & N & _ & _ & C & _). rewrite C in Ha. destruct (Nat.lt_ge_cases k (length pre)) as [Lt|G].
    + rewrite Ec, nth_error_app1 in Hc by exact Lt. apply nth_error_In in Hc. contradiction.
    + rewrite nth_error_app2 in Ha by (rewrite map_length, answers_length; exact G). apply nth_error_In, repeat_spec in Ha. discriminate.
  - split; [|intros ls' w' R1; apply (dead_run ls' w w'); [unfold dead; rewrite O; exact I|exact R1]].
    destruct H as [(p & post & _ & _ & _ & _ & A)|(N & _)]; [exists (acts p); exact A|]. apply nth_error_In in Hc. contradiction.
  - split; [|intros ls' w' R1; apply (dead_run ls' w w'); [unfold dead; rewrite O; exact I|exact R1]].
    destruct H as (_ & _ & [(p & post & _ & _ & A)|(N & _)]); [exists (acts p); exact A|]. apply nth_error_In in Hc. contradiction.
Qed.

(** ** Dropping the handles *)
Lemma no_handles : forall ls w, run (spawned d0) ls = Some w -> w_handles w = 0 -> existsb waiting (w_calls w) = false.
Proof.
  intros ls. induction ls as [|l ls IH] using rev_ind; intros w H Z; [injection H as <-; discriminate|].
  rewrite run_app in H. destruct (run (spawned d0) ls) as [w1|] eqn:R1; [|discriminate]. cbn [Owner_Model.run] in H. destruct (step w1 l) as [w2|] eqn:S; [|discriminate]. injection H as <-.
  pose proof (inv_run ls w1 R1) as I1. pose proof (inv_step _ _ _ _ I1 S) as I2. specialize (IH w1 eq_refl). destruct l as [c| | | | |]; cbn [Owner_Model.step] in S.
  - destruct (w_handles w1) eqn:Hh; [discriminate|]. destruct (w_owner w1); injection S as <-; cbn [w_handles] in Z; congruence.
  - destruct (w_handles w1) eqn:Hh; [discriminate|]. injection S as <-. discriminate.
  - destruct (w_handles w1) as [|h] eqn:Hh; [discriminate|]. destruct (Nat.eqb h 0 && existsb waiting (w_calls w1)) eqn:B; [discriminate|]. injection S as <-. cbn [w_handles w_calls] in *.
    subst h. cbn [Nat.eqb andb] in B. exact B.
  - destruct (w_owner w1) as [d| |] eqn:O; try discriminate. destruct (w_queue w1) as [|[i c] q] eqn:Q; [discriminate|]. destruct (execute d_start d_stop d_latency d c) as [[d' a] ac]. injection S as <-.
    cbn [w_handles] in Z. specialize (IH Z). unfold Inv in I1. rewrite O in I1. destruct I1 as (pre & post & Ec & N & Ed & Q1 & C & A). exfalso.
    rewrite C, existsb_app in IH. destruct post as [|x post]; [rewrite Q in Q1; discriminate|]. cbn [length repeat existsb waiting] in IH. rewrite orb_true_r in IH. discriminate.
  - destruct (w_owner w1) as [d| |] eqn:O; try discriminate. injection S as <-. unfold Inv in I2. cbn [w_owner] in I2. destruct I2 as (_ & C & _). rewrite C. apply no_waiting.
  - destruct (w_owner w1) as [d| |] eqn:O; try discriminate. destruct (w_queue w1); [|discriminate]. destruct (w_handles w1); [|discriminate]. injection S as <-. cbn [w_calls]. apply IH. reflexivity.
Qed.
Theorem dropped_spec : forall ls w, run (spawned d0) ls = Some w -> w_handles w = 0 ->
  exists ls' w', Forall of_owner ls' /\ run w ls' = Some w' /\ exists before, w_acts w' = before ++ [Dropped].
Proof.
  intros ls w H Z. pose proof (no_handles ls w H Z) as NW. apply inv_run in H. unfold Inv in H. destruct (w_owner w) as [d| |] eqn:O.
  - destruct H as (pre & post & Ec & N & Ed & Q & C & A). assert (post = []).
    { rewrite C, existsb_app in NW. destruct post; [reflexivity|]. cbn [length repeat existsb waiting] in NW. rewrite orb_true_r in NW. discriminate. }
    subst post. exists [Hang_up]. cbn [Owner_Model.run Owner_Model.step]. rewrite O, Q, Z. cbn [queue_of length seq combine]. eexists. split; [constructor; [right; right; reflexivity|constructor]|].
    split; [reflexivity|]. exists (w_acts w). reflexivity.
  - exists [], w. split; [constructor|]. split; [reflexivity|]. destruct H as [(p & post & _ & _ & _ & _ & A)|(_ & _ & _ & _ & A)].
    + exists (acts p ++ [Halted]). rewrite A, <- app_assoc. reflexivity.
    + eauto.
  - exists [], w. split; [constructor|]. split; [reflexivity|]. destruct H as (_ & _ & [(p & post & _ & _ & A)|(_ & _ & A)]).
    + exists (acts p ++ [Halted]). rewrite A, <- app_assoc. reflexivity.
    + eauto.
Qed.

(** ** A call returns once *)
Lemma nth_set_call : forall (l : list call) i k c, i <> k -> nth_error (set_call i c l) k = nth_error l k.
Proof.
  induction l as [|x l IH]; intros i k c N; [destruct i; reflexivity|]. destruct i as [|i], k as [|k]; cbn [set_call nth_error]; try reflexivity; [congruence|]. apply IH. congruence.
Qed.
Lemma stays_step : forall cs w l w' k a, Inv cs w -> step w l = Some w' -> nth_error (w_calls w) k = Some (Returned a) -> nth_error (w_calls w') k = Some (Returned a).
Proof.
  intros cs w l w' k a I H X. assert (Lt : k < length (w_calls w)) by (apply nth_error_Some; rewrite X; discriminate).
  destruct l as [c| | | | |]; cbn [Owner_Model.step] in H.
  - destruct (w_handles w); [discriminate|]. destruct (w_owner w); injection H as <-; cbn [w_calls]; rewrite nth_error_app1 by exact Lt; exact X.
  - destruct (w_handles w); [discriminate|]. injection H as <-. exact X.
  - destruct (w_handles w); [discriminate|]. destruct (_ && _); [discriminate|]. injection H as <-. exact X.
  - unfold Inv in I. destruct (w_owner w) as [d| |]; try discriminate. destruct I as (pre & post & Ec & N & Ed & Q & C & A). rewrite Q in H.
    destruct post as [|c post]; [discriminate|]. unfold queue_of in H. cbn [length seq combine] in H. destruct (execute d_start d_stop d_latency d c) as [[d' b] ac]. injection H as <-.
    cbn [w_calls]. rewrite nth_set_call; [exact X|]. intros <-. rewrite C, nth_error_app2 in X by (rewrite map_length, answers_length; lia).
    apply nth_error_In, repeat_spec in X. discriminate.
  - unfold Inv in I. destruct (w_owner w) as [d| |]; try discriminate. injection H as <-. cbn [w_calls]. destruct I as [(p & post & Ec & N & Q & C & A)|(N & Hh & Q & C & A)].
    + rewrite C in X. rewrite Q, C. pose proof (end_calls post (map Returned (answers d0 (p ++ [Close])))) as Y. rewrite map_length, answers_length, app_length in Y. cbn [length] in Y.
      rewrite Nat.add_1_r in Y. rewrite Y. destruct (Nat.lt_ge_cases k (length (map (@Returned L E) (answers d0 (p ++ [Close]))))) as [K|K].
      * rewrite nth_error_app1 in * by exact K. exact X.
      * rewrite nth_error_app2 in X by exact K. apply nth_error_In, repeat_spec in X. discriminate.
    + rewrite Q. exact X.
  - destruct (w_owner w); try discriminate. destruct (w_queue w); [|discriminate]. destruct (w_handles w); [|discriminate]. injection H as <-. exact X.
Qed.
Theorem stays_spec : forall ls cs w w' k a, Inv cs w -> run w ls = Some w' -> nth_error (w_calls w) k = Some (Returned a) -> nth_error (w_calls w') k = Some (Returned a).
Proof.
  induction ls as [|l ls IH]; intros cs w w' k a I H X; cbn [Owner_Model.run] in H; [injection H as <-; exact X|].
  destruct (step w l) as [w1|] eqn:S; [|discriminate]. eapply IH; [eapply inv_step; eassumption|exact H|]. eapply stays_step; eassumption.
Qed.

End Owner.
