(** The life of an OfflineAudioContext: the buffer is that of the sequential rendering; the rendering can always be completed. *)
From Coq Require Import List Arith Bool Lia Sorting.Sorted.
From Verif Require Import Thread_Model Thread_Spec Thread_Proofs Thread_OfflineProofs Offline_Model Offline_Spec Offline_Proofs Offline_LifeProofs.
Import ListNotations.

Section Offline.
Context {G M V : Type}.
Variable GO : @graph_ops G M V.
Variable zero : V.
Variable RQ channels len : nat.
Variable g0 : G.

Notation world := (@world G M V).
Notation label := (@label M).
Notation step := (step GO zero RQ len).
Notation run := (run GO zero RQ len).
Notation n := (div_ceil len RQ).
Notation new := (new_context channels g0).
Notation Inv := (Inv RQ len g0).

(** ** The sequential rendering, from where the task stands *)
Notation gm := (map (@GraphMsg G M)).
Definition susp_of (left : list (nat * nat)) (ss : list (list M)) : list (nat * list (@cmsg G M)) := combine (map fst left) (map gm ss).
Definition out (r : option (@thread G V * list (list V) * list (nat * nat))) : option (list (list V)) := option_map (fun x => snd (fst x)) r.
Definition loop_from (q : nat) (t : @thread G V) (b : list (list V)) (left : list (nat * nat)) (ls : list label) : option (list (list V)) :=
  out (offline_loop GO zero RQ (n - q) q len t b (susp_of left (segments ls)) (map gm (handled ls))).
Definition events_from (q : nat) (t : @thread G V) (b : list (list V)) (left : list (nat * nat)) (ss : list (list M)) (evs : list (list M)) : option (list (list V)) :=
  match handle_control_messages GO t (hd [] (map gm evs)) with
  | None => None
  | Some (t3, _) => out (offline_loop GO zero RQ (n - S q) (S q) len t3 b (susp_of left ss) (tl (map gm evs)))
  end.
Definition quantum_from (q : nat) (t : @thread G V) (b : list (list V)) (left : list (nat * nat)) (ss : list (list M)) (evs : list (list M)) : option (list (list V)) :=
  match render_quantum GO RQ t with
  | None => None
  | Some (t2, o) => match extend_offline zero RQ len b o with
                    | None => None
                    | Some b' => events_from q t2 b' left ss evs
                    end
  end.
Definition resumed_from (q : nat) (t : @thread G V) (c : list (@cmsg G M)) (b : list (list V)) (left : list (nat * nat)) (ss : list (list M)) (evs : list (list M)) : option (list (list V)) :=
  match handle_control_messages GO t c with
  | None => None
  | Some (t1, _) => quantum_from q t1 b left ss evs
  end.
Definition cont (w : world) (ls : list label) : option (list (list V)) :=
  let t := w_thread w in
  let b := w_buffer w in
  let left := w_left w in
  match w_task w with
  | T_none | T_panicked => None
  | T_init => match handle_control_messages GO t (w_chan w) with None => None | Some (t1, _) => loop_from 0 t1 b left ls end
  | T_check q => loop_from q t b left ls
  | T_waiting q =>
      match w_tokens w with
      | O => resumed_from q t (w_chan w ++ gm (hd [] (segments ls))) b left (tl (segments ls)) (handled ls)
      | _ => resumed_from q t (w_chan w) b left (segments ls) (handled ls)
      end
  | T_resumed q => resumed_from q t (w_chan w) b left (segments ls) (handled ls)
  | T_quantum q => quantum_from q t b left (segments ls) (handled ls)
  | T_events q => events_from q t b left (segments ls) (handled ls)
  | T_done b' => Some b'
  end.

Lemma segments_cons : forall ls : list label, exists s ss, segments ls = s :: ss.
Proof.
  induction ls as [|l ls (s & ss & IH)]; [eexists _, _; reflexivity|]. cbn [segments]. destruct l; rewrite ?IH; eexists _, _; reflexivity.
Qed.

Lemma out_loop : forall q t b left s ss evs, q < n -> 
  out (offline_loop GO zero RQ (n - q) q len t b (susp_of left (s :: ss)) (map gm evs)) =
  match left with
  | (q', _) :: left' => if Nat.eqb q' q then resumed_from q t (gm s) b left' ss evs else quantum_from q t b left (s :: ss) evs
  | [] => quantum_from q t b left (s :: ss) evs
  end.
Proof.
  intros q t b left s ss evs Lt. destruct (n - q) as [|k] eqn:K; [lia|]. assert (K' : n - S q = k) by lia. cbn [offline_loop].
  assert (E0 : forall sp, out match handle_control_messages GO t [] with
      | Some (t1, _) =>
          match render_quantum GO RQ t1 with
          | Some (t2, o) =>
              match extend_offline zero RQ len b o with
              | Some buffer' =>
                  match handle_control_messages GO t2 (hd [] (map gm evs)) with
                  | Some (t3, _) =>
                      match offline_loop GO zero RQ k (S q) len t3 buffer' sp (tl (map gm evs)) with
                      | Some (t4, buf, ran') => Some (t4, buf, [] ++ ran')
                      | None => None
                      end
                  | None => None
                  end
              | None => None
              end
          | None => None
          end
      | None => None
      end = match render_quantum GO RQ t with
            | None => None
            | Some (t2, o) => match extend_offline zero RQ len b o with
                    | None => None
                    | Some b' => match handle_control_messages GO t2 (hd [] (map gm evs)) with
                                 | None => None
                                 | Some (t3, _) => out (offline_loop GO zero RQ k (S q) len t3 b' sp (tl (map gm evs)))
                                 end
                    end
            end).
  { intros sp. assert (H0 : handle_control_messages GO t [] = Some (t, [])) by (unfold handle_control_messages; destruct (t_listening t); reflexivity). rewrite H0.
    destruct (render_quantum GO RQ t) as [[t2 o]|]; [|reflexivity]. destruct (extend_offline zero RQ len b o); [|reflexivity].
    destruct (handle_control_messages GO t2 (hd [] (map gm evs))) as [[t3 r3]|]; [|reflexivity].
    destruct (offline_loop GO zero RQ k (S q) len t3 l sp (tl (map gm evs))) as [[[t4 bb] rr]|]; reflexivity. }
  destruct left as [|[q' i] left'].
  - unfold susp_of at 1. cbn [map combine]. rewrite E0. unfold quantum_from, events_from. rewrite K'. reflexivity.
  - unfold susp_of at 1. cbn [map combine fst]. destruct (Nat.eqb q' q).
    + unfold resumed_from, quantum_from, events_from. rewrite K'. destruct (handle_control_messages GO t (gm s)) as [[t1 r1]|]; [|reflexivity].
      destruct (render_quantum GO RQ t1) as [[t2 o]|]; [|reflexivity]. destruct (extend_offline zero RQ len b o); [|reflexivity].
      destruct (handle_control_messages GO t2 (hd [] (map gm evs))) as [[t3 r3]|]; [|reflexivity].
      fold (susp_of left' ss). destruct (offline_loop GO zero RQ k (S q) len t3 l (susp_of left' ss) (tl (map gm evs))) as [[[t4 bb] rr]|]; reflexivity.
    + rewrite E0. unfold quantum_from, events_from. rewrite K'. reflexivity.
Qed.

Lemma cont_panicked : forall w ls, cont (panicked w) ls = None.
Proof. reflexivity. Qed.

Theorem cont_step : forall w l w' ls, Inv w -> fair w l -> step w l = Some w' -> cont w (l :: ls) = cont w' ls.
Proof.
  intros w l w' ls (R & L & P & Ph) F H. destruct (segments_cons ls) as (s & ss & Sg).
  destruct l as [q|i|i|ms| | | |evs|ms]; cbn [Offline_Model.step fair] in *.
  - rewrite R in H. injection H as <-. reflexivity.
  - destruct (nth_error (w_futures w) i) as [[]|]; try discriminate; injection H as <-; [|reflexivity].
    unfold change_state. destruct (cstate_eqb _ _); reflexivity.
  - contradiction.
  - injection H as <-. unfold phase in Ph. rewrite F in Ph. unfold cont. fields. destruct (w_task w) eqn:T; try (exfalso; decompose [and] Ph; congruence); try reflexivity.
    destruct Ph as (A & B & [(X & C)|[(Q & C)|(Q & C)]]); try (exfalso; decompose [and] C; congruence). destruct C as (_ & ->).
    cbn [segments handled]. rewrite Sg. cbn [hd tl]. rewrite map_app, app_assoc. reflexivity.
  - destruct F as (F & _).
    assert (W : exists q, w_task w = T_waiting q /\ w_tokens w = 0).
    { unfold phase in Ph. rewrite F in Ph. destruct (w_task w) eqn:T; try (exfalso; decompose [and] Ph; congruence).
      exists q. destruct Ph as (A & B & [(X & C)|[(Q & C)|(Q & C)]]); try (exfalso; decompose [and] C; congruence). tauto. }
    destruct W as (q & T & K). unfold listening in H. rewrite T in H. unfold change_state in H. rewrite F in H. cbn [cstate_eqb] in H. fields. injection H as <-.
    unfold cont. fields. rewrite T, K. cbn [segments handled hd tl map]. rewrite app_nil_r. reflexivity.
  - congruence.
  - unfold phase in Ph. destruct (w_task w) eqn:T; try discriminate.
    + destruct Ph as (St & K & Q & (ms & C) & E0 & G0). injection H as <-.
      destruct (handle_control_messages GO (w_thread w) (w_chan w)) as [[t1 r1]|] eqn:Eh.
      * destruct (handle_init GO g0 w (T_check 0) ms L C E0) as [E|(t' & H1 & H2 & ->)].
        -- unfold handle_messages in E. rewrite Eh in E. apply (f_equal w_task) in E. discriminate.
        -- unfold cont. fields. rewrite T, H1. reflexivity.
      * unfold cont, handle_messages. rewrite T, Eh. reflexivity.
    + injection H as <-. destruct Ph as (Le & St & K & Q & C). destruct (P ltac:(unfold listening; rewrite T; reflexivity)) as [P1 P2].
      unfold check_suspension. destruct (Nat.eqb_spec q n) as [->|NE].
      * unfold cont, finish. rewrite T. fields. unfold loop_from. rewrite Nat.sub_diag. reflexivity.
      * assert (Lt : q < n) by lia. unfold cont at 1. rewrite T. unfold loop_from. cbn [segments handled]. rewrite Sg, out_loop by exact Lt.
        destruct (w_left w) as [|[q' i] left'] eqn:Lf.
        -- unfold cont. fields. rewrite Lf, Sg. reflexivity.
        -- destruct (Nat.eqb q' q).
           ++ apply Forall_cons_iff in P2. destruct P2 as [Pi Pl]. cbn [snd] in Pi. rewrite Pi. unfold cont. fields. rewrite K, C, Sg. reflexivity.
           ++ unfold cont. fields. rewrite Lf, Sg. reflexivity.
    + destruct (w_tokens w) as [|k] eqn:K; [discriminate|]. injection H as <-. unfold cont. fields. rewrite T, K. reflexivity.
    + destruct Ph as (Lt & St & K & Q & (ms & C)). injection H as <-.
      destruct (handle_control_messages GO (w_thread w) (w_chan w)) as [[t1 r1]|] eqn:Eh.
      * destruct (handle_spec GO w (T_quantum q) ms L C) as [E|(t' & H1 & H2 & ->)].
        -- unfold handle_messages in E. rewrite Eh in E. apply (f_equal w_task) in E. discriminate.
        -- unfold cont. fields. rewrite T. unfold resumed_from. rewrite H1. reflexivity.
      * unfold cont, handle_messages. rewrite T, Eh. unfold resumed_from. rewrite Eh. reflexivity.
  - unfold phase in Ph. destruct (w_task w) eqn:T; try discriminate. injection H as <-. unfold render, cont at 1. rewrite T. unfold quantum_from.
    destruct (render_quantum GO RQ (w_thread w)) as [[t' o]|]; [|reflexivity].
    destruct (extend_offline zero RQ len (w_buffer w) o) as [b'|]; reflexivity.
  - unfold phase in Ph. destruct (w_task w) eqn:T; try discriminate. destruct Ph as (Lt & St & K & Q & C).
    assert (X : handle_control_messages GO (w_thread w) [] = Some (w_thread w, [])) by (unfold handle_control_messages; rewrite L; reflexivity).
    destruct (w_events w) as [|e es] eqn:Ev.
    + destruct ms; [|discriminate]. injection H as <-. unfold cont. fields. rewrite T. cbn [segments handled]. unfold events_from. cbn [map hd tl]. rewrite X. reflexivity.
    + assert (H' : w' = handle_messages GO (handle_pending_events (with_chan w (w_chan w ++ map GraphMsg ms))) (T_check (S q))) by (injection H as <-; reflexivity).
      clear H. subst w'. unfold cont at 1. rewrite T. cbn [segments handled]. unfold events_from. cbn [map hd tl].
      remember (handle_pending_events (with_chan w (w_chan w ++ map GraphMsg ms))) as w1 eqn:E1.
      assert (C1 : w_chan w1 = map GraphMsg ms) by (subst w1; fields; rewrite C; reflexivity).
      assert (T1 : w_thread w1 = w_thread w) by (subst w1; reflexivity).
      assert (B1 : w_buffer w1 = w_buffer w) by (subst w1; reflexivity).
      assert (F1 : w_left w1 = w_left w) by (subst w1; reflexivity).
      destruct (handle_spec GO w1 (T_check (S q)) ms ltac:(rewrite T1; exact L) C1) as [E|(t' & H1 & H2 & ->)].
      * rewrite E, cont_panicked. unfold handle_messages in E. rewrite T1, C1 in E. destruct (handle_control_messages GO (w_thread w) (map GraphMsg ms)) as [[t1 r1]|]; [|reflexivity].
        apply (f_equal w_task) in E. discriminate.
      * rewrite T1, C1 in H1. rewrite H1. unfold cont. fields. rewrite B1, F1. reflexivity.
Qed.

(** ** Fair runs *)
Fixpoint fair_run (w : world) (ls : list label) : Prop :=
  match ls with
  | [] => True
  | l :: ls' => fair w l /\ forall w', step w l = Some w' -> fair_run w' ls'
  end.

Lemma fair_inv : forall ls w w', Inv w -> fair_run w ls -> run w ls = Some w' -> Inv w'.
Proof.
  induction ls as [|l ls IH]; intros w w' I F R; cbn [Offline_Model.run] in R; [injection R as <-; exact I|].
  destruct F as [F1 F2]. destruct (step w l) as [w1|] eqn:S; [|discriminate].
  apply (IH w1); [|exact (F2 _ eq_refl)|exact R]. exact (proj1 (step_inv GO zero RQ len g0 w l w1 _ I F1 (ex_intro _ (todo RQ len w) (conj eq_refl (fun _ => eq_refl))) S)).
Qed.
Lemma fair_cont : forall ls w w' b, Inv w -> fair_run w ls -> run w ls = Some w' -> w_task w' = T_done b -> cont w ls = Some b.
Proof.
  induction ls as [|l ls IH]; intros w w' b I F R T; cbn [Offline_Model.run] in R.
  - injection R as <-. unfold cont. rewrite T. reflexivity.
  - destruct F as [F1 F2]. destruct (step w l) as [w1|] eqn:S; [|discriminate]. rewrite (cont_step w l w1 ls I F1 S).
    apply (IH w1 w'); [|exact (F2 _ eq_refl)|exact R|exact T]. exact (proj1 (step_inv GO zero RQ len g0 w l w1 _ I F1 (ex_intro _ (todo RQ len w) (conj eq_refl (fun _ => eq_refl))) S)).
Qed.

Lemma polite_suffix : forall post pre w, polite GO zero RQ channels len g0 (pre ++ post) -> run new pre = Some w -> In Start pre -> fair_run w post.
Proof.
  induction post as [|l post IH]; intros pre w P R I; [exact Logic.I|]. cbn [fair_run].
  assert (P1 : polite GO zero RQ channels len g0 (pre ++ [l])).
  { intros b x a w0 E R0. apply (P b x (a ++ post) w0); [|exact R0]. change (l :: post) with ([l] ++ post). rewrite app_assoc, E, <- app_assoc. reflexivity. }
  split.
  - apply (polite_fair GO zero RQ channels len g0 pre l w P1 R). split; [|intros _; exact I]. intros _.
    destruct (polite_run GO zero RQ channels len g0 pre w (prefix_polite _ _ _ _ _ _ _ _ P1) R) as [(N & _)|(_ & ps & _ & _ & B & _)]; [contradiction|exact (proj1 B)].
  - intros w' S. apply (IH (pre ++ [l]) w').
    + rewrite <- app_assoc. exact P.
    + rewrite run_app, R. cbn [Offline_Model.run]. rewrite S. reflexivity.
    + apply in_or_app. left. exact I.
Qed.

Lemma fair_polite : forall post pre w, polite GO zero RQ channels len g0 pre -> run new pre = Some w -> In Start pre -> fair_run w post -> polite GO zero RQ channels len g0 (pre ++ post).
Proof.
  induction post as [|l post IH]; intros pre w P R I F; [rewrite app_nil_r; exact P|]. destruct F as [F1 F2].
  assert (P1 : polite GO zero RQ channels len g0 (pre ++ [l])).
  { intros b x a w0 E R0. destruct a as [|y a] using rev_ind.
    - apply app_inj_tail in E. destruct E as [<- <-]. rewrite R in R0. injection R0 as <-. destruct l; cbn [fair] in F1; try exact F1.
      + destruct F1. split; assumption.
      + intros _. apply F1. destruct (polite_run GO zero RQ channels len g0 pre w P R) as [(N & _)|(_ & ps & _ & _ & B & _)]; [contradiction|exact (proj1 B)].
    - clear IHa. change (x :: a ++ [y]) with ((x :: a) ++ [y]) in E. rewrite app_assoc in E. apply app_inj_tail in E. destruct E as [-> _]. exact (P b x a w0 eq_refl R0). }
  change (l :: post) with ([l] ++ post). rewrite app_assoc.
  destruct (step w l) as [w'|] eqn:S.
  - apply (IH (pre ++ [l]) w'); [exact P1| |apply in_or_app; left; exact I|apply F2; reflexivity]. rewrite run_app, R. cbn [Offline_Model.run]. rewrite S. reflexivity.
  - intros b x a w0 E R0. destruct (le_lt_dec (length b) (length pre)) as [Le|Gt].
    + assert (exists a', pre ++ [l] = b ++ x :: a') as (a' & Ea).
      { rewrite <- app_assoc in E. cbn [app] in E. exists (firstn (length pre - length b) a).
        assert (X : firstn (length pre + 1) (pre ++ l :: post) = firstn (length pre + 1) (b ++ x :: a)) by (rewrite E; reflexivity).
        rewrite !firstn_app in X. rewrite firstn_all2 in X by lia. replace (length pre + 1 - length pre) with 1 in X by lia. cbn [firstn] in X.
        rewrite firstn_all2 in X by lia. replace (length pre + 1 - length b) with (1 + (length pre - length b)) in X by lia. exact X. }
      exact (P1 b x a' w0 Ea R0).
    + exfalso. assert (exists c, b = (pre ++ [l]) ++ c) as (c & ->).
      { assert (Lp : length (pre ++ [l]) <= length b) by (rewrite app_length; cbn; lia). clear - E Lp. remember (pre ++ [l]) as pl eqn:Epl. clear Epl.
        exists (skipn (length pl) b). assert (X : firstn (length pl) (pl ++ post) = firstn (length pl) (b ++ x :: a)) by (rewrite E; reflexivity).
        rewrite !firstn_app in X. rewrite firstn_all, Nat.sub_diag in X. replace (length pl - length b) with 0 in X by lia. cbn [firstn] in X.
        rewrite !app_nil_r in X. rewrite X at 1. symmetry. apply firstn_skipn. }
      rewrite !run_app, R in R0. cbn [Offline_Model.run] in R0. rewrite S in R0. discriminate.
Qed.

(** ** From the beginning *)
Lemma pre_chan : forall pre w, polite GO zero RQ channels len g0 pre -> run new pre = Some w -> ~ In Start pre ->
  w_chan w = StartupMsg g0 :: gm (hd [] (segments pre)) /\ (forall post, segments (pre ++ Start :: post) = hd [] (segments pre) :: segments post) /\
  (exists s, segments pre = [s]) /\ handled pre = [].
Proof.
  induction pre as [|l pre IH] using rev_ind; intros w P R N.
  - injection R as <-. cbn. repeat split. eexists. reflexivity.
  - rewrite run_app in R. destruct (run new pre) as [w1|] eqn:R1; [|discriminate]. cbn [Offline_Model.run] in R.
    destruct (step w1 l) as [w2|] eqn:S; [|discriminate]. injection R as <-.
    assert (N1 : ~ In Start pre) by (intros X; apply N; apply in_or_app; left; exact X).
    assert (N2 : l <> Start) by (intros ->; apply N; apply in_or_app; right; left; reflexivity).
    destruct (IH w1 (prefix_polite _ _ _ _ _ _ _ _ P) eq_refl N1) as (A & B & (s & Sg) & Hd).
    destruct (polite_run GO zero RQ channels len g0 pre w1 (prefix_polite _ _ _ _ _ _ _ _ P) R1) as [(_ & Bf)|(X & _)]; [|contradiction].
    destruct Bf as (ps & ms & Rn & T & St & K & Ev & Lg & C & Th & Bu & O & ND & Pe & Fu & Sc).
    assert (Seg1 : forall (a b : list label), (exists s, segments a = [s]) -> forall s', segments b = s' :: tl (segments b) -> (forall x, In x a -> x <> Start /\ x <> Resume) -> segments (a ++ b) = (hd [] (segments a) ++ s') :: tl (segments b)).
    { clear. induction a as [|l a IH]; intros b (s & E) s' Eb NS; [cbn [app segments hd]; exact Eb|].
      assert (NS' : forall x, In x a -> x <> Start /\ x <> Resume) by (intros x X; apply NS; right; exact X).
      destruct (NS l (or_introl eq_refl)) as [n1 n2]. destruct (segments_cons a) as (sa & ssa & Ea).
      cbn [app segments] in *. destruct l; try congruence; rewrite ?Ea in *; cbn [hd] in *;
        try (apply (IH b ltac:(eexists; exact E) s' Eb) in NS'; rewrite NS'; rewrite ?Ea; reflexivity).
      injection E as <- ->. apply (IH b ltac:(eexists; reflexivity) s' Eb) in NS'. rewrite NS'. cbn [hd]. rewrite app_assoc. reflexivity. }
    assert (NR : forall x, In x pre -> x <> Start /\ x <> Resume).
    { intros x X. split; [intros ->; contradiction|]. intros ->. apply in_split in X. destruct X as (b & a & E).
      assert (run new b <> None) as Rb by (intros Z; rewrite E, run_app, Z in R1; discriminate). destruct (run new b) as [wb|] eqn:Eb; [|congruence].
      pose proof (P b Resume (a ++ [l]) wb ltac:(rewrite E, <- app_assoc; reflexivity) Eb) as (_ & Y). apply N1. rewrite E. apply in_or_app. left. exact Y. }
    assert (NR' : l <> Resume).
    { intros ->. pose proof (P pre Resume [] w1 eq_refl R1) as (_ & Y). contradiction. }
    assert (Sg' : segments (pre ++ [l]) = [hd [] (segments pre) ++ hd [] (segments [l])]).
    { rewrite (Seg1 pre [l] ltac:(eauto) (hd [] (segments [l])) ltac:(destruct l; try congruence; reflexivity) NR). destruct l; try congruence; reflexivity. }
    assert (NL : forall x, In x (pre ++ [l]) -> x <> Start /\ x <> Resume).
    { intros x X. apply in_app_or in X. destruct X as [X|[<-|[]]]; auto. }
    assert (Post : forall post, segments ((pre ++ [l]) ++ Start :: post) = hd [] (segments (pre ++ [l])) :: segments post).
    { intros post. rewrite (Seg1 (pre ++ [l]) (Start :: post) ltac:(eauto) [] eq_refl NL). cbn [segments tl]. rewrite app_nil_r. reflexivity. }
    assert (Hn : handled (pre ++ [l]) = handled [l]).
    { clear - Hd. induction pre as [|x pre IH]; [reflexivity|]. cbn [app handled] in *. destruct x; try (apply IH; exact Hd). discriminate. }
    split; [|split; [exact Post|split; [eauto|]]].
    + rewrite Sg'. cbn [hd]. rewrite map_app. 
      destruct l as [q|i|i|ms'| | | |evs|ms']; cbn [Offline_Model.step segments hd map] in *; try congruence; try (rewrite T in S; discriminate); rewrite ?app_nil_r.
      * rewrite Rn in S. destruct (insert_suspension q (length (w_futures w1)) ps); injection S as <-; exact A.
      * destruct (nth_error (w_futures w1) i) as [[]|] eqn:En; try discriminate; injection S as <-; [|exact A].
        unfold change_state. destruct (cstate_eqb _ _); exact A.
      * destruct (nth_error (w_futures w1) i) as [[]|] eqn:En; try discriminate; injection S as <-; exact A.
      * injection S as <-. fields. rewrite A. reflexivity.
    + rewrite Hn. destruct l; try reflexivity. cbn [Offline_Model.step] in S. rewrite T in S. discriminate.
Qed.

Lemma start_split : forall ls : list label, In Start ls -> exists pre post, ls = pre ++ Start :: post /\ ~ In Start pre.
Proof.
  induction ls as [|l ls IH]; intros I; [destruct I|]. assert (D : l = Start \/ l <> Start) by (destruct l; (left; reflexivity) || (right; discriminate)).
  destruct D as [->|D]; [exists [], ls; split; [reflexivity|auto]|]. destruct I as [I|I]; [congruence|]. destruct (IH I) as (pre & post & -> & N).
  exists (l :: pre), post. split; [reflexivity|]. intros [X|X]; [congruence|contradiction].
Qed.
Lemma polite_prefix : forall a b, polite GO zero RQ channels len g0 (a ++ b) -> polite GO zero RQ channels len g0 a.
Proof.
  intros a b P x l y w E R. apply (P x l (y ++ b) w); [|exact R]. rewrite E, <- app_assoc. reflexivity.
Qed.

Theorem sound_spec : forall ls w b, polite GO zero RQ channels len g0 ls -> run new ls = Some w -> w_task w = T_done b ->
  exists qs, StronglySorted lt qs /\ (forall q, In q qs <-> In q (scheduled ls)) /\
  exists t' ran, render_audiobuffer GO zero RQ channels len new_thread (StartupMsg g0 :: gm (hd [] (segments ls)))
    (combine qs (map gm (tl (segments ls)))) (map gm (handled ls)) = Some (t', b, ran).
Proof.
  intros ls w b P R T.
  destruct (polite_run GO zero RQ channels len g0 ls w P R) as [(_ & ps & ms & _ & T' & _)|(I & _)]; [congruence|].
  destruct (start_split ls I) as (pre & post & E & N). rewrite E in P, R.
  assert (P1 : polite GO zero RQ channels len g0 (pre ++ [Start])) by (apply (polite_prefix _ post); rewrite <- app_assoc; exact P).
  rewrite run_app in R. destruct (run new pre) as [w1|] eqn:R1; [|discriminate]. cbn [Offline_Model.run] in R.
  destruct (step w1 Start) as [w2|] eqn:S; [|discriminate].
  assert (R2 : run new (pre ++ [Start]) = Some w2) by (rewrite run_app, R1; cbn [Offline_Model.run]; rewrite S; reflexivity).
  assert (Fr : fair_run w2 post) by (apply (polite_suffix post (pre ++ [Start]) w2); [rewrite <- app_assoc; exact P|exact R2|apply in_or_app; right; left; reflexivity]).
  destruct (polite_run GO zero RQ channels len g0 pre w1 (prefix_polite _ _ _ _ _ _ _ _ P1) R1) as [(_ & Bf)|(X & _)]; [|contradiction].
  assert (F : fair w1 Start) by (apply (polite_fair GO zero RQ channels len g0 pre Start w1 P1 R1); split; [contradiction|]; destruct Bf as (? & ? & Rn & _); congruence).
  destruct (before_step GO zero RQ channels len g0 pre w1 Start w2 Bf N F S) as [_ A]. destruct (A eq_refl) as (ps0 & _ & _ & (I2 & _)). clear A.
  pose proof (fair_cont post w2 w b I2 Fr R T) as C.
  destruct (pre_chan pre w1 (prefix_polite _ _ _ _ _ _ _ _ P1) R1 N) as (Ch & Sg & _ & Hd).
  destruct Bf as (ps & ms & Rn & Tn & St & K & Ev & Lg & Cn & Th & Bu & O & ND & Pe & Fu & Sc).
  exists (map fst ps). split; [exact O|]. split.
  { intros q. rewrite Sc, E. rewrite scheduled_app by exact N. cbn [scheduled]. rewrite app_nil_r. reflexivity. }
  cbn [Offline_Model.step] in S. rewrite Rn in S. injection S as <-. unfold change_state in C. fields. rewrite St in C. cbn [cstate_eqb] in C. unfold cont in C. fields.
  rewrite Ch, Th, Bu in C. unfold render_audiobuffer. rewrite E, Sg. cbn [hd tl].
  assert (Hd' : handled (pre ++ Start :: post) = handled post).
  { clear - Hd. induction pre as [|x pre IH]; [reflexivity|]. cbn [app handled] in *. destruct x; try (apply IH; exact Hd). discriminate. }
  rewrite Hd'. destruct (handle_control_messages GO new_thread (StartupMsg g0 :: gm (hd [] (segments pre)))) as [[t1 r1]|]; [|discriminate].
  unfold loop_from in C. rewrite Nat.sub_0_r in C. unfold susp_of in C.
  destruct (offline_loop GO zero RQ n 0 len t1 (repeat [] channels) (combine (map fst ps) (map gm (segments post))) (map gm (handled post))) as [[[t' b'] ran]|]; [|discriminate].
  cbn in C. injection C as ->. eauto.
Qed.

End Offline.
