(** Proofs for Config_Props.v *)
From Coq Require Import List Arith Lia Bool.
From Verif Require Import Quantum_Model Config_Model Config_Spec Quantum_Proofs.
Import ListNotations.

Lemma valid_spec n : valid_number n = true <-> 1 <= n <= 32.
Proof.
  unfold valid_number, max_channels. rewrite andb_true_iff, Nat.ltb_lt, Nat.leb_le. lia.
Qed.
Lemma mode_spec a b : mode_eqb a b = true <-> a = b.
Proof. destruct a, b; cbn; split; congruence. Qed.
Lemma interp_spec a b : interp_eqb a b = true <-> a = b.
Proof. destruct a, b; cbn; split; congruence. Qed.

Lemma construct_allowed k o g : construct k o = Some g -> allowed k g.
Proof.
  unfold construct, from_options, allowed. destruct k as [| |n|n|n m|off mx|].
  - destruct (valid_number (cc_count o)) eqn:V; [|discriminate]. intros [= <-]. apply valid_spec in V. auto.
  - destruct (Nat.leb_spec (cc_count o) 2); [|discriminate]. destruct (mode_eqb (cc_mode o) Max) eqn:M; [discriminate|].
    cbn [andb negb]. destruct (valid_number (cc_count o)) eqn:V; [|discriminate]. intros [= <-]. apply valid_spec in V.
    split; [lia|]. split; [lia|]. intros X. rewrite X in M. discriminate.
  - destruct (valid_number n); [|discriminate]. destruct (Nat.eqb_spec (cc_count o) 1); [|discriminate].
    destruct (mode_eqb (cc_mode o) Explicit) eqn:M; [|discriminate]. cbn [andb].
    destruct (valid_number (cc_count o)) eqn:V; [|discriminate]. intros [= <-]. apply valid_spec in V. apply mode_spec in M. auto.
  - destruct (valid_number n) eqn:N; [|discriminate].
    destruct (if negb (Nat.eqb (cc_count o) default_outputs) then Nat.eqb (cc_count o) n else true); [|discriminate].
    destruct (mode_eqb (cc_mode o) Explicit) eqn:M; [|discriminate]. destruct (interp_eqb (cc_interp o) Discrete) eqn:D; [|discriminate].
    cbn [andb cc_count]. rewrite N. intros [= <-]. apply valid_spec in N. apply mode_spec in M. apply interp_spec in D. cbn. auto.
  - destruct n as [|n].
    + destruct m; [discriminate|]. destruct (valid_number (S m)); [|discriminate]. cbn. intros [= <-]. cbn. repeat split; lia.
    + match goal with |- (if ?b then _ else _) = _ -> _ => assert (V : b = true -> valid_number (S n) = true) by
        (destruct m; [auto|]; intros X; apply andb_true_iff in X; tauto); destruct b; [|discriminate] end.
      specialize (V eq_refl). cbn [Nat.eqb cc_count]. rewrite V. intros X. injection X as <-. apply valid_spec in V. cbn [cc_count cc_mode]. split; [exact V|]. split; [lia|reflexivity].
  - cbn [cc_count]. destruct off.
    + destruct (valid_number mx) eqn:V; [|discriminate]. intros [= <-]. apply valid_spec in V. cbn. auto.
    + destruct (valid_number (Nat.min 2 mx)) eqn:V; [|discriminate]. intros X. assert (X' : g = mk_config (Nat.min 2 mx) Explicit Speakers) by congruence. subst g. apply valid_spec in V. cbn [cc_count]. lia.
  - cbn. intros [= <-]. cbn. repeat split; lia.
Qed.

(** the constraints concern each attribute on its own *)
Lemma allowed_assign k g0 g c : allowed k g0 -> allowed k g -> allowed k (assign c g0) -> allowed k (assign c g).
Proof.
  unfold allowed. destruct k as [| |n|n|n m|[|] mx|], c as [v|m'|i]; cbn; intuition.
Qed.

Lemma check_fine k g0 g c : allowed k g0 -> allowed k g ->
  match check k (cc_count g) c with
  | Rejected => ~ (k <> Fixed /\ allowed k (assign c g0))
  | NoEffect => k <> Fixed /\ allowed k (assign c g0) /\ assign c g = g
  | Proceed => k <> Fixed /\ allowed k (assign c g0)
  end.
Proof.
  destruct g0 as [n0 m0 i0], g as [n m i]. unfold allowed.
  destruct k as [| |p|p|p q|[|] mx|], c as [v|m'|i']; cbn [check check_count check_mode check_interp assign cc_count cc_mode cc_interp negb orb]; intros H0 H;
  repeat match goal with
  | |- context [valid_number v] => let V := fresh "V" in destruct (valid_number v) eqn:V; [apply valid_spec in V|
      assert (~ (1 <= v <= 32)) by (rewrite <- valid_spec; congruence)]
  | |- context [Nat.leb v ?x] => destruct (Nat.leb_spec v x)
  | |- context [Nat.eqb v ?x] => destruct (Nat.eqb_spec v x)
  | |- context [mode_eqb m' ?x] => let V := fresh "V" in destruct (mode_eqb m' x) eqn:V; [apply mode_spec in V|
      assert (m' <> x) by (rewrite <- mode_spec; congruence)]
  | |- context [interp_eqb i' ?x] => let V := fresh "V" in destruct (interp_eqb i' x) eqn:V; [apply interp_spec in V|
      assert (i' <> x) by (rewrite <- interp_spec; congruence)]
  end; cbn [orb negb]; try tauto; try (intuition (congruence || lia));
  try (repeat split; try congruence; try lia; intuition (congruence || lia)).
Qed.

(** ** Lists of threads *)

Lemma put_nth {A} : forall (l : list A) i j x,
  nth_error (put l i x) j = if Nat.eqb i j then (match nth_error l i with Some _ => Some x | None => None end) else nth_error l j.
Proof.
  induction l as [|y l IH]; intros i j x; [destruct i, j; cbn; try reflexivity; destruct (Nat.eqb i j); reflexivity|].
  destruct i as [|i], j as [|j]; cbn; try reflexivity. apply IH.
Qed.
Lemma put_same {A} (l : list A) i x t : nth_error l i = Some t -> nth_error (put l i x) i = Some x.
Proof. intros H. rewrite put_nth, Nat.eqb_refl, H. reflexivity. Qed.
Lemma put_other {A} (l : list A) i j x : i <> j -> nth_error (put l i x) j = nth_error l j.
Proof. intros H. rewrite put_nth. apply Nat.eqb_neq in H. rewrite H. reflexivity. Qed.
Lemma put_length {A} : forall (l : list A) i x, length (put l i x) = length l.
Proof. induction l as [|y l IH]; intros [|i] x; cbn; auto. Qed.

Lemma part_app i a b : part i (a ++ b) = part i a ++ part i b.
Proof. unfold part. rewrite filter_app, map_app. reflexivity. Qed.
Lemma part_one i j c : part i [(j, c)] = if Nat.eqb j i then [c] else [].
Proof. unfold part. cbn. destruct (Nat.eqb j i); reflexivity. Qed.
Lemma accepted_app a b : accepted (a ++ b) = accepted a ++ accepted b.
Proof. unfold accepted. rewrite filter_app, map_app. reflexivity. Qed.
Lemma carried_app a b g : carried_out (a ++ b) g = carried_out b (carried_out a g).
Proof. unfold carried_out. apply fold_left_app. Qed.
Lemma carried_one c g : carried_out [c] g = assign c g.
Proof. reflexivity. Qed.

(** ** The invariant *)

Definition busy (p : pc) : list call :=
  match p with Idle => [] | Ready c | Locked c | Stored c | Sent c => [c] end.
Definition done (p : pc) : list call :=
  match p with Stored c | Sent c => [c] | _ => [] end.
Definition holds (p : pc) : bool :=
  match p with Locked _ | Stored _ | Sent _ => true | _ => false end.
Definition unsent_pc (p : pc) : list call :=
  match p with Stored c => [c] | _ => [] end.
Definition unsent (s : state) : list call :=
  match s_lock s with
  | None => []
  | Some i => match nth_error (s_threads s) i with Some t => unsent_pc (t_pc t) | None => [] end
  end.

Record Inv (k : kind) (g0 : channel_config) (progs : list (list call)) (l : list (nat * call)) (s : state) : Prop := {
  i_len : length (s_threads s) = length progs;
  i_lock : forall i t, nth_error (s_threads s) i = Some t -> holds (t_pc t) = true -> s_lock s = Some i;
  i_held : forall i, s_lock s = Some i -> exists t, nth_error (s_threads s) i = Some t /\ holds (t_pc t) = true;
  i_prog : forall i t, nth_error (s_threads s) i = Some t ->
    nth_error progs i = Some (map fst (t_log t) ++ busy (t_pc t) ++ t_todo t);
  i_out : forall i t, nth_error (s_threads s) i = Some t ->
    Forall (fun x : call * bool => snd x = true <-> k <> Fixed /\ allowed k (assign (fst x) g0)) (t_log t);
  i_busy : forall i t, nth_error (s_threads s) i = Some t -> Forall (fun c => k <> Fixed /\ allowed k (assign c g0)) (busy (t_pc t));
  i_part : forall i t, nth_error (s_threads s) i = Some t -> part i l = accepted (t_log t) ++ done (t_pc t);
  i_who : forall i c, In (i, c) l -> i < length progs;
  i_cfg : s_cfg s = carried_out (map snd l) g0;
  i_sync : s_cfg s = carried_out (s_queue s ++ unsent s) (s_render s);
  i_ok : allowed k (s_cfg s);
  i_render : allowed k (s_render s);
  i_queue : Forall (fun c => allowed k (assign c g0)) (s_queue s);
}.

Lemma inv_start k o g0 progs : construct k o = Some g0 -> Inv k g0 progs [] (start g0 progs).
Proof.
  intros C. apply construct_allowed in C.
  assert (T : forall i t, nth_error (map (fun p => mk_thread p Idle []) progs) i = Some t ->
    exists p, nth_error progs i = Some p /\ t = mk_thread p Idle []).
  { intros i t. rewrite nth_error_map. destruct (nth_error progs i) as [p|]; [|discriminate]. intros [= <-]. eauto. }
  constructor; cbn [start s_cfg s_lock s_queue s_render s_threads]; auto.
  - apply map_length.
  - intros i t H. apply T in H. destruct H as (p & _ & ->). discriminate.
  - discriminate.
  - intros i t H. apply T in H. destruct H as (p & E & ->). exact E.
  - intros i t H. apply T in H. destruct H as (p & _ & ->). constructor.
  - intros i t H. apply T in H. destruct H as (p & _ & ->). constructor.
  - intros i t H. apply T in H. destruct H as (p & _ & ->). reflexivity.
  - intros i c [].
Qed.

(** a thread changed by a step *)
Lemma put_case {A} (l : list A) i x j t : nth_error (put l i x) j = Some t ->
  (j = i /\ t = x) \/ (j <> i /\ nth_error l j = Some t).
Proof.
  rewrite put_nth. destruct (Nat.eqb_spec i j) as [->|N].
  - destruct (nth_error l j); [|discriminate]. intros [= <-]. auto.
  - intros H. right. auto.
Qed.

Lemma nth_len {A} (l : list A) i x : nth_error l i = Some x -> i < length l.
Proof. intros H. apply nth_error_Some. congruence. Qed.

Lemma inv_step k g0 progs l s a s' : allowed k g0 -> Inv k g0 progs l s -> step k s a = Some s' ->
  exists l', Inv k g0 progs l' s'.
Proof.
  intros G H. destruct a as [i|].
  2: { cbn [step]. unfold render_step. destruct (s_queue s) as [|c q] eqn:Q; [discriminate|]. intros [= <-].
       exists l. destruct H. rewrite Q in *. constructor; cbn [s_cfg s_lock s_queue s_render s_threads]; auto.
       - eapply allowed_assign; [exact G|assumption|exact (Forall_inv i_queue0)].
       - exact (Forall_inv_tail i_queue0). }
  cbn [step]. unfold thread_step. destruct (nth_error (s_threads s) i) as [t|] eqn:T; [|discriminate].
  pose proof (i_lock _ _ _ _ _ H i t T) as HL. pose proof (i_prog _ _ _ _ _ H i t T) as HP.
  pose proof (i_out _ _ _ _ _ H i t T) as HO. pose proof (i_busy _ _ _ _ _ H i t T) as HB.
  pose proof (i_part _ _ _ _ _ H i t T) as HQ. pose proof (nth_len _ _ _ T) as HI. rewrite (i_len _ _ _ _ _ H) in HI.
  destruct t as [todo p log]. cbn [t_todo t_pc t_log] in *.
  assert (US : forall x, (s_lock s = Some i -> unsent_pc (t_pc x) = unsent_pc p) ->
    unsent (mk_state (s_cfg s) (s_lock s) (s_queue s) (s_render s) (put (s_threads s) i x)) = unsent s).
  { intros x X. unfold unsent. cbn [s_lock s_threads]. destruct (s_lock s) as [j|] eqn:L; [|reflexivity].
    destruct (Nat.eq_dec i j) as [<-|N].
    - rewrite (put_same _ _ _ _ T), T. cbn [t_pc]. apply X. reflexivity.
    - rewrite put_other by assumption. reflexivity. }
  destruct p as [|c|c|c|c].
  - (* checks *)
    destruct todo as [|c todo]; [discriminate|].
    destruct (reads_config k c && _); [discriminate|]. intros [= <-].
    assert (NL : s_lock s <> Some i).
    { intros X. destruct (i_held _ _ _ _ _ H i X) as (t & T' & Y). rewrite T in T'. injection T' as <-. discriminate. }
    pose proof (check_fine k g0 (s_cfg s) c G (i_ok _ _ _ _ _ H)) as CK.
    cbn [busy app done] in *. rewrite app_nil_r in HQ.
    destruct (check k (cc_count (s_cfg s)) c).
    + exists l. destruct H. constructor; cbn [s_cfg s_lock s_queue s_render s_threads]; auto.
      * rewrite put_length. assumption.
      * intros j t X. apply put_case in X. destruct X as [[-> ->]|[N X]]; [discriminate|]. eapply i_lock0; eassumption.
      * intros j X. destruct (i_held0 j X) as (t & E1 & E2). exists t. split; [|assumption]. rewrite put_other; [assumption|congruence].
      * intros j t X. apply put_case in X. destruct X as [[-> ->]|[N X]]; [|eauto]. cbn [t_log t_pc t_todo busy app].
        rewrite map_app. cbn. rewrite <- app_assoc. exact HP.
      * intros j t X. apply put_case in X. destruct X as [[-> ->]|[N X]]; [|eauto]. cbn [t_log].
        apply Forall_app. split; [assumption|]. constructor; [|constructor]. cbn [fst snd]. split; [discriminate|]. intros Y. destruct (CK Y).
      * intros j t X. apply put_case in X. destruct X as [[-> ->]|[N X]]; [|eauto]. constructor.
      * intros j t X. apply put_case in X. destruct X as [[-> ->]|[N X]]; [|eauto]. cbn [t_log t_pc done].
        rewrite accepted_app. cbn. rewrite !app_nil_r. exact HQ.
      * rewrite US; [assumption|]. intros X. destruct (NL X).
    + destruct CK as (CF & CK & SAME). exists (l ++ [(i, c)]). destruct H. constructor; cbn [s_cfg s_lock s_queue s_render s_threads]; auto.
      * rewrite put_length. assumption.
      * intros j t X. apply put_case in X. destruct X as [[-> ->]|[N X]]; [discriminate|]. eapply i_lock0; eassumption.
      * intros j X. destruct (i_held0 j X) as (t & E1 & E2). exists t. split; [|assumption]. rewrite put_other; [assumption|congruence].
      * intros j t X. apply put_case in X. destruct X as [[-> ->]|[N X]]; [|eauto]. cbn [t_log t_pc t_todo busy app].
        rewrite map_app. cbn. rewrite <- app_assoc. exact HP.
      * intros j t X. apply put_case in X. destruct X as [[-> ->]|[N X]]; [|eauto]. cbn [t_log].
        apply Forall_app. split; [assumption|]. constructor; [|constructor]. cbn [fst snd]. tauto.
      * intros j t X. apply put_case in X. destruct X as [[-> ->]|[N X]]; [|eauto]. constructor.
      * intros j t X. rewrite part_app, part_one. apply put_case in X. destruct X as [[-> ->]|[N X]].
        -- rewrite Nat.eqb_refl. cbn [t_log t_pc done]. rewrite accepted_app, HQ, app_nil_r. reflexivity.
        -- replace (Nat.eqb i j) with false by (symmetry; apply Nat.eqb_neq; congruence). rewrite app_nil_r. eauto.
      * intros j c' X. apply in_app_or in X. destruct X as [X|[X|[]]]; [eauto|]. injection X as <- <-. assumption.
      * rewrite map_app, carried_app, <- i_cfg0. cbn. symmetry. exact SAME.
      * rewrite US; [assumption|]. intros X. destruct (NL X).
    + destruct CK as (CF & CK). exists l. destruct H. constructor; cbn [s_cfg s_lock s_queue s_render s_threads]; auto.
      * rewrite put_length. assumption.
      * intros j t X. apply put_case in X. destruct X as [[-> ->]|[N X]]; [discriminate|]. eapply i_lock0; eassumption.
      * intros j X. destruct (i_held0 j X) as (t & E1 & E2). exists t. split; [|assumption]. rewrite put_other; [assumption|congruence].
      * intros j t X. apply put_case in X. destruct X as [[-> ->]|[N X]]; [|eauto]. exact HP.
      * intros j t X. apply put_case in X. destruct X as [[-> ->]|[N X]]; [|eauto]. assumption.
      * intros j t X. apply put_case in X. destruct X as [[-> ->]|[N X]]; [|eauto]. constructor; [tauto|constructor].
      * intros j t X. apply put_case in X. destruct X as [[-> ->]|[N X]]; [|eauto]. cbn [t_log t_pc done]. rewrite app_nil_r. exact HQ.
      * rewrite US; [assumption|]. intros X. destruct (NL X).
  - (* lock *)
    destruct (s_lock s) as [j|] eqn:L; [discriminate|]. intros [= <-].
    exists l. destruct H. constructor; cbn [s_cfg s_lock s_queue s_render s_threads]; auto.
    + rewrite put_length. assumption.
    + intros j t X Y. apply put_case in X. destruct X as [[-> ->]|[N X]]; [reflexivity|]. rewrite (i_lock0 _ _ X Y) in L. discriminate.
    + intros j [= <-]. eexists. split; [eapply put_same; eassumption|]. reflexivity.
    + intros j t X. apply put_case in X. destruct X as [[-> ->]|[N X]]; [|eauto]. exact HP.
    + intros j t X. apply put_case in X. destruct X as [[-> ->]|[N X]]; [|eauto]. assumption.
    + intros j t X. apply put_case in X. destruct X as [[-> ->]|[N X]]; [|eauto]. assumption.
    + intros j t X. apply put_case in X. destruct X as [[-> ->]|[N X]]; [|eauto]. exact HQ.
    + unfold unsent. cbn [s_lock s_threads]. rewrite (put_same _ _ _ _ T). cbn [t_pc unsent_pc].
      unfold unsent in i_sync0. rewrite L in i_sync0. exact i_sync0.
  - (* store *)
    specialize (HL eq_refl). intros [= <-]. destruct (Forall_inv HB) as (CF & CK).
    exists (l ++ [(i, c)]). destruct H. constructor; cbn [s_cfg s_lock s_queue s_render s_threads]; auto.
    + rewrite put_length. assumption.
    + intros j t X Y. apply put_case in X. destruct X as [[-> ->]|[N X]]; [assumption|eauto].
    + intros j X. rewrite HL in X. injection X as <-. eexists. split; [eapply put_same; eassumption|]. reflexivity.
    + intros j t X. apply put_case in X. destruct X as [[-> ->]|[N X]]; [|eauto]. exact HP.
    + intros j t X. apply put_case in X. destruct X as [[-> ->]|[N X]]; [|eauto]. assumption.
    + intros j t X. apply put_case in X. destruct X as [[-> ->]|[N X]]; [|eauto]. assumption.
    + intros j t X. rewrite part_app, part_one. apply put_case in X. destruct X as [[-> ->]|[N X]].
      * rewrite Nat.eqb_refl. cbn [t_log t_pc done] in *. rewrite HQ, app_nil_r. reflexivity.
      * replace (Nat.eqb i j) with false by (symmetry; apply Nat.eqb_neq; congruence). rewrite app_nil_r. eauto.
    + intros j c' X. apply in_app_or in X. destruct X as [X|[X|[]]]; [eauto|]. injection X as <- <-. assumption.
    + rewrite map_app, carried_app, <- i_cfg0. reflexivity.
    + unfold unsent in *. cbn [s_lock s_threads]. rewrite HL in *. rewrite (put_same _ _ _ _ T). rewrite T in i_sync0.
      cbn [t_pc unsent_pc] in *. rewrite app_nil_r in i_sync0. rewrite carried_app, <- i_sync0. reflexivity.
    + apply (allowed_assign k g0); assumption.
  - (* send *)
    specialize (HL eq_refl). intros [= <-]. destruct (Forall_inv HB) as (CF & CK).
    exists l. destruct H. constructor; cbn [s_cfg s_lock s_queue s_render s_threads]; auto.
    + rewrite put_length. assumption.
    + intros j t X Y. apply put_case in X. destruct X as [[-> ->]|[N X]]; [assumption|eauto].
    + intros j X. rewrite HL in X. injection X as <-. eexists. split; [eapply put_same; eassumption|]. reflexivity.
    + intros j t X. apply put_case in X. destruct X as [[-> ->]|[N X]]; [|eauto]. exact HP.
    + intros j t X. apply put_case in X. destruct X as [[-> ->]|[N X]]; [|eauto]. assumption.
    + intros j t X. apply put_case in X. destruct X as [[-> ->]|[N X]]; [|eauto]. assumption.
    + intros j t X. apply put_case in X. destruct X as [[-> ->]|[N X]]; [|eauto]. exact HQ.
    + unfold unsent in *. cbn [s_lock s_threads]. rewrite HL in *. rewrite (put_same _ _ _ _ T). rewrite T in i_sync0.
      cbn [t_pc unsent_pc] in *. rewrite app_nil_r. exact i_sync0.
    + apply Forall_app. split; [assumption|]. constructor; [exact CK|constructor].
  - (* unlock *)
    specialize (HL eq_refl). intros [= <-]. destruct (Forall_inv HB) as (CF & CK).
    exists l. destruct H. constructor; cbn [s_cfg s_lock s_queue s_render s_threads]; auto.
    + rewrite put_length. assumption.
    + intros j t X Y. apply put_case in X. destruct X as [[-> ->]|[N X]]; [discriminate|]. rewrite (i_lock0 _ _ X Y) in HL. congruence.
    + discriminate.
    + intros j t X. apply put_case in X. destruct X as [[-> ->]|[N X]]; [|eauto]. cbn [t_log t_pc t_todo busy app] in *.
      rewrite map_app. cbn. rewrite <- app_assoc. exact HP.
    + intros j t X. apply put_case in X. destruct X as [[-> ->]|[N X]]; [|eauto]. cbn [t_log].
      apply Forall_app. split; [assumption|]. constructor; [|constructor]. cbn [fst snd]. tauto.
    + intros j t X. apply put_case in X. destruct X as [[-> ->]|[N X]]; [|eauto]. constructor.
    + intros j t X. apply put_case in X. destruct X as [[-> ->]|[N X]]; [|eauto]. cbn [t_log t_pc done] in *.
      rewrite accepted_app, app_nil_r. exact HQ.
    + unfold unsent in *. cbn [s_lock]. rewrite HL, T in i_sync0. exact i_sync0.
Qed.

Lemma inv_run k g0 progs : allowed k g0 -> forall acts l s, Inv k g0 progs l s -> exists l', Inv k g0 progs l' (run k s acts).
Proof.
  intros G. induction acts as [|a acts IH]; intros l s H; [exists l; exact H|]. cbn [run].
  destruct (step k s a) as [s'|] eqn:E; [|eapply IH; exact H].
  destruct (inv_step _ _ _ _ _ _ _ G H E) as (l' & H'). eapply IH; exact H'.
Qed.

Lemma reach k o g0 progs acts : construct k o = Some g0 -> exists l, Inv k g0 progs l (run k (start g0 progs) acts).
Proof.
  intros C. eapply inv_run; [eapply construct_allowed; exact C|]. eapply inv_start; exact C.
Qed.

(** ** Statements *)

Lemma always_allowed k o g0 progs acts : construct k o = Some g0 ->
  let s := run k (start g0 progs) acts in allowed k (s_cfg s) /\ allowed k (s_render s).
Proof. intros C. destruct (reach k o g0 progs acts C) as (l & H). destruct H. split; assumption. Qed.

Lemma verdicts k o g0 progs acts i t c b : construct k o = Some g0 ->
  nth_error (s_threads (run k (start g0 progs) acts)) i = Some t ->
  In (c, b) (t_log t) -> (b = true <-> k <> Fixed /\ allowed k (assign c g0)).
Proof.
  intros C T I. destruct (reach k o g0 progs acts C) as (l & H). pose proof (i_out _ _ _ _ _ H i t T) as F.
  rewrite Forall_forall in F. apply (F (c, b) I).
Qed.

Lemma one_order k o g0 progs acts : construct k o = Some g0 ->
  let s := run k (start g0 progs) acts in finished s ->
  exists l, s_cfg s = carried_out (map snd l) g0 /\
    (forall i c, In (i, c) l -> i < length progs) /\
    forall i p, nth_error progs i = Some p -> exists t, nth_error (s_threads s) i = Some t /\
      map fst (t_log t) = p /\ part i l = accepted (t_log t).
Proof.
  intros C s F. destruct (reach k o g0 progs acts C) as (l & H). fold s in H. exists l.
  split; [apply H|]. split; [apply H|]. intros i p P.
  pose proof (nth_len _ _ _ P) as L. rewrite <- (i_len _ _ _ _ _ H) in L.
  destruct (nth_error (s_threads s) i) as [t|] eqn:T; [|apply nth_error_None in T; lia].
  exists t. split; [reflexivity|]. pose proof (i_prog _ _ _ _ _ H i t T) as HP. pose proof (i_part _ _ _ _ _ H i t T) as HQ.
  destruct (F t (nth_error_In _ _ T)) as (E1 & E2). rewrite E1, E2 in *. cbn in *. rewrite app_nil_r in *.
  split; [congruence|assumption].
Qed.

Lemma in_step k o g0 progs acts : construct k o = Some g0 ->
  let s := run k (start g0 progs) acts in s_queue s = [] -> s_lock s = None -> s_render s = s_cfg s.
Proof.
  intros C s Q L. destruct (reach k o g0 progs acts C) as (l & H). fold s in H.
  pose proof (i_sync _ _ _ _ _ H) as E. unfold unsent in E. rewrite Q, L in E. symmetry. exact E.
Qed.

Lemma finished_free k o g0 progs acts : construct k o = Some g0 ->
  let s := run k (start g0 progs) acts in finished s -> s_lock s = None.
Proof.
  intros C s F. destruct (reach k o g0 progs acts C) as (l & H). fold s in H.
  destruct (s_lock s) as [i|] eqn:L; [|reflexivity]. destruct (i_held _ _ _ _ _ H i L) as (t & T & Y).
  destruct (F t (nth_error_In _ _ T)) as (_ & E). rewrite E in Y. discriminate.
Qed.

Lemma not_stuck k o g0 progs acts : construct k o = Some g0 ->
  let s := run k (start g0 progs) acts in
  finished s \/ exists i s', step k s (Thread i) = Some s'.
Proof.
  intros C s. destruct (reach k o g0 progs acts C) as (l & H). fold s in H.
  destruct (s_lock s) as [i|] eqn:L.
  - right. destruct (i_held _ _ _ _ _ H i L) as (t & T & Y). exists i. cbn [step]. unfold thread_step. rewrite T.
    destruct (t_pc t); try discriminate; eauto.
  - assert (D : finished s \/ exists i t, nth_error (s_threads s) i = Some t /\ ~ (t_todo t = [] /\ t_pc t = Idle)).
    { unfold finished. clear H L. induction (s_threads s) as [|t ts IH]; [left; intros t []|].
      destruct IH as [IH|(i & t' & E & N)].
      - destruct t as [todo p log]. destruct todo as [|c todo].
        2: { right. exists 0, (mk_thread (c :: todo) p log). split; [reflexivity|]. intros [X _]. discriminate. }
        destruct p; [left; intros t [<-|I]; [auto|apply IH, I]|..];
          (right; exists 0; eexists; split; [reflexivity|]; intros [_ X]; discriminate).
      - right. exists (S i), t'. auto. }
    destruct D as [D|(i & t & T & N)]; [left; exact D|right]. exists i. cbn [step]. unfold thread_step. rewrite T, L.
    destruct (t_pc t) eqn:P; [|eauto..]. destruct (t_todo t) as [|c todo] eqn:TD; [destruct N; auto|].
    rewrite andb_false_r. eauto.
Qed.

(** ** The inputs of the processor *)
Section Inputs.
Context {V : Type} (O : sops V) (size : nat).

Lemma fill_len (q : list (chan V)) n : length (fill O size q n) = n.
Proof. unfold fill. rewrite firstn_length, app_length, repeat_length. lia. Qed.

Lemma mix_len s (q : list (chan V)) n i : 1 <= length q -> 1 <= n <= 32 ->
  exists s' q', mix O size s q n i = Some (s', q') /\ length q' = n.
Proof.
  intros L N. unfold mix. destruct (Nat.eqb_spec (length q) n) as [E|E]; [eauto|]. unfold mix_inner.
  replace (Nat.ltb 0 n && Nat.leb n max_channels) with true.
  2: { symmetry. apply andb_true_intro. split; [apply Nat.ltb_lt; lia|apply Nat.leb_le; unfold max_channels; lia]. }
  cbn [negb]. destruct q as [|a q]; [cbn in L; lia|].
  destruct i; [|eexists _, _; split; [reflexivity|apply fill_len]].
  destruct (Nat.ltb_spec 6 (length (a :: q))) as [G|G]; cbn [orb]; [eexists _, _; split; [reflexivity|apply fill_len]|].
  destruct (Nat.ltb_spec 6 n) as [G'|G']; [eexists _, _; split; [reflexivity|apply fill_len]|].
  assert (M6 : n = 1 \/ n = 2 \/ n = 3 \/ n = 4 \/ n = 5 \/ n = 6) by lia. clear N G'.
  destruct q as [|b [|c [|d [|e [|f [|g q]]]]]]; try (cbn in G; lia);
    destruct M6 as [->|[->|[->|[->|[->| ->]]]]]; cbv zeta; try (exfalso; apply E; reflexivity);
    unfold cwrite; (eexists _, _; split; [reflexivity|]); try reflexivity; apply fill_len.
Qed.

Lemma add_zip_len : forall (q1 q2 : list (chan V)) s s' q, add_zip O s q1 q2 = (s', q) -> length q = length q1.
Proof.
  induction q1 as [|a q1 IH]; intros [|b q2] s s' q; cbn [add_zip]; try (intros [= _ <-]; reflexivity).
  destruct (chan_add O s a b) as [s1 c]. destruct (add_zip O s1 q1 q2) as [s2 q'] eqn:E. intros [= _ <-].
  cbn. rewrite (IH _ _ _ _ E). reflexivity.
Qed.

Lemma add_plain_len s (q1 q2 : list (chan V)) n i : 1 <= length q1 -> 1 <= length q2 -> 1 <= n <= 32 ->
  exists s' q', add_plain O size s q1 q2 n i = Some (s', q') /\ length q' = n.
Proof.
  intros L1 L2 N. unfold add_plain. destruct (mix_len s q1 n i L1 N) as (s1 & q1' & -> & E1).
  destruct (mix_len s1 q2 n i L2 N) as (s2 & q2' & -> & E2). destruct (add_zip O s2 q1' q2') as [s3 q3] eqn:E.
  eexists _, _. split; [reflexivity|]. rewrite (add_zip_len _ _ _ _ _ E). exact E1.
Qed.

Lemma add_len s (q1 q2 : list (chan V)) cfg : 1 <= length q1 <= 32 -> 1 <= length q2 <= 32 -> 1 <= cc_count cfg <= 32 ->
  exists s' q', add O size s q1 q2 cfg = Some (s', q') /\ length q' = new_channels cfg (length q1) (length q2) /\ 1 <= length q' <= 32.
Proof.
  intros L1 L2 C. unfold add.
  assert (N : 1 <= new_channels cfg (length q1) (length q2) <= 32) by (unfold new_channels; destruct (cc_mode cfg); lia).
  assert (P : forall i, exists s' q', add_plain O size s q1 q2 (new_channels cfg (length q1) (length q2)) i = Some (s', q') /\
    length q' = new_channels cfg (length q1) (length q2) /\ 1 <= length q' <= 32).
  { intros i. destruct (add_plain_len s q1 q2 _ i (proj1 L1) (proj1 L2) N) as (s' & q' & E & E'). exists s', q'. rewrite E'. auto. }
  destruct (cc_interp cfg); [|apply P].
  destruct q1 as [|a q1]; [cbn in L1; lia|]. destruct q2 as [|b q2]; [cbn in L2; lia|]. cbn [all_channels_identical].
  destruct (forallb _ q1); [|apply P]. destruct (forallb _ q2); [|apply P].
  destruct (chan_add O s a b) as [s1 c].
  destruct (mix_len s1 [c] _ Speakers (le_n 1) N) as (s' & q' & E & E'). exists s', q'. rewrite E'. auto.
Qed.

Lemma add_all_len cfg : 1 <= cc_count cfg <= 32 -> forall qs s (acc : list (chan V)),
  1 <= length acc <= 32 -> Forall (fun q : list (chan V) => 1 <= length q <= 32) qs ->
  exists s' q', add_all O size s acc qs cfg = Some (s', q') /\ 1 <= length q' <= 32 /\
    (length q' = length acc /\ qs = [] \/ qs <> [] /\ match cc_mode cfg with
      | Explicit => length q' = cc_count cfg
      | ClampedMax => length q' <= cc_count cfg
      | Max => True
      end).
Proof.
  intros C. induction qs as [|q qs IH]; intros s acc A F.
  - exists s, acc. split; [reflexivity|]. split; [assumption|]. left. auto.
  - cbn [add_all]. destruct (add_len s acc q cfg A (Forall_inv F) C) as (s1 & q1 & -> & E1 & B1).
    destruct (IH s1 q1 B1 (Forall_inv_tail F)) as (s2 & q2 & E & B2 & D). exists s2, q2. split; [exact E|]. split; [exact B2|].
    right. split; [discriminate|]. destruct D as [[D _]|[_ D]]; [|exact D]. rewrite D, E1. unfold new_channels.
    destruct (cc_mode cfg); lia.
Qed.

(** an input starts as one silent channel *)
Lemma inputs_ok k g s qs : allowed k g -> Forall (fun q : list (chan V) => 1 <= length q <= 32) qs ->
  exists s' q, add_all O size s [silence_chan O size] qs g = Some (s', q) /\ 1 <= length q <= 32 /\
    (qs <> [] -> match k with
     | AtMostTwo => length q <= 2
     | Merger _ | Fixed => length q = 1
     | Splitter outputs => length q = outputs
     | Script inputs _ => length q = Nat.max 1 inputs
     | Destination true max => length q = max
     | Plain | Destination false _ => True
     end) /\
    (qs = [] -> length q = 1).
Proof.
  intros [C A] F. destruct (add_all_len g C qs s [silence_chan O size]) as (s' & q & E & B & D); [cbn; lia|exact F|].
  exists s', q. split; [exact E|]. split; [exact B|]. split.
  - intros N. destruct D as [[_ D]|[_ D]]; [destruct (N D)|].
    destruct k as [| |n|n|n m|[|] mx|]; try exact Logic.I.
    + destruct A as [A1 A2]. destruct (cc_mode g); [congruence|lia|lia].
    + destruct A as [A1 A2]. rewrite A2 in D. lia.
    + destruct A as (A1 & A2 & _). rewrite A2 in D. lia.
    + destruct A as (A1 & A2). rewrite A2 in D. lia.
    + destruct A as (A1 & A2). rewrite A2 in D. lia.
    + destruct A as (A1 & A2 & _). rewrite A2 in D. lia.
  - intros ->. destruct D as [[D _]|[D _]]; [exact D|congruence].
Qed.
End Inputs.
