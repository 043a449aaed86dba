(** Answers of audio-processing callbacks: proofs. *)
From Coq Require Import List Arith Bool Lia Permutation.
From Verif Require Import Answer_Model Answer_Spec.
Import ListNotations.

Definition regs (c : list message) : list nat := flat_map (fun m => match m with Register id _ => [id] | _ => [] end) c.
Definition requests (s : state) (id : nat) (r : request) : Prop := In (id, r) (events s) \/ callback s = Some (id, r) \/ In (Answer id r) (channel s).
Record inv (s : state) : Prop := {
  i_nodup : NoDup (free s ++ regs (channel s) ++ map fst (graph s));
  i_below : forall i, In i (free s ++ regs (channel s) ++ map fst (graph s)) -> i < next_id s;
  i_orphans : forall n, In n (orphans s) \/ In (Handle_dropped n) (channel s) -> nth_error (kinds s) n <> Some Script;
  i_held : forall n, In n (held s) \/ In n (orphans s) \/ In (Handle_dropped n) (channel s) -> n < length (kinds s);
  i_requests : forall id r, requests s id r -> In (id, asked_by r) (graph s) /\ nth_error (kinds s) (asked_by r) = Some Script;
  i_right : answers_right s }.

Lemma has_in n l : has n l = true -> In n l.
Proof. unfold has. intros H. apply existsb_exists in H. destruct H as (x & I & E). apply Nat.eqb_eq in E. subst. exact I. Qed.
Lemma occupant_in id n g : NoDup (map fst g) -> In (id, n) g -> occupant id g = Some n.
Proof.
  unfold occupant. induction g as [|[i m] g IH]; intros D I; [destruct I|]. cbn [find fst]. apply NoDup_cons_iff in D. destruct D as [D1 D2]. destruct (Nat.eqb_spec i id) as [->|N].
  - destruct I as [I|I]; [injection I as ->; reflexivity|]. exfalso. apply D1. apply (in_map fst) in I. exact I.
  - destruct I as [I|I]; [injection I as -> ->; contradiction|]. exact (IH D2 I).
Qed.
Lemma regs_app a b : regs (a ++ b) = regs a ++ regs b. Proof. unfold regs. apply flat_map_app. Qed.
Lemma nodup_app_r {X} (a b : list X) : NoDup (a ++ b) -> NoDup b.
Proof. induction a as [|x a IH]; [auto|]. intros D. apply NoDup_cons_iff in D. apply IH, D. Qed.
Lemma nth_grow {X} (l : list X) x n y : nth_error l n = Some y -> nth_error (l ++ [x]) n = Some y.
Proof. intros E. rewrite nth_error_app1; [exact E|]. apply nth_error_Some. congruence. Qed.
Lemma find_serial n (g : list (nat * nat)) id m : find (fun p => snd p =? n) g = Some (id, m) -> In (id, n) g.
Proof. intros F. apply find_some in F. destruct F as [I E]. cbn in E. apply Nat.eqb_eq in E. subst. exact I. Qed.
Lemma filter_fst n (g : list (nat * nat)) id : NoDup (map fst g) -> In (id, n) g ->
  NoDup (id :: map fst (filter (fun p => negb (snd p =? n)) g)) /\ incl (map fst (filter (fun p => negb (snd p =? n)) g)) (map fst g).
Proof.
  intros D I. assert (Inc : incl (map fst (filter (fun p => negb (snd p =? n)) g)) (map fst g)).
  { intros x X. apply in_map_iff in X. destruct X as (p & <- & P). apply in_map. apply filter_In in P. apply P. }
  split; [|exact Inc]. apply NoDup_cons_iff. split.
  - intros X. apply in_map_iff in X. destruct X as ([i m] & E & P). cbn in E. subst i. apply filter_In in P. destruct P as [P Q]. cbn in Q.
    assert (m = n). { pose proof (occupant_in id m g D P). pose proof (occupant_in id n g D I). congruence. } subst m. rewrite Nat.eqb_refl in Q. discriminate Q.
  - clear I Inc. induction g as [|[i m] g IH]; [constructor|]. apply NoDup_cons_iff in D. destruct D as [D1 D2]. cbn [filter snd]. destruct (negb (m =? n)); [|exact (IH D2)]. cbn [map fst].
    apply NoDup_cons_iff. split; [|exact (IH D2)]. intros X. apply D1. apply in_map_iff in X. destruct X as (p & E & P). cbn [fst]. rewrite <- E. apply (in_map fst). apply filter_In in P. exact (proj1 P).
Qed.

Lemma act_panicked s a s' : act s a = Some s' -> panicked s = false.
Proof. unfold act. destruct (panicked s); [discriminate|reflexivity]. Qed.

Lemma inv_act s a s' : inv s -> (forall n, a = Release n -> nth_error (kinds s) n <> Some Script) -> act s a = Some s' -> inv s'.
Proof.
  intros V K S. pose proof (act_panicked s a s' S) as Pn. destruct V as [D B O H R [P Q]]. unfold act in S. rewrite Pn in S.
  destruct a as [k|n|n| |n b|n| |].
  - (* New *)
    assert (X : exists id next f, (match free s with i :: f => (i, next_id s, f) | [] => (next_id s, next_id s + 1, []) end) = (id, next, f) /\
       NoDup (id :: f ++ regs (channel s) ++ map fst (graph s)) /\ next_id s <= next /\ id < next /\ incl (f ++ regs (channel s) ++ map fst (graph s)) (free s ++ regs (channel s) ++ map fst (graph s))).
    { destruct (free s) as [|i f]; do 3 eexists; (split; [reflexivity|]).
      - split; [|split; [lia|split; [lia|apply incl_refl]]]. apply NoDup_cons_iff. split; [|exact D]. intros X. specialize (B _ X). lia.
      - split; [exact D|]. split; [lia|]. split; [apply B; left; reflexivity|]. intros x X. right. exact X. }
    destruct X as (id & next & f & E & N1 & N2 & N3 & N4). rewrite E in S. injection S as <-.
    assert (Pe : Permutation (id :: f ++ regs (channel s) ++ map fst (graph s)) (f ++ regs (channel s ++ [Register id (length (kinds s))]) ++ map fst (graph s))).
    { rewrite regs_app. cbn [regs flat_map app]. rewrite <- !app_assoc. cbn [app]. rewrite !app_assoc. apply Permutation_middle. }
    split; cbn [free channel graph next_id orphans kinds held events callback delivered panicked].
    + exact (Permutation_NoDup Pe N1).
    + intros i I. apply (Permutation_in _ (Permutation_sym Pe)) in I. destruct I as [<-|I]; [lia|]. specialize (B i (N4 i I)). lia.
    + intros m [I|I]; intros X.
      * destruct (Nat.lt_ge_cases m (length (kinds s))) as [L|L]; [rewrite nth_error_app1 in X by exact L; exact (O m (or_introl I) X)|]. pose proof (H m (or_intror (or_introl I))). lia.
      * apply in_app_or in I. destruct I as [I|[I|[]]]; [|discriminate I]. pose proof (H m (or_intror (or_intror I))) as L. rewrite nth_error_app1 in X by exact L. exact (O m (or_intror I) X).
    + intros m X. rewrite app_length. cbn [length]. destruct X as [[<-|I]|[I|I]]; [lia| | |].
      * pose proof (H m (or_introl I)). lia.
      * pose proof (H m (or_intror (or_introl I))). lia.
      * apply in_app_or in I. destruct I as [I|[I|[]]]; [|discriminate I]. pose proof (H m (or_intror (or_intror I))). lia.
    + intros i r X. assert (Y : requests s i r). { destruct X as [X|[X|X]]; [left; exact X|right; left; exact X|]. cbn [channel] in X. apply in_app_or in X. destruct X as [X|[X|[]]]; [right; right; exact X|discriminate X]. }
      destruct (R i r Y) as [R1 R2]. split; [exact R1|apply nth_grow, R2].
    + split; [reflexivity|exact Q].
  - destruct (nth_error (ids s) n) as [id|]; [|discriminate]. destruct (has n (held s) && is_script s n); [|discriminate]. injection S as <-. split; try assumption. split; [reflexivity|exact Q].
  - (* Release *)
    destruct (has n (held s)) eqn:Hn; [|discriminate]. injection S as <-. apply has_in in Hn.
    split; cbn [free channel graph next_id orphans kinds held events callback delivered panicked].
    + rewrite regs_app. cbn [regs flat_map]. rewrite app_nil_r. exact D.
    + rewrite regs_app. cbn [regs flat_map]. rewrite app_nil_r. exact B.
    + intros m [I|I]; [exact (O m (or_introl I))|]. apply in_app_or in I. destruct I as [I|[I|[]]]; [exact (O m (or_intror I))|]. injection I as <-. exact (K n eq_refl).
    + intros m [I|[I|I]]; [apply filter_In in I; exact (H m (or_introl (proj1 I)))|exact (H m (or_intror (or_introl I)))|].
      apply in_app_or in I. destruct I as [I|[I|[]]]; [exact (H m (or_intror (or_intror I)))|]. injection I as <-. exact (H n (or_introl Hn)).
    + intros i r X. apply R. destruct X as [X|[X|X]]; [left; exact X|right; left; exact X|]. cbn [channel] in X. apply in_app_or in X. destruct X as [X|[X|[]]]; [right; right; exact X|discriminate X].
    + split; [reflexivity|exact Q].
  - (* Receive *)
    destruct (channel s) as [|[id n|n|id r] c] eqn:C; [discriminate| | |].
    + injection S as <-. assert (NI : ~ In id (map fst (graph s))).
      { cbn [regs flat_map app] in D. apply nodup_app_r in D. apply NoDup_cons_iff in D. destruct D as [D _]. intros X. apply D. apply in_or_app. right. exact X. }
      assert (Ins : insert id n (graph s) = (id, n) :: graph s).
      { unfold insert. f_equal. clear -NI. induction (graph s) as [|[i m] g IH]; [reflexivity|]. cbn [filter fst]. destruct (Nat.eqb_spec i id) as [->|N]; [exfalso; apply NI; left; reflexivity|]. cbn [negb]. f_equal. apply IH. intros X. apply NI. right. exact X. }
      assert (Pe : Permutation (free s ++ regs (Register id n :: c) ++ map fst (graph s)) (free s ++ regs c ++ map fst ((id, n) :: graph s))).
      { apply Permutation_app_head. cbn [regs flat_map app map fst]. apply Permutation_middle. }
      split; cbn [free channel graph next_id orphans kinds held events callback delivered panicked]; rewrite ?Ins.
      * exact (Permutation_NoDup Pe D).
      * intros i I. apply B. exact (Permutation_in _ (Permutation_sym Pe) I).
      * intros m [I|I]; apply O; [left; exact I|right; right; exact I].
      * intros m [I|[I|I]]; apply H; [left; exact I|right; left; exact I|right; right; right; exact I].
      * intros i r X. assert (Y : requests s i r) by (destruct X as [X|[X|X]]; [left; exact X|right; left; exact X|right; right; rewrite C; right; exact X]).
        destruct (R i r Y) as [R1 R2]. split; [right; exact R1|exact R2].
      * split; [reflexivity|exact Q].
    + injection S as <-. split; cbn [free channel graph next_id orphans kinds held events callback delivered panicked]; try assumption.
      * intros m [[<-|I]|I]; apply O; [right; left; reflexivity|left; exact I|right; right; exact I].
      * intros m [I|[[<-|I]|I]]; apply H; [left; exact I|right; right; left; reflexivity|right; left; exact I|right; right; right; exact I].
      * intros i r X. apply R. destruct X as [X|[X|X]]; [left; exact X|right; left; exact X|right; right; rewrite C; right; exact X].
      * split; [reflexivity|exact Q].
    + assert (Y : requests s id r) by (right; right; rewrite C; left; reflexivity). destruct (R id r Y) as [R1 R2].
      assert (Dg : NoDup (map fst (graph s))) by (exact (nodup_app_r _ _ (nodup_app_r _ _ D))).
      rewrite (occupant_in id (asked_by r) (graph s) Dg R1) in S. injection S as <-.
      split; cbn [free channel graph next_id orphans kinds held events callback delivered panicked]; try assumption.
      * intros m [I|I]; apply O; [left; exact I|right; right; exact I].
      * intros m [I|[I|I]]; apply H; [left; exact I|right; left; exact I|right; right; right; exact I].
      * intros i q X. apply R. destruct X as [X|[X|X]]; [left; exact X|right; left; exact X|right; right; rewrite C; right; exact X].
      * split; [reflexivity|]. intros m q I. cbn [delivered] in I. apply in_app_or in I. destruct I as [I|[I|[]]]; [exact (Q m q I)|]. injection I as <- <-. reflexivity.
  - (* Ask *)
    destruct (find (fun p => snd p =? n) (graph s)) as [[id m]|] eqn:F; [|discriminate]. destruct (is_script s n) eqn:Sc; [|discriminate]. injection S as <-.
    split; cbn [free channel graph next_id orphans kinds held events callback delivered panicked]; try assumption; [|split; [reflexivity|exact Q]].
    intros i r X. assert (Y : requests s i r \/ (i, r) = (id, mk_request n b)).
    { destruct X as [X|[X|X]]; [|left; right; left; exact X|left; right; right; exact X]. cbn [events] in X. apply in_app_or in X. destruct X as [X|[X|[]]]; [left; left; exact X|right; congruence]. }
    destruct Y as [Y|Y]; [exact (R i r Y)|]. injection Y as -> ->. cbn [asked_by]. split; [exact (find_serial n _ _ _ F)|]. unfold is_script, kind_of in Sc. destruct (nth_error (kinds s) n) as [[]|]; congruence.
  - (* Free *)
    destruct (find (fun p => snd p =? n) (graph s)) as [[id m]|] eqn:F; [|discriminate]. destruct (has n (orphans s)) eqn:Ho; [|discriminate]. injection S as <-.
    apply has_in in Ho. pose proof (O n (or_introl Ho)) as Ns. pose proof (find_serial n _ _ _ F) as In1.
    assert (Dg : NoDup (map fst (graph s))) by (exact (nodup_app_r _ _ (nodup_app_r _ _ D))).
    destruct (filter_fst n (graph s) id Dg In1) as [F1 F2].
    split; cbn [free channel graph next_id orphans kinds held events callback delivered panicked]; try assumption.
    + rewrite <- app_assoc. cbn [app]. apply (Permutation_NoDup (l := id :: free s ++ regs (channel s) ++ map fst (filter (fun p => negb (snd p =? n)) (graph s)))); [apply Permutation_middle|].
      rewrite app_assoc in D. assert (G : forall x, In x (free s ++ regs (channel s)) -> ~ In x (map fst (graph s))).
      { intros x X Y. clear -D X Y. revert D X. induction (free s ++ regs (channel s)) as [|z l IH]; intros D X; [destruct X|]. apply NoDup_cons_iff in D. destruct D as [D1 D2]. destruct X as [->|X]; [apply D1, in_or_app; right; exact Y|exact (IH D2 X)]. }
      rewrite app_assoc. apply NoDup_cons_iff in F1. destruct F1 as [F1 F3]. apply NoDup_cons_iff. split.
      * intros X. apply in_app_or in X. destruct X as [X|X]; [|exact (F1 X)]. apply (G id X). apply (in_map fst) in In1. exact In1.
      * assert (D1 : NoDup (free s ++ regs (channel s))). { clear -D. induction (free s ++ regs (channel s)) as [|z l IH]; [constructor|]. apply NoDup_cons_iff in D. destruct D as [D1 D2]. apply NoDup_cons_iff. split; [intros X; apply D1, in_or_app; left; exact X|exact (IH D2)]. }
        assert (G' : forall x, In x (free s ++ regs (channel s)) -> ~ In x (map fst (filter (fun p => negb (snd p =? n)) (graph s)))) by (intros x X Y; exact (G x X (F2 x Y))).
        clear -D1 G' F3. induction (free s ++ regs (channel s)) as [|z l IH]; [exact F3|]. apply NoDup_cons_iff in D1. destruct D1 as [D1 D2]. cbn [app]. apply NoDup_cons_iff. split.
        -- intros X. apply in_app_or in X. destruct X as [X|X]; [exact (D1 X)|]. exact (G' z (or_introl eq_refl) X).
        -- apply IH; [exact D2|]. intros x X. apply G'. right. exact X.
    + intros i I. rewrite <- app_assoc in I. apply B. apply in_app_or in I. destruct I as [I|I]; [apply in_or_app; left; exact I|]. cbn [app] in I. apply in_or_app. right. destruct I as [<-|I].
      * apply in_or_app. right. apply (in_map fst) in In1. exact In1.
      * apply in_app_or in I. apply in_or_app. destruct I as [I|I]; [left; exact I|right; exact (F2 i I)].
    + intros i r X. destruct (R i r X) as [R1 R2]. split; [|exact R2]. apply filter_In. split; [exact R1|]. cbn [snd]. destruct (Nat.eqb_spec (asked_by r) n) as [E|E]; [|reflexivity]. rewrite E in R2. contradiction.
    + split; [reflexivity|exact Q].
  - destruct (callback s) as [x|] eqn:Cb; [discriminate|]. destruct (events s) as [|[id r] q] eqn:Ev; [discriminate|]. injection S as <-.
    split; cbn [free channel graph next_id orphans kinds held events callback delivered panicked]; try assumption; [|split; [reflexivity|exact Q]].
    intros i p X. apply R. destruct X as [X|[X|X]]; [left; rewrite Ev; right; exact X| |right; right; exact X]. cbn [callback] in X. destruct (has id (handlers s)); [|discriminate X]. injection X as <- <-. left. rewrite Ev. left. reflexivity.
  - destruct (callback s) as [[id r]|] eqn:Cb; [|discriminate]. injection S as <-.
    split; cbn [free channel graph next_id orphans kinds held events callback delivered panicked].
    + rewrite regs_app. cbn [regs flat_map]. rewrite app_nil_r. exact D.
    + rewrite regs_app. cbn [regs flat_map]. rewrite app_nil_r. exact B.
    + intros m [I|I]; apply O; [left; exact I|]. apply in_app_or in I. destruct I as [I|[I|[]]]; [right; exact I|discriminate I].
    + intros m [I|[I|I]]; apply H; [left; exact I|right; left; exact I|]. apply in_app_or in I. destruct I as [I|[I|[]]]; [right; right; exact I|discriminate I].
    + intros i p X. apply R. destruct X as [X|[X|X]]; [left; exact X|discriminate X|]. cbn [channel] in X. apply in_app_or in X. destruct X as [X|[X|[]]]; [right; right; exact X|]. injection X as <- <-. right. left. exact Cb.
    + split; [reflexivity|exact Q].
Qed.
Lemma kinds_act s a s' : act s a = Some s' -> exists t, kinds s' = kinds s ++ t.
Proof.
  intros S. pose proof (act_panicked s a s' S) as Pn. unfold act in S. rewrite Pn in S.
  assert (Z : forall u : state, kinds u = kinds s -> exists t, kinds u = kinds s ++ t) by (intros u ->; exists []; rewrite app_nil_r; reflexivity).
  destruct a as [k|n|n| |n b|n| |].
  - destruct (match free s with i :: f => (i, next_id s, f) | [] => (next_id s, next_id s + 1, []) end) as [[id next] f]. injection S as <-. exists [k]. reflexivity.
  - destruct (nth_error (ids s) n); [|discriminate]. destruct (has n (held s) && is_script s n); [|discriminate]. injection S as <-. apply Z. reflexivity.
  - destruct (has n (held s)); [|discriminate]. injection S as <-. apply Z. reflexivity.
  - destruct (channel s) as [|[id n|n|id r] c]; [discriminate| | |]; try (injection S as <-; apply Z; reflexivity). destruct (occupant id (graph s)); injection S as <-; apply Z; reflexivity.
  - destruct (find (fun p => snd p =? n) (graph s)) as [[id m]|]; [|discriminate]. destruct (is_script s n); [|discriminate]. injection S as <-. apply Z. reflexivity.
  - destruct (find (fun p => snd p =? n) (graph s)) as [[id m]|]; [|discriminate]. destruct (has n (orphans s)); [|discriminate]. injection S as <-. apply Z. reflexivity.
  - destruct (callback s); [discriminate|]. destruct (events s) as [|[id r] q]; [discriminate|]. injection S as <-. apply Z. reflexivity.
  - destruct (callback s) as [[id r]|]; [|discriminate]. injection S as <-. apply Z. reflexivity.
Qed.
Lemma kinds_acts l : forall s s', acts s l = Some s' -> exists t, kinds s' = kinds s ++ t.
Proof.
  induction l as [|a l IH]; intros s s' S; cbn [acts] in S; [injection S as <-; exists []; rewrite app_nil_r; reflexivity|].
  destruct (act s a) as [s1|] eqn:A; [|discriminate]. destruct (kinds_act s a s1 A) as [t T]. destruct (IH s1 s' S) as [u U]. exists (t ++ u). rewrite U, T, app_assoc. reflexivity.
Qed.
Lemma inv_acts l : forall s s', inv s -> keeps_scripts l s' -> acts s l = Some s' -> inv s'.
Proof.
  induction l as [|a l IH]; intros s s' V K S; [cbn [acts] in S; injection S as <-; exact V|]. destruct (kinds_acts (a :: l) s s' S) as [t T]. cbn [acts] in S.
  destruct (act s a) as [s1|] eqn:A; [|discriminate]. apply (IH s1 s'); [|intros n I; apply K; right; exact I|exact S].
  apply (inv_act s a s1 V); [|exact A]. intros n E X. apply (K n); [left; exact E|]. rewrite T, nth_error_app1; [exact X|]. apply nth_error_Some. congruence.
Qed.
Lemma inv_start : inv start.
Proof.
  split; cbn; try (intros; exfalso; tauto).
  - constructor.
  - intros id r [X|[X|X]]; [destruct X|discriminate X|destruct X].
  - split; [reflexivity|intros n r []].
Qed.
Lemma right l s : acts start l = Some s -> keeps_scripts l s -> answers_right s.
Proof. intros S K. exact (i_right _ (inv_acts l _ _ inv_start K S)). Qed.
