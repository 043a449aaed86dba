(** Ids of audio devices. *)
From Coq Require Import List Arith Bool ZArith String Lia.
From Verif Require Import Common_Model Float_Model Buffer_Model Device_Model Device_Spec.
Import ListNotations.
Open Scope Z_scope.

Lemma existsb_In : forall x l, existsb (Z.eqb x) l = true <-> In x l.
Proof.
  intros x l. rewrite existsb_exists. split.
  - intros (y & Hy & E). apply Z.eqb_eq in E. subst. exact Hy.
  - intros H. exists x. split; [exact H | apply Z.eqb_refl].
Qed.

Lemma unused_fresh : forall n id i taken r, unused n id i taken = Ok r -> ~ In r taken.
Proof.
  induction n as [|n IH]; intros id i taken r; cbn [unused].
  - discriminate.
  - destruct (existsb (Z.eqb (id i)) taken) eqn:E.
    + apply IH.
    + intros [= <-] H. apply existsb_In in H. congruence.
Qed.
Lemma unused_finds : forall n f i m taken, Z.of_nat n = 256 - i -> i <= m ->
  (forall j, i <= j <= 255 -> (In (f j) taken <-> j < m)) ->
  unused n f i taken = if m <=? 255 then Ok (f m) else Panic.
Proof.
  induction n as [|n IH]; intros f i m taken Hn Hm H; cbn [unused].
  - destruct (m <=? 255) eqn:E; [apply Z.leb_le in E; lia | reflexivity].
  - destruct (existsb (Z.eqb (f i)) taken) eqn:E.
    + apply existsb_In in E. apply H in E; [|lia].
      apply IH; [lia | lia |]. intros j Hj. apply H. lia.
    + assert (m = i).
      { destruct (Z.eq_dec m i) as [e | n0]; [exact e|].
        assert (In (f i) taken) as Hin by (apply H; lia). apply existsb_In in Hin. congruence. }
      subst m. destruct (i <=? 255) eqn:E'; [reflexivity|]. apply Z.leb_gt in E'. lia.
Qed.

Lemma kind_eqb_eq : forall a b, kind_eqb a b = true <-> a = b.
Proof. intros [] []; cbn; split; congruence. Qed.
Lemma model_eqb_eq : forall a b, model_eqb a b = true <-> a = b.
Proof.
  intros [[k n] c] [[k' n'] c']. cbn [model_eqb]. rewrite !andb_true_iff, kind_eqb_eq, String.eqb_eq, Z.eqb_eq.
  split; [intros [[-> ->] ->]; reflexivity | intros [= -> -> ->]; auto].
Qed.
Lemma count_app : forall w a b, count w (a ++ b) = (count w a + count w b)%nat.
Proof. intros. unfold count. rewrite filter_app, app_length. reflexivity. Qed.
Lemma count_one : forall w k d w', model_of k d = Some w' -> count w [(k, d)] = if model_eqb w w' then 1%nat else 0%nat.
Proof. intros w k d w' E. unfold count. cbn [filter fst snd]. rewrite E. destruct (model_eqb w w'); reflexivity. Qed.
Lemma model_kind : forall k d w, model_of k d = Some w -> fst (fst w) = k.
Proof. intros k d w. unfold model_of. destruct (default_of k d); [|discriminate]. destruct (d_name d); [|discriminate]. intros [= <-]. reflexivity. Qed.

Lemma usable_cons : forall k d ds, usable k (d :: ds) =
  match default_of k d with Some _ => (k, d) :: usable k ds | None => usable k ds end.
Proof. intros. unfold usable. cbn [filter]. destruct (default_of k d); reflexivity. Qed.
Lemma usable_in : forall k ds kd, In kd (usable k ds) -> fst kd = k /\ In (snd kd) ds /\ default_of k (snd kd) <> None.
Proof.
  intros k ds kd H. unfold usable in H. apply in_map_iff in H. destruct H as (d & <- & H). apply filter_In in H.
  destruct H as [H1 H2]. cbn. destruct (default_of k d); [|discriminate]. repeat split; [exact H1 | discriminate].
Qed.

Section One.
Variable hash : kind -> string -> Z -> Z -> Z.
Definition id_of (w : model) (i : Z) : Z := hash (fst (fst w)) (snd (fst w)) (snd w) i.

(** ** Distinct, for every hash *)
Lemma loop_distinct : forall k ds l r, NoDup (map i_id l) ->
  enumerate_loop hash k ds l = Ok (inr r) -> NoDup (map i_id r).
Proof.
  intros k. induction ds as [|d ds IH]; intros l r Hl; cbn [enumerate_loop].
  - intros [= <-]. exact Hl.
  - destruct (default_of k d) as [c|]; [|apply IH; exact Hl].
    unfold attempt, or_error. destruct (d_name d) as [name|]; cbn [bind fine fail]; [|discriminate].
    destruct (stable_id hash k name (f_channels c) (map i_id l)) as [id| |] eqn:E; cbn [bind]; try discriminate.
    apply IH. cbn [map i_id]. constructor; [|exact Hl]. exact (unused_fresh _ _ _ _ _ E).
Qed.
Lemma attempt_inr : forall A B (r : outcome A) (f : A -> outcome B) b, attempt r f = Ok (inr b) ->
  exists a, r = Ok (inr a) /\ f a = Ok (inr b).
Proof. intros A B [[e | a]| |] f b; cbn; try discriminate. intros H. exists a. split; [reflexivity | exact H]. Qed.
Lemma try_enumerate_inr : forall h l, try_enumerate hash h = Ok (inr l) ->
  exists ins outs a b, h_in h = Some ins /\ h_out h = Some outs /\
    enumerate_loop hash AudioInput ins [] = Ok (inr a) /\ enumerate_loop hash AudioOutput outs a = Ok (inr b) /\ l = rev b.
Proof.
  intros h l H. unfold try_enumerate in H.
  apply attempt_inr in H. destruct H as (ins & E1 & H). apply attempt_inr in H. destruct H as (outs & E2 & H).
  apply attempt_inr in H. destruct H as (a & E3 & H). apply attempt_inr in H. destruct H as (b & E4 & H). injection H as <-.
  exists ins, outs, a, b.
  destruct (h_in h) as [x|]; [|discriminate]. injection E1 as <-. destruct (h_out h) as [y|]; [|discriminate]. injection E2 as <-.
  auto.
Qed.
Lemma enumerate_distinct : forall h l, enumerate hash h = Ok l -> NoDup (map i_id l).
Proof.
  intros h l. unfold enumerate. destruct (try_enumerate hash h) as [[e | r]| |] eqn:E; cbn [bind]; try discriminate; intros [= <-].
  - constructor.
  - destruct (try_enumerate_inr h r E) as (ins & outs & a & b & _ & _ & E1 & E2 & ->).
    rewrite map_rev. apply NoDup_rev. eapply loop_distinct; [|exact E2]. eapply loop_distinct; [|exact E1]. constructor.
Qed.

(** ** The ids, when hashes tell apart *)
Section Known.
Variable U : list (kind * device).
Hypothesis apart : forall k d k' d' w w' i i',
    In (k, d) U -> In (k', d') U -> model_of k d = Some w -> model_of k' d' = Some w' ->
    0 <= i <= 255 -> 0 <= i' <= 255 -> id_of w i = id_of w' i' -> w = w' /\ i = i'.
Definition inv (taken : list Z) (before : list (kind * device)) : Prop :=
  forall k d w i, In (k, d) U -> model_of k d = Some w -> 0 <= i <= 255 ->
    (In (id_of w i) taken <-> i < Z.of_nat (count w before)).
Lemma inv_nil : inv [] [].
Proof. intros k d w i _ _ Hi. cbn. lia. Qed.
Lemma inv_stable : forall k d c name taken before, inv taken before -> In (k, d) U ->
  default_of k d = Some c -> d_name d = Some name ->
  stable_id hash k name (f_channels c) taken =
  let m := Z.of_nat (count (k, name, f_channels c) before) in if m <=? 255 then Ok (hash k name (f_channels c) m) else Panic.
Proof.
  intros k d c name taken before H Hin Ec En. unfold stable_id. cbv zeta. apply unused_finds; [reflexivity | lia |].
  intros j Hj. apply (H k d (k, name, f_channels c) j Hin); [|lia]. unfold model_of. rewrite Ec, En. reflexivity.
Qed.
Lemma inv_step : forall k d w taken before, inv taken before -> In (k, d) U -> model_of k d = Some w ->
  (count w before <= 255)%nat -> inv (id_of w (Z.of_nat (count w before)) :: taken) (before ++ [(k, d)]).
Proof.
  intros k d w taken before H Hin Ew Hc k' d' w' i Hin' Ew' Hi.
  rewrite count_app, (count_one _ _ _ _ Ew). cbn [In].
  rewrite (H k' d' w' i Hin' Ew' Hi).
  destruct (model_eqb w' w) eqn:E.
  - apply model_eqb_eq in E. subst w'. split.
    + intros [E | L]; [|lia]. apply (apart k d k' d' w w) in E; try assumption; lia.
    + intros L. assert (i < Z.of_nat (count w before) \/ i = Z.of_nat (count w before)) as [L' | ->] by lia; [right; exact L' | left; reflexivity].
  - split.
    + intros [E' | L]; [|lia]. apply (apart k d k' d' w w') in E'; try assumption; [|lia]. destruct E' as [-> _].
      assert (model_eqb w' w' = true) by (apply model_eqb_eq; reflexivity). congruence.
    + intros L. right. lia.
Qed.

(** the ids the devices [ws] get when [before] have theirs already *)
Fixpoint infos (before ws : list (kind * device)) : list info :=
  match ws with
  | [] => []
  | (k, d) :: ws' =>
      match model_of k d with
      | Some w => mk_info (id_of w (Z.of_nat (count w before))) k (snd (fst w)) :: infos (before ++ [(k, d)]) ws'
      | None => []
      end
  end.
Lemma loop_infos : forall k ds l before r, inv (map i_id l) before -> incl (usable k ds) U ->
  enumerate_loop hash k ds l = Ok (inr r) ->
  r = rev (infos before (usable k ds)) ++ l /\ inv (map i_id r) (before ++ usable k ds) /\
  (forall kd, In kd (usable k ds) -> model_of (fst kd) (snd kd) <> None).
Proof.
  intros k. induction ds as [|d ds IH]; intros l before r Hl Hu.
  - cbn. intros [= <-]. rewrite app_nil_r. split; [reflexivity | split; [exact Hl | contradiction]].
  - cbn [enumerate_loop]. rewrite usable_cons in *. destruct (default_of k d) as [c|] eqn:Ec; [|apply IH; assumption].
    unfold attempt, or_error. destruct (d_name d) as [name|] eqn:En; cbn [bind fine fail]; [|discriminate].
    assert (In (k, d) U) as Hin by (apply Hu; left; reflexivity).
    rewrite (inv_stable _ _ _ _ _ _ Hl Hin Ec En). cbv zeta.
    assert (model_of k d = Some (k, name, f_channels c)) as Ew by (unfold model_of; rewrite Ec, En; reflexivity).
    destruct (Z.of_nat (count (k, name, f_channels c) before) <=? 255) eqn:Hc; cbn [bind]; [|discriminate].
    apply Z.leb_le in Hc. intros E.
    pose proof (inv_step k d (k, name, f_channels c) _ _ Hl Hin Ew ltac:(lia)) as Hl'.
    destruct (IH (mk_info (hash k name (f_channels c) (Z.of_nat (count (k, name, f_channels c) before))) k name :: l) _ r Hl' (fun x Hx => Hu x (or_intror Hx)) E) as (-> & I & N).
    cbn [infos]. rewrite Ew. cbn [snd fst rev]. rewrite <- !app_assoc in *. cbn [app] in *. split; [reflexivity|]. split; [exact I|].
    intros kd [<- | H]; [cbn [fst snd]; rewrite Ew; discriminate | apply N; exact H].
Qed.
(** enough room: no panic *)
Lemma loop_no_panic : forall k ds l before, inv (map i_id l) before -> incl (usable k ds) U ->
  (forall w, (count w (before ++ usable k ds) <= 256)%nat) ->
  exists r, enumerate_loop hash k ds l = Ok r.
Proof.
  intros k. induction ds as [|d ds IH]; intros l before Hl Hu Hc.
  - eexists. reflexivity.
  - cbn [enumerate_loop]. rewrite usable_cons in *. destruct (default_of k d) as [c|] eqn:Ec; [|eapply IH; eassumption].
    unfold attempt, or_error. destruct (d_name d) as [name|] eqn:En; cbn [bind fine fail]; [|eexists; reflexivity].
    assert (In (k, d) U) as Hin by (apply Hu; left; reflexivity).
    rewrite (inv_stable _ _ _ _ _ _ Hl Hin Ec En). cbv zeta.
    assert (model_of k d = Some (k, name, f_channels c)) as Ew by (unfold model_of; rewrite Ec, En; reflexivity).
    assert (count (k, name, f_channels c) before <= 255)%nat as Hb.
    { specialize (Hc (k, name, f_channels c)). change ((k, d) :: usable k ds) with ([(k, d)] ++ usable k ds) in Hc.
      rewrite !count_app, (count_one _ _ _ _ Ew) in Hc. rewrite (proj2 (model_eqb_eq _ _) eq_refl) in Hc. lia. }
    destruct (Z.of_nat (count (k, name, f_channels c) before) <=? 255) eqn:Hd; [|apply Z.leb_gt in Hd; lia]. cbn [bind].
    pose proof (inv_step k d (k, name, f_channels c) _ _ Hl Hin Ew Hb) as Hl'.
    apply (IH (mk_info (hash k name (f_channels c) (Z.of_nat (count (k, name, f_channels c) before))) k name :: l) (before ++ [(k, d)]) Hl'
             (fun x Hx => Hu x (or_intror Hx))).
    intros w. rewrite <- app_assoc. apply Hc.
Qed.

(** looking a device up *)
Lemma lookup_finds : forall k ds seen before i d e, inv seen before -> incl (usable k ds) U ->
  (forall kd, In kd (usable k ds) -> model_of (fst kd) (snd kd) <> None) ->
  (forall w, (count w (before ++ usable k ds) <= 256)%nat) ->
  nth_error (usable k ds) i = Some (k, d) -> nth_error (infos before (usable k ds)) i = Some e ->
  lookup_loop hash k ds (i_id e) seen = Ok (inr (Some d)).
Proof.
  intros k. induction ds as [|d0 ds IH]; intros seen before i d e Hs Hu Hm Hc Hn He.
  - cbn in Hn. destruct i; discriminate.
  - cbn [lookup_loop]. rewrite usable_cons in *. destruct (default_of k d0) as [c|] eqn:Ec; [|eapply IH; eassumption].
    unfold attempt, or_error. destruct (d_name d0) as [name|] eqn:En.
    2: { exfalso. apply (Hm (k, d0) (or_introl eq_refl)). cbn [fst snd]. unfold model_of. rewrite Ec, En. reflexivity. }
    cbn [bind fine].
    assert (In (k, d0) U) as Hin by (apply Hu; left; reflexivity).
    rewrite (inv_stable _ _ _ _ _ _ Hs Hin Ec En). cbv zeta.
    assert (model_of k d0 = Some (k, name, f_channels c)) as Ew by (unfold model_of; rewrite Ec, En; reflexivity).
    assert (count (k, name, f_channels c) before <= 255)%nat as Hb.
    { pose proof (Hc (k, name, f_channels c)) as Hc'. change ((k, d0) :: usable k ds) with ([(k, d0)] ++ usable k ds) in Hc'.
      rewrite !count_app, (count_one _ _ _ _ Ew), (proj2 (model_eqb_eq _ _) eq_refl) in Hc'. lia. }
    destruct (Z.of_nat (count (k, name, f_channels c) before) <=? 255) eqn:Hd; [|apply Z.leb_gt in Hd; lia]. cbn [bind].
    cbn [infos] in He. rewrite Ew in He. cbn [fst snd] in He.
    destruct i as [|i]; cbn [nth_error] in Hn, He.
    + injection Hn as <-. injection He as <-. cbn [i_id]. unfold id_of. cbn [fst snd]. rewrite Z.eqb_refl. reflexivity.
    + pose proof (inv_step k d0 (k, name, f_channels c) _ _ Hs Hin Ew Hb) as Hs'.
      assert (exists w', model_of k d = Some w' /\ exists n, (n <= 255)%nat /\ i_id e = id_of w' (Z.of_nat n) /\
                (count w' (before ++ [(k, d0)]) <= n)%nat) as (w' & Ew' & n & Hn255 & Ee & Hge).
      { assert (In (k, d) (usable k ds)) as Hin' by (eapply nth_error_In; exact Hn).
        destruct (model_of k d) as [w'|] eqn:Ew'; [|exfalso; apply (Hm _ (or_intror Hin')); exact Ew'].
        exists w'. split; [reflexivity|].
        clear - He Hn Ew' Hc Hm. 
        change ((k, d0) :: usable k ds) with ([(k, d0)] ++ usable k ds) in Hc.
        assert (forall w, (count w ((before ++ [(k, d0)]) ++ usable k ds) <= 256)%nat) as Hc2 by (intros w; rewrite <- app_assoc; apply Hc).
        assert (forall kd, In kd (usable k ds) -> model_of (fst kd) (snd kd) <> None) as Hm2 by (intros kd H; apply Hm; right; exact H).
        clear Hc Hm. revert Hm2 Hc2 He Hn. generalize (before ++ [(k, d0)]). generalize (usable k ds). clear - Ew'. revert i.
        induction i as [|i IH]; intros ws b Hm Hc He Hn.
        - destruct ws as [|[k1 d1] ws]; [discriminate|]. cbn in Hn. injection Hn as -> ->. cbn [infos] in He. rewrite Ew' in He. cbn in He. injection He as <-.
          exists (count w' b). cbn [i_id]. split; [|split; [reflexivity | lia]].
          specialize (Hc w'). change ((k, d) :: ws) with ([(k, d)] ++ ws) in Hc. rewrite !count_app, (count_one _ _ _ _ Ew'), (proj2 (model_eqb_eq _ _) eq_refl) in Hc. lia.
        - destruct ws as [|[k1 d1] ws]; [discriminate|]. cbn [nth_error] in Hn. cbn [infos] in He.
          destruct (model_of k1 d1) as [w1|] eqn:E1; [|discriminate]. cbn [nth_error] in He.
          destruct (IH ws (b ++ [(k1, d1)]) (fun kd H => Hm kd (or_intror H)) ltac:(intros w; rewrite <- app_assoc; apply Hc) He Hn) as (n & L & E & G).
          exists n. split; [exact L | split; [exact E|]]. rewrite count_app in G. lia. }
      destruct (hash k name (f_channels c) (Z.of_nat (count (k, name, f_channels c) before)) =? i_id e) eqn:Eq.
      * apply Z.eqb_eq in Eq. rewrite Ee in Eq.
        change (hash k name (f_channels c) (Z.of_nat (count (k, name, f_channels c) before))) with (id_of (k, name, f_channels c) (Z.of_nat (count (k, name, f_channels c) before))) in Eq.
        apply (apart k d0 k d _ w') in Eq; try assumption; try lia.
        2: { apply Hu. right. eapply nth_error_In. exact Hn. }
        destruct Eq as [<- Eq]. rewrite count_app, (count_one _ _ _ _ Ew), (proj2 (model_eqb_eq _ _) eq_refl) in Hge. lia.
      * apply (IH _ (before ++ [(k, d0)]) i d e Hs' (fun x Hx => Hu x (or_intror Hx)) (fun kd H => Hm kd (or_intror H))); [|exact Hn | exact He].
        intros w. rewrite <- app_assoc. apply Hc.
Qed.
(** an id no device has is not found *)
Lemma lookup_misses : forall k ds seen before id, inv seen before -> incl (usable k ds) U ->
  (forall kd, In kd (usable k ds) -> model_of (fst kd) (snd kd) <> None) ->
  (forall w, (count w (before ++ usable k ds) <= 256)%nat) ->
  ~ In id (map i_id (infos before (usable k ds))) ->
  lookup_loop hash k ds id seen = Ok (inr None).
Proof.
  intros k. induction ds as [|d0 ds IH]; intros seen before id Hs Hu Hm Hc He.
  - reflexivity.
  - cbn [lookup_loop]. rewrite usable_cons in *. destruct (default_of k d0) as [c|] eqn:Ec; [|eapply IH; eassumption].
    unfold attempt, or_error. destruct (d_name d0) as [name|] eqn:En.
    2: { exfalso. apply (Hm (k, d0) (or_introl eq_refl)). cbn [fst snd]. unfold model_of. rewrite Ec, En. reflexivity. }
    cbn [bind fine].
    assert (In (k, d0) U) as Hin by (apply Hu; left; reflexivity).
    rewrite (inv_stable _ _ _ _ _ _ Hs Hin Ec En). cbv zeta.
    assert (model_of k d0 = Some (k, name, f_channels c)) as Ew by (unfold model_of; rewrite Ec, En; reflexivity).
    assert (count (k, name, f_channels c) before <= 255)%nat as Hb.
    { pose proof (Hc (k, name, f_channels c)) as Hc'. change ((k, d0) :: usable k ds) with ([(k, d0)] ++ usable k ds) in Hc'.
      rewrite !count_app, (count_one _ _ _ _ Ew), (proj2 (model_eqb_eq _ _) eq_refl) in Hc'. lia. }
    destruct (Z.of_nat (count (k, name, f_channels c) before) <=? 255) eqn:Hd; [|apply Z.leb_gt in Hd; lia]. cbn [bind].
    cbn [infos] in He. rewrite Ew in He. cbn [fst snd map i_id] in He.
    destruct (hash k name (f_channels c) (Z.of_nat (count (k, name, f_channels c) before)) =? id) eqn:Eq.
    + exfalso. apply He. left. apply Z.eqb_eq. exact Eq.
    + pose proof (inv_step k d0 (k, name, f_channels c) _ _ Hs Hin Ew Hb) as Hs'.
      apply (IH _ (before ++ [(k, d0)]) id Hs' (fun x Hx => Hu x (or_intror Hx)) (fun kd H => Hm kd (or_intror H))).
      * intros w. rewrite <- app_assoc. apply Hc.
      * intros H. apply He. right. exact H.
Qed.
End Known.

(** only the devices of the same kind count *)
Lemma count_other : forall w k ds, fst (fst w) <> k -> count w (usable k ds) = 0%nat.
Proof.
  intros w k ds H. unfold count.
  assert (forall l, (forall kd, In kd l -> fst kd = k) ->
    filter (fun kd => match model_of (fst kd) (snd kd) with Some w' => model_eqb w w' | None => false end) l = []) as G.
  { induction l as [|[k' d] l IH]; intros Hl; [reflexivity|]. cbn [filter fst snd].
    pose proof (Hl _ (or_introl eq_refl)) as E. cbn in E. subst k'.
    rewrite (IH (fun kd Hkd => Hl kd (or_intror Hkd))).
    destruct (model_of k d) as [w'|] eqn:Ew; [|reflexivity].
    destruct (model_eqb w w') eqn:E; [|reflexivity]. apply model_eqb_eq in E. subst w'. apply model_kind in Ew. contradiction. }
  rewrite G; [reflexivity|]. intros kd Hkd. apply usable_in in Hkd. apply Hkd.
Qed.
Lemma infos_ext : forall ws before before',
  (forall kd w, In kd ws -> model_of (fst kd) (snd kd) = Some w -> count w before = count w before') ->
  infos before ws = infos before' ws.
Proof.
  induction ws as [|[k d] ws IH]; intros b b' H; [reflexivity|]. cbn [infos].
  destruct (model_of k d) as [w|] eqn:E; [|reflexivity].
  rewrite (H (k, d) w (or_introl eq_refl) E).
  rewrite (IH (b ++ [(k, d)]) (b' ++ [(k, d)])); [reflexivity|].
  intros kd w' Hk Ew. rewrite !count_app. rewrite (H kd w' (or_intror Hk) Ew). reflexivity.
Qed.
Lemma infos_app : forall a before b, (forall kd, In kd a -> model_of (fst kd) (snd kd) <> None) ->
  infos before (a ++ b) = infos before a ++ infos (before ++ a) b.
Proof.
  induction a as [|[k d] a IH]; intros before b H.
  - cbn. rewrite app_nil_r. reflexivity.
  - cbn [infos app]. destruct (model_of k d) as [w|] eqn:E; [|exfalso; apply (H _ (or_introl eq_refl)); exact E].
    rewrite IH by (intros kd Hk; apply H; right; exact Hk). rewrite <- app_assoc. reflexivity.
Qed.
Lemma infos_nth : forall ws before i k d w, (forall kd, In kd ws -> model_of (fst kd) (snd kd) <> None) ->
  nth_error ws i = Some (k, d) -> model_of k d = Some w ->
  nth_error (infos before ws) i = Some (mk_info (id_of w (Z.of_nat (count w (before ++ firstn i ws)))) k (snd (fst w))).
Proof.
  induction ws as [|[k0 d0] ws IH]; intros before i k d w Hm Hn Ew; [destruct i; discriminate|].
  cbn [infos]. destruct (model_of k0 d0) as [w0|] eqn:E0; [|exfalso; apply (Hm _ (or_introl eq_refl)); exact E0].
  destruct i as [|i]; cbn [nth_error firstn] in *.
  - injection Hn as -> ->. rewrite Ew in E0. injection E0 as <-. rewrite app_nil_r. reflexivity.
  - rewrite (IH (before ++ [(k0, d0)]) i k d w (fun kd H => Hm kd (or_intror H)) Hn Ew). rewrite <- app_assoc. reflexivity.
Qed.
Lemma infos_length : forall ws before, (forall kd, In kd ws -> model_of (fst kd) (snd kd) <> None) -> List.length (infos before ws) = List.length ws.
Proof.
  induction ws as [|[k0 d0] ws IH]; intros before Hm; [reflexivity|].
  cbn [infos]. destruct (model_of k0 d0) as [w0|] eqn:E0; [|exfalso; apply (Hm _ (or_introl eq_refl)); exact E0].
  cbn [List.length]. rewrite IH; [reflexivity | intros kd H; apply Hm; right; exact H].
Qed.

Lemma enumerate_infos : forall h l, tells_apart hash h -> try_enumerate hash h = Ok (inr l) ->
  l = infos [] (devices h) /\ (forall kd, In kd (devices h) -> model_of (fst kd) (snd kd) <> None).
Proof.
  intros h l HA H. destruct (try_enumerate_inr h l H) as (ins & outs & a & b & Ei & Eo & E1 & E2 & ->).
  assert (devices h = usable AudioInput ins ++ usable AudioOutput outs) as ED by (unfold devices; rewrite Ei, Eo; reflexivity).
  destruct (loop_infos (devices h) HA AudioInput ins [] [] a (inv_nil _)) as (Ea & Ia & Ma); [rewrite ED; apply incl_appl, incl_refl | exact E1|].
  cbn [app] in Ia. rewrite app_nil_r in Ea.
  destruct (loop_infos (devices h) HA AudioOutput outs a _ b Ia) as (Eb & _ & Mb); [rewrite ED; apply incl_appr, incl_refl | exact E2|].
  rewrite ED, infos_app by exact Ma. split.
  - rewrite Eb, Ea, rev_app_distr, !rev_involutive. reflexivity.
  - intros kd Hk. apply in_app_or in Hk. destruct Hk as [Hk | Hk]; [apply Ma | apply Mb]; exact Hk.
Qed.
Lemma enumerate_ids : forall h l, tells_apart hash h -> try_enumerate hash h = Ok (inr l) ->
  List.length l = List.length (devices h) /\
  forall i k d, nth_error (devices h) i = Some (k, d) ->
    exists name c, d_name d = Some name /\ default_of k d = Some c /\
      nth_error l i = Some (mk_info (hash k name (f_channels c) (Z.of_nat (count (k, name, f_channels c) (firstn i (devices h))))) k name).
Proof.
  intros h l HA H. destruct (enumerate_infos h l HA H) as [-> Hm]. split; [apply infos_length; exact Hm|].
  intros i k d Hn. pose proof (Hm _ (nth_error_In _ _ Hn)) as N. cbn [fst snd] in N.
  destruct (model_of k d) as [w|] eqn:Ew; [|contradiction].
  pose proof (infos_nth _ [] i k d w Hm Hn Ew) as E. cbn [app] in E.
  unfold model_of in Ew. destruct (default_of k d) as [c|]; [|discriminate]. destruct (d_name d) as [name|]; [|discriminate].
  injection Ew as <-. exists name, c. auto.
Qed.
Lemma enumerate_no_panic : forall h, tells_apart hash h -> few_twins h -> exists l, enumerate hash h = Ok l.
Proof.
  intros h HA HF. unfold enumerate, try_enumerate, attempt, or_error.
  destruct (h_in h) as [ins|] eqn:Ei; cbn [bind fine fail]; [|eexists; reflexivity].
  destruct (h_out h) as [outs|] eqn:Eo; cbn [bind fine fail]; [|eexists; reflexivity].
  assert (devices h = usable AudioInput ins ++ usable AudioOutput outs) as ED by (unfold devices; rewrite Ei, Eo; reflexivity).
  destruct (loop_no_panic (devices h) HA AudioInput ins [] [] (inv_nil _)) as (a & Ea).
  { rewrite ED. apply incl_appl, incl_refl. }
  { intros w. cbn [app]. specialize (HF w). rewrite ED, count_app in HF. lia. }
  rewrite Ea. destruct a as [e | a]; cbn [bind fail]; [eexists; reflexivity|].
  destruct (loop_infos (devices h) HA AudioInput ins [] [] a (inv_nil _)) as (_ & Ia & _); [rewrite ED; apply incl_appl, incl_refl | exact Ea|].
  cbn [app] in Ia.
  destruct (loop_no_panic (devices h) HA AudioOutput outs a _ Ia) as (b & Eb).
  { rewrite ED. apply incl_appr, incl_refl. }
  { intros w. rewrite <- ED. apply HF. }
  rewrite Eb. destruct b as [e | b]; cbn [bind fail]; eexists; reflexivity.
Qed.
(** success means there are no more than 256 twins *)
Lemma inv_few : forall h l, tells_apart hash h -> try_enumerate hash h = Ok (inr l) -> few_twins h.
Proof.
  intros h l HA H. destruct (try_enumerate_inr h l H) as (ins & outs & a & b & Ei & Eo & E1 & E2 & ->).
  assert (devices h = usable AudioInput ins ++ usable AudioOutput outs) as ED by (unfold devices; rewrite Ei, Eo; reflexivity).
  assert (forall k ds l before r, inv (devices h) (map i_id l) before -> incl (usable k ds) (devices h) ->
    (forall w, (count w before <= 256)%nat) -> enumerate_loop hash k ds l = Ok (inr r) -> forall w, (count w (before ++ usable k ds) <= 256)%nat) as G.
  { clear - HA. intros k. induction ds as [|d ds IH]; intros l before r Hl Hu Hc.
    - intros _ w. rewrite app_nil_r. apply Hc.
    - cbn [enumerate_loop]. rewrite usable_cons in *. destruct (default_of k d) as [c|] eqn:Ec; [|eapply IH; eassumption].
      unfold attempt, or_error. destruct (d_name d) as [name|] eqn:En; cbn [bind fine fail]; [|discriminate].
      assert (In (k, d) (devices h)) as Hin by (apply Hu; left; reflexivity).
      rewrite (inv_stable (devices h) _ _ _ _ _ _ Hl Hin Ec En). cbv zeta.
      assert (model_of k d = Some (k, name, f_channels c)) as Ew by (unfold model_of; rewrite Ec, En; reflexivity).
      destruct (Z.of_nat (count (k, name, f_channels c) before) <=? 255) eqn:Hd; cbn [bind]; [|discriminate].
      apply Z.leb_le in Hd. intros E.
      pose proof (inv_step (devices h) HA k d (k, name, f_channels c) _ _ Hl Hin Ew ltac:(lia)) as Hl'.
      assert (forall w, (count w (before ++ [(k, d)]) <= 256)%nat) as Hc'.
      { intros w. rewrite count_app, (count_one _ _ _ _ Ew). destruct (model_eqb w (k, name, f_channels c)) eqn:Em.
        - apply model_eqb_eq in Em. subst w. lia.
        - specialize (Hc w). lia. }
      intros w. change ((k, d) :: usable k ds) with ([(k, d)] ++ usable k ds). rewrite app_assoc.
      exact (IH (mk_info (hash k name (f_channels c) (Z.of_nat (count (k, name, f_channels c) before))) k name :: l) _ r Hl' (fun x Hx => Hu x (or_intror Hx)) Hc' E w). }
  destruct (loop_infos (devices h) HA AudioInput ins [] [] a (inv_nil _)) as (_ & Ia & _); [rewrite ED; apply incl_appl, incl_refl | exact E1|].
  cbn [app] in Ia. intros w. rewrite ED.
  apply (G AudioOutput outs a (usable AudioInput ins) b Ia); [rewrite ED; apply incl_appr, incl_refl | | exact E2].
  intros w'. apply (G AudioInput ins [] [] a (inv_nil _)); [rewrite ED; apply incl_appl, incl_refl | intros; cbn; lia | exact E1].
Qed.
(** the part of the list that belongs to one kind *)
Lemma enumerate_selects : forall h l i k d e, tells_apart hash h -> try_enumerate hash h = Ok (inr l) ->
  nth_error (devices h) i = Some (k, d) -> nth_error l i = Some e ->
  device_for_id hash h k (i_id e) = Ok (inr (Some d)).
Proof.
  intros h l i k d e HA H Hn He. pose proof (inv_few h l HA H) as HF.
  destruct (enumerate_infos h l HA H) as [-> Hm].
  destruct (try_enumerate_inr h _ H) as (ins & outs & _ & _ & Ei & Eo & _).
  assert (devices h = usable AudioInput ins ++ usable AudioOutput outs) as ED by (unfold devices; rewrite Ei, Eo; reflexivity).
  rewrite ED in Hn, He, Hm.
  rewrite infos_app in He by (intros kd Hk; apply Hm, in_or_app; left; exact Hk). cbn [app] in He.
  assert (forall w, count w (devices h) = (count w (usable AudioInput ins) + count w (usable AudioOutput outs))%nat) as HC by (intros; rewrite ED; apply count_app).
  destruct (Nat.lt_ge_cases i (List.length (usable AudioInput ins))) as [L | L].
  - rewrite nth_error_app1 in Hn by exact L.
    rewrite nth_error_app1 in He by (rewrite infos_length; [exact L | intros kd Hk; apply Hm, in_or_app; left; exact Hk]).
    assert (k = AudioInput) as -> by (apply nth_error_In, usable_in in Hn; apply Hn).
    unfold device_for_id, attempt, or_error. rewrite Ei. cbn [bind fine].
    apply (lookup_finds (devices h) HA AudioInput ins [] [] i d e (inv_nil _)); try assumption.
    + rewrite ED. apply incl_appl, incl_refl.
    + intros kd Hk. apply Hm, in_or_app. left. exact Hk.
    + intros w. cbn [app]. specialize (HF w). rewrite HC in HF. lia.
  - rewrite nth_error_app2 in Hn by exact L.
    rewrite nth_error_app2 in He by (rewrite infos_length; [exact L | intros kd Hk; apply Hm, in_or_app; left; exact Hk]).
    rewrite infos_length in He by (intros kd Hk; apply Hm, in_or_app; left; exact Hk).
    assert (k = AudioOutput) as -> by (apply nth_error_In, usable_in in Hn; apply Hn).
    rewrite (infos_ext _ _ []) in He.
    2: { intros kd w Hk Ew. cbn. apply count_other. rewrite (model_kind _ _ _ Ew). apply usable_in in Hk. destruct Hk as [-> _]. discriminate. }
    unfold device_for_id, attempt, or_error. rewrite Eo. cbn [bind fine].
    apply (lookup_finds (devices h) HA AudioOutput outs [] [] (i - List.length (usable AudioInput ins)) d e (inv_nil _)); try assumption.
    + rewrite ED. apply incl_appr, incl_refl.
    + intros kd Hk. apply Hm, in_or_app. right. exact Hk.
    + intros w. cbn [app]. specialize (HF w). rewrite HC in HF. lia.
Qed.
Lemma infos_kind : forall k ds before e, In e (infos before (usable k ds)) -> i_kind e = k.
Proof.
  intros k ds. assert (forall kd, In kd (usable k ds) -> fst kd = k) as G by (intros kd H; apply usable_in in H; apply H).
  revert G. generalize (usable k ds). induction l as [|[k0 d0] ws IH]; intros G before e; [contradiction|]. cbn [infos].
  destruct (model_of k0 d0); [|contradiction]. intros [<- | H].
  - cbn [i_kind]. exact (G _ (or_introl eq_refl)).
  - exact (IH (fun kd Hk => G kd (or_intror Hk)) _ _ H).
Qed.
(** ids that are not in the list for this kind *)
Lemma enumerate_misses : forall h l k id, tells_apart hash h -> try_enumerate hash h = Ok (inr l) ->
  (forall e, In e l -> i_kind e = k -> i_id e <> id) -> device_for_id hash h k id = Ok (inr None).
Proof.
  intros h l k id HA H HN. pose proof (inv_few h l HA H) as HF.
  destruct (enumerate_infos h l HA H) as [-> Hm].
  destruct (try_enumerate_inr h _ H) as (ins & outs & _ & _ & Ei & Eo & _).
  assert (devices h = usable AudioInput ins ++ usable AudioOutput outs) as ED by (unfold devices; rewrite Ei, Eo; reflexivity).
  rewrite ED in HN, Hm. rewrite infos_app in HN by (intros kd Hk; apply Hm, in_or_app; left; exact Hk). cbn [app] in HN.
  assert (forall w, count w (devices h) = (count w (usable AudioInput ins) + count w (usable AudioOutput outs))%nat) as HC by (intros; rewrite ED; apply count_app).
  unfold device_for_id, attempt, or_error. destruct k.
  - reflexivity.
  - rewrite Ei. cbn [bind fine]. apply (lookup_misses (devices h) HA AudioInput ins [] [] id (inv_nil _)).
    + rewrite ED. apply incl_appl, incl_refl.
    + intros kd Hk. apply Hm, in_or_app. left. exact Hk.
    + intros w. cbn [app]. specialize (HF w). rewrite HC in HF. lia.
    + intros Hin. apply in_map_iff in Hin. destruct Hin as (e & <- & Hin). apply (HN e); [apply in_or_app; left; exact Hin | | reflexivity].
      exact (infos_kind _ _ _ _ Hin).
  - rewrite Eo. cbn [bind fine]. apply (lookup_misses (devices h) HA AudioOutput outs [] [] id (inv_nil _)).
    + rewrite ED. apply incl_appr, incl_refl.
    + intros kd Hk. apply Hm, in_or_app. right. exact Hk.
    + intros w. cbn [app]. specialize (HF w). rewrite HC in HF. lia.
    + rewrite (infos_ext _ [] (usable AudioInput ins)).
      2: { intros kd w Hk Ew. cbn. symmetry. apply count_other. rewrite (model_kind _ _ _ Ew). apply usable_in in Hk. destruct Hk as [-> _]. discriminate. }
      intros Hin. apply in_map_iff in Hin. destruct Hin as (e & <- & Hin). apply (HN e); [apply in_or_app; right; exact Hin | | reflexivity].
      exact (infos_kind _ _ _ _ Hin).
Qed.
End One.
