From Coq Require Import List Arith Bool Lia.
From Verif Require Import Graph_Model Graph_Spec.
Import ListNotations.

(** ** Lists *)
Lemma mem_In x l : mem x l = true <-> In x l.
Proof.
  unfold mem. rewrite existsb_exists. split.
  - intros (y & Hy & E). apply Nat.eqb_eq in E. subst. exact Hy.
  - intros H. exists x. split; [exact H|apply Nat.eqb_refl].
Qed.

Lemma mem_nIn x l : mem x l = false <-> ~ In x l.
Proof.
  rewrite <- mem_In. destruct (mem x l); split; congruence.
Qed.

Lemma suffix_from_Some x l s : suffix_from x l = Some s -> exists pre s', l = pre ++ s /\ s = x :: s'.
Proof.
  induction l as [|y l IH]; cbn; [discriminate|].
  destruct (Nat.eqb_spec x y) as [->|n].
  - intros [= <-]. exists [], l. split; reflexivity.
  - intros H. destruct (IH H) as (pre & s' & -> & ->). exists (y :: pre), s'. split; reflexivity.
Qed.

Lemma suffix_from_None x l : suffix_from x l = None <-> ~ In x l.
Proof.
  induction l as [|y l IH]; cbn; [tauto|].
  destruct (Nat.eqb_spec x y) as [->|n].
  - split; [discriminate|]. intros H; exfalso; apply H; now left.
  - rewrite IH. split; [intros H [->|H']; tauto|tauto].
Qed.

Lemma filter_neq_id n l : ~ In n l -> filter (fun m => negb (Nat.eqb m n)) l = l.
Proof.
  induction l as [|y l IH]; cbn; [reflexivity|]. intros H.
  destruct (Nat.eqb_spec y n) as [->|N]; [exfalso; apply H; now left|].
  cbn. f_equal. apply IH. tauto.
Qed.

Lemma before_app_l {A} (l l' : list A) a b : before l a b -> before (l ++ l') a b.
Proof.
  intros (l1 & l2 & l3 & ->). exists l1, l2, (l3 ++ l').
  rewrite <- !app_assoc. cbn. rewrite <- app_assoc. reflexivity.
Qed.

Lemma before_snoc {A} (l : list A) a b : In a l -> before (l ++ [b]) a b.
Proof.
  intros H. apply in_split in H. destruct H as (l1 & l2 & ->).
  exists l1, l2, []. rewrite <- app_assoc. reflexivity.
Qed.

Lemma before_rev {A} (l : list A) a b : before l a b -> before (rev l) b a.
Proof.
  intros (l1 & l2 & l3 & ->). exists (rev l3), (rev l2), (rev l1).
  rewrite !rev_app_distr. cbn. rewrite rev_app_distr. cbn.
  rewrite <- !app_assoc. reflexivity.
Qed.

Lemma before_filter {A} (f : A -> bool) l a b :
  before l a b -> f a = true -> f b = true -> before (filter f l) a b.
Proof.
  intros (l1 & l2 & l3 & ->) Ha Hb.
  exists (filter f l1), (filter f l2), (filter f l3).
  rewrite filter_app. cbn. rewrite Ha. rewrite filter_app. cbn. rewrite Hb. reflexivity.
Qed.

Lemma before_In {A} (l : list A) a b : before l a b -> In a l /\ In b l.
Proof.
  intros (l1 & l2 & l3 & ->). split.
  - apply in_or_app; right; now left.
  - apply in_or_app; right; right. apply in_or_app; right; now left.
Qed.

Lemma NoDup_snoc {A} (l : list A) a : NoDup l -> ~ In a l -> NoDup (l ++ [a]).
Proof.
  intros H N. induction H as [|x l Hx H IH]; cbn.
  - constructor; [tauto|constructor].
  - constructor.
    + rewrite in_app_iff. cbn. intros [H1|[H1|[]]]; [tauto|]. apply N. left. now symmetry.
    + apply IH. intros H1. apply N. now right.
Qed.

Lemma before_NoDup_irrefl {A} (l : list A) a : NoDup l -> before l a a -> False.
Proof.
  intros H (l1 & l2 & l3 & ->). apply NoDup_remove_2 in H. apply H.
  apply in_or_app; right. apply in_or_app; right; now left.
Qed.

(* position-based transitivity *)
Lemma before_index (l : list nat) a b : before l a b -> NoDup l ->
  exists i j, i < j /\ nth_error l i = Some a /\ nth_error l j = Some b.
Proof.
  intros (l1 & l2 & l3 & ->) _.
  exists (length l1), (length l1 + S (length l2)). split; [lia|]. split.
  - rewrite nth_error_app2 by lia. rewrite Nat.sub_diag. reflexivity.
  - rewrite nth_error_app2 by lia. replace (length l1 + S (length l2) - length l1) with (S (length l2)) by lia.
    cbn. rewrite nth_error_app2 by lia. rewrite Nat.sub_diag. reflexivity.
Qed.

Lemma nth_error_before {A} (l : list A) i j a b :
  i < j -> nth_error l i = Some a -> nth_error l j = Some b -> before l a b.
Proof.
  intros Hij Ha Hb.
  destruct (nth_error_split l i Ha) as (l1 & l2 & -> & Hl).
  rewrite nth_error_app2 in Hb by lia.
  destruct (j - length l1) as [|k] eqn:E; [lia|]. cbn in Hb.
  destruct (nth_error_split l2 k Hb) as (l3 & l4 & -> & _).
  exists l1, l3, l4. reflexivity.
Qed.

Lemma before_trans (l : list nat) a b c : NoDup l -> before l a b -> before l b c -> before l a c.
Proof.
  intros N H1 H2.
  destruct (before_index _ _ _ H1 N) as (i & j & Hij & Hi & Hj).
  destruct (before_index _ _ _ H2 N) as (j' & k & Hjk & Hj' & Hk).
  assert (j = j').
  { apply (proj1 (NoDup_nth_error l) N); [|congruence].
    apply nth_error_Some. congruence. }
  subst j'. apply (nth_error_before l i k); [lia|assumption|assumption].
Qed.

(** ** Chains *)
Lemma chain_app {A} (R : A -> A -> Prop) a l1 x l2 b :
  chain R a l1 x -> chain R x l2 b -> chain R a (l1 ++ x :: l2) b.
Proof.
  revert a. induction l1 as [|y l1 IH]; cbn; intros a H1 H2; [tauto|].
  destruct H1 as [H H1]. split; [exact H|]. apply IH; assumption.
Qed.

Lemma chain_mono {A} (R S : A -> A -> Prop) (Z : A -> Prop) a l b :
  (forall x y, Z x -> R x y -> S x y) -> Z a -> (forall x, In x l -> Z x) ->
  chain R a l b -> chain S a l b.
Proof.
  intros H. revert a. induction l as [|y l IH]; cbn; intros a Ha Hl.
  - apply H; exact Ha.
  - intros [H1 H2]. split; [apply H; assumption|]. apply IH; [apply Hl; now left| |assumption].
    intros x Hx. apply Hl. now right.
Qed.

Section Order.
Context {P Q CFG : Type}.
Notation nodes := (nodes P Q CFG).
Notation node := (node P Q CFG).

Implicit Types g : nodes.
(** ** node collection *)
Lemma get_In (g : nodes) i n : get g i = Some n -> i < length g.
Proof.
  unfold get. destruct (nth_error g i) as [[m|]|] eqn:E; try discriminate.
  intros _. apply nth_error_Some. congruence.
Qed.

Lemma keys_from_In (g : nodes) k i : In i (keys_from k g) <-> k <= i /\ live g (i - k).
Proof.
  revert k. induction g as [|[n|] g IH]; cbn; intros k.
  - split; [tauto|]. intros [_ [n H]]. unfold get in H. destruct (i - k); discriminate.
  - rewrite IH. split.
    + intros [<-|[H1 H2]].
      * split; [lia|]. rewrite Nat.sub_diag. exists n. reflexivity.
      * split; [lia|]. replace (i - k) with (S (i - S k)) by lia. exact H2.
    + intros [H1 H2]. destruct (Nat.eq_dec k i); [now left|right].
      split; [lia|]. replace (i - k) with (S (i - S k)) in H2 by lia. exact H2.
  - rewrite IH. split.
    + intros [H1 H2]. split; [lia|]. replace (i - k) with (S (i - S k)) by lia. exact H2.
    + intros [H1 H2]. destruct (Nat.eq_dec k i).
      * subst. rewrite Nat.sub_diag in H2. destruct H2 as [m H2]. discriminate.
      * split; [lia|]. replace (i - k) with (S (i - S k)) in H2 by lia. exact H2.
Qed.

Lemma keys_In (g : nodes) i : In i (keys g) <-> live g i.
Proof. unfold keys. rewrite keys_from_In. rewrite Nat.sub_0_r. split; [tauto|]. split; [lia|assumption]. Qed.

Lemma keys_from_NoDup (g : nodes) k : NoDup (keys_from k g).
Proof.
  revert k. induction g as [|[n|] g IH]; cbn; intros k; [constructor| |apply IH].
  constructor; [|apply IH]. rewrite keys_from_In. lia.
Qed.

Lemma keys_NoDup (g : nodes) : NoDup (keys g).
Proof. apply keys_from_NoDup. Qed.

Lemma live_list_bound (g : nodes) l : NoDup l -> (forall x, In x l -> live g x) -> length l <= live_count g.
Proof.
  intros N H. unfold live_count. apply NoDup_incl_length; [exact N|].
  intros x Hx. apply keys_In. apply H. exact Hx.
Qed.

Lemma get_set_slot_eq (g : nodes) i v : i < length g -> get (set_slot g i v) i = v.
Proof.
  revert i. induction g as [|x g IH]; cbn; intros [|i] H; try lia.
  - unfold get. cbn. destruct v; reflexivity.
  - unfold get. cbn. apply IH. lia.
Qed.

Lemma get_set_slot_neq (g : nodes) i j v : i <> j -> get (set_slot g i v) j = get g j.
Proof.
  revert i j. induction g as [|x g IH]; intros [|i] [|j] H; cbn; try reflexivity; try lia.
  unfold get. cbn. apply (IH i j). lia.
Qed.

Lemma set_slot_length (g : nodes) i v : length (set_slot g i v) = length g.
Proof. revert i. induction g as [|x g IH]; intros [|i]; cbn; try reflexivity. now rewrite IH. Qed.

Lemma get_update_eq (g : nodes) i f : get (update g i f) i = option_map f (get g i).
Proof.
  unfold update. destruct (get g i) eqn:E; cbn; [|exact E].
  apply get_set_slot_eq. eapply get_In; eauto.
Qed.

Lemma get_update_neq (g : nodes) i j f : i <> j -> get (update g i f) j = get g j.
Proof.
  intros H. unfold update. destruct (get g i) eqn:E; [|reflexivity].
  apply get_set_slot_neq. exact H.
Qed.

Lemma set_slot_same (g : nodes) i : get g i = None -> get (set_slot g i None) i = None.
Proof.
  intros H. destruct (Nat.lt_ge_cases i (length g)) as [L|L].
  - apply get_set_slot_eq. exact L.
  - unfold get. rewrite (proj2 (nth_error_None _ _)); [reflexivity|]. rewrite set_slot_length. exact L.
Qed.

(** ** DFS invariant *)
Definition R (g : nodes) := connected g.

Fixpoint linked (g : nodes) (l : list nat) : Prop :=
  match l with
  | a :: ((b :: _) as l') => R g a b /\ linked g l'
  | _ => True
  end.

(** [i] is on a delay-free cycle all of whose nodes are in [l] *)
Definition cyc_within (g : nodes) (l : list nat) (i : nat) : Prop :=
  exists c, is_cycle (connected g) c /\ In i c /\ (forall x, In x c -> ~ breaker g x) /\ incl c l.

Lemma cyc_within_incl g l l' i : incl l l' -> cyc_within g l i -> cyc_within g l' i.
Proof. intros H (c & A & B & C & D). exists c. repeat split; try assumption. eapply incl_tran; eauto. Qed.

Record Inv (g : nodes) (s : vstate) : Prop := {
  i_nds : NoDup (stack s);
  i_ndd : NoDup (done s);
  i_ndm : NoDup (marked s);
  i_mark : forall x, In x (marked s) <-> In x (stack s) \/ In x (done s);
  i_disj : forall x, In x (stack s) -> In x (done s) -> False;
  i_live : forall x, In x (marked s) -> live g x;
  i_link : linked g (stack s);
  i_topo : forall a b, In a (done s) -> R g a b ->
             before (done s) b a \/ (In a (in_cycle s) /\ In b (in_cycle s));
  i_cyc : forall i, In i (in_cycle s) -> cyc_within g (in_cycle s) i
}.

Lemma linked_snoc g l x : linked g l -> (match rev l with [] => True | t :: _ => R g t x end) ->
  linked g (l ++ [x]).
Proof.
  induction l as [|a l IH]; cbn; [tauto|]. intros H1 H2.
  destruct l as [|b l].
  - cbn in *. tauto.
  - cbn [app]. destruct H1 as [H1 H1']. split; [exact H1|].
    apply IH; [exact H1'|]. cbn in H2 |- *. 
    rewrite <- app_assoc in H2. cbn in H2.
    destruct (rev l) as [|t r] eqn:E; cbn in *; exact H2.
Qed.

Lemma linked_app_r g l1 l2 : linked g (l1 ++ l2) -> linked g l2.
Proof.
  induction l1 as [|a l1 IH]; cbn; [tauto|]. intros H. apply IH.
  destruct (l1 ++ l2); [exact I|]. apply H.
Qed.

Lemma linked_chain g a l x y : linked g (a :: l) -> 
  (match rev (a :: l) with [] => False | t :: _ => t = x end) -> R g x y ->
  chain (R g) a l y.
Proof.
  revert a. induction l as [|b l IH]; intros a H1 H2 H3.
  - cbn in *. subst. exact H3.
  - cbn. destruct H1 as [H1 H1']. split; [exact H1|]. apply IH; [exact H1'| |exact H3].
    cbn in H2 |- *. rewrite <- app_assoc in H2. destruct (rev l); cbn in *; exact H2.
Qed.

Lemma find_breaker_spec g l : (forall x, In x l -> live g x) ->
  (exists b, find_breaker g l = Some (Some b) /\ In b l /\ breaker g b) \/
  (find_breaker g l = Some None /\ forall x, In x l -> ~ breaker g x).
Proof.
  induction l as [|y l IH]; cbn; intros H.
  - right. split; [reflexivity|tauto].
  - destruct (H y (or_introl eq_refl)) as [n E]. rewrite E.
    destruct (n_breaker n) eqn:B.
    + left. exists y. split; [reflexivity|]. split; [now left|]. exists n. tauto.
    + destruct IH as [(b & E1 & H1 & H2)|[E1 H1]].
      * intros x Hx. apply H. now right.
      * left. exists b. tauto.
      * right. split; [exact E1|]. intros x [<-|Hx]; [|apply H1; exact Hx].
        intros (m & E2 & B2). congruence.
Qed.

(** edge loop of [visit] as a separate function *)
Fixpoint go (fuel : nat) (g : nodes) (es : list edge) (s : vstate) : vres :=
  match es with
  | [] => VRet false s
  | e :: es' => match visit fuel g (e_dest e) s with
                | VRet false s' => go fuel g es' s'
                | r => r
                end
  end.

Lemma visit_S fuel g n s : visit (S fuel) g n s =
    match suffix_from n (stack s) with
    | Some cyc =>
        match find_breaker g cyc with
        | None => VPanic
        | Some (Some b) =>
            VRet true (mk_vstate (marked s) (stack s) (done s) (in_cycle s) (breakers s ++ [b]))
        | Some None =>
            VRet false (mk_vstate (marked s) (stack s) (done s) (in_cycle s ++ cyc) (breakers s))
        end
    | None =>
        if mem n (marked s) then VRet false s
        else
          let s1 := mk_vstate (n :: marked s) (stack s ++ [n]) (done s) (in_cycle s) (breakers s) in
          match get g n with
          | None => VPanic
          | Some nd =>
              match go fuel g (n_edges nd) s1 with
              | VRet false s2 =>
                  VRet false (mk_vstate (marked s2)
                                        (filter (fun m => negb (Nat.eqb m n)) (stack s2))
                                        (done s2 ++ [n]) (in_cycle s2) (breakers s2))
              | r => r
              end
          end
    end.
Proof.
  cbn [visit].
  destruct (suffix_from n (stack s)); [reflexivity|].
  destruct (mem n (marked s)); [reflexivity|].
  destruct (get g n); [|reflexivity].
  cbv zeta.
  match goal with |- match ?X with _ => _ end = match ?Y with _ => _ end =>
    assert (X = Y) as -> ; [|destruct Y as [| |[] ?]; reflexivity] end.
  match goal with |- _ ?l ?st = _ => generalize st; induction l as [|e es IH]; intros st0 end.
  - reflexivity.
  - cbn [go]. destruct (visit fuel g (e_dest e) st0) as [| |[] s']; try reflexivity. apply IH.
Qed.

(** post-condition of [visit] *)
Definition ext (s s' : vstate) : Prop :=
  stack s' = stack s /\ breakers s' = breakers s /\
  (exists d, done s' = done s ++ d) /\
  (exists m, marked s' = m ++ marked s) /\
  incl (in_cycle s) (in_cycle s').

Definition found_breaker (g : nodes) (s s' : vstate) : Prop :=
  exists b, breakers s' = breakers s ++ [b] /\ breaker g b /\ on_cycle g b.

Definition settled (s s' : vstate) (n : nat) : Prop :=
  In n (done s') \/
  (exists cyc, suffix_from n (stack s) = Some cyc /\ incl cyc (in_cycle s')).

Definition post (g : nodes) (n : nat) (s : vstate) (r : vres) : Prop :=
  match r with
  | VRet false s' => Inv g s' /\ ext s s' /\ settled s s' n
  | VRet true s' => found_breaker g s s'
  | _ => False
  end.

Lemma ext_refl s : ext s s.
Proof.
  repeat split.
  - exists []. now rewrite app_nil_r.
  - exists []. reflexivity.
  - apply incl_refl.
Qed.

Lemma ext_trans s1 s2 s3 : ext s1 s2 -> ext s2 s3 -> ext s1 s3.
Proof.
  intros (A1 & A2 & (d1 & A3) & (m1 & A4) & A5) (B1 & B2 & (d2 & B3) & (m2 & B4) & B5).
  repeat split; try congruence.
  - exists (d1 ++ d2). rewrite B3, A3, app_assoc. reflexivity.
  - exists (m2 ++ m1). rewrite B4, A4, app_assoc. reflexivity.
  - eapply incl_tran; eauto.
Qed.

Lemma last_of_suffix (n t : nat) l cyc :
  suffix_from n (l ++ [t]) = Some cyc -> In t cyc.
Proof.
  intros H. apply suffix_from_Some in H. destruct H as (pre & s' & E & ->).
  assert (In t (rev (n :: s'))); [|apply in_rev; assumption].
  apply (f_equal (@rev nat)) in E. rewrite !rev_app_distr in E.
  destruct (rev (n :: s')) as [|z zs] eqn:Ez.
  - apply (f_equal (@length nat)) in Ez. rewrite rev_length in Ez. discriminate.
  - cbn in E. injection E as <- _. now left.
Qed.

Lemma visit_post fuel g : closed g -> forall n s,
  Inv g s -> live g n ->
  (match rev (stack s) with [] => True | t :: _ => R g t n end) ->
  live_count g < fuel + length (marked s) ->
  post g n s (visit fuel g n s).
Proof.
  intros CL. induction fuel as [|fuel IH]; intros n s HI Hn Hlast Hfuel.
  { exfalso. assert (length (marked s) <= live_count g); [|lia].
    apply live_list_bound; [apply HI|apply HI]. }
  rewrite visit_S.
  destruct (suffix_from n (stack s)) as [cyc|] eqn:Esuf.
  - (* a cycle *)
    assert (Hlive : forall x, In x cyc -> live g x).
    { intros x Hx. apply (i_live _ _ HI). apply (i_mark _ _ HI). left.
      destruct (suffix_from_Some _ _ _ Esuf) as (pre & s' & -> & _).
      apply in_or_app; now right. }
    assert (Hcyc : is_cycle (R g) cyc).
    { destruct (suffix_from_Some _ _ _ Esuf) as (pre & s' & Est & ->).
      cbn. destruct (rev (n :: s')) as [|t r] eqn:Er.
      - apply (f_equal (@length nat)) in Er. rewrite rev_length in Er. discriminate.
      - eapply (linked_chain g n s' t n).
        + apply (linked_app_r g pre). rewrite <- Est. apply HI.
        + rewrite Er. reflexivity.
        + rewrite Est, rev_app_distr, Er in Hlast. cbn in Hlast. exact Hlast. }
    destruct (find_breaker_spec g cyc Hlive) as [(b & -> & Hb1 & Hb2)|[-> Hnb]].
    + cbn. exists b. split; [reflexivity|]. split; [exact Hb2|]. exists cyc. split; assumption.
    + cbn. split; [|split].
      * constructor; cbn; try apply HI.
        -- intros a b Ha Hab. destruct (i_topo _ _ HI a b Ha Hab) as [H|[H1 H2]]; [now left|right].
           split; apply in_or_app; now left.
        -- intros c Hc. apply in_app_or in Hc. destruct Hc as [Hc|Hc].
           ++ eapply cyc_within_incl; [apply incl_appl, incl_refl|]. apply (i_cyc _ _ HI); exact Hc.
           ++ exists cyc. split; [exact Hcyc|]. split; [exact Hc|]. split; [exact Hnb|].
              apply incl_appr, incl_refl.
      * repeat split; cbn.
        -- exists []. now rewrite app_nil_r.
        -- exists []. reflexivity.
        -- apply incl_appl, incl_refl.
      * right. exists cyc. split; [exact Esuf|]. cbn. apply incl_appr, incl_refl.
  - destruct (mem n (marked s)) eqn:Emem.
    + cbn. split; [exact HI|]. split; [apply ext_refl|]. left.
      apply mem_In in Emem. apply (i_mark _ _ HI) in Emem.
      destruct Emem as [H|H]; [|exact H].
      exfalso. apply suffix_from_None in Esuf. tauto.
    + apply mem_nIn in Emem. apply suffix_from_None in Esuf.
      destruct Hn as [nd Hnd]. rewrite Hnd. cbv zeta.
      set (s1 := mk_vstate (n :: marked s) (stack s ++ [n]) (done s) (in_cycle s) (breakers s)).
      assert (HI1 : Inv g s1).
      { constructor; cbn.
        - apply NoDup_snoc; [apply HI|exact Esuf].
        - apply HI.
        - constructor; [exact Emem|apply HI].
        - intros x. rewrite in_app_iff. cbn. rewrite (i_mark _ _ HI x). tauto.
        - intros x Hx Hd. apply in_app_or in Hx. destruct Hx as [Hx|[->|[]]].
          + eapply (i_disj _ _ HI); eauto.
          + apply Emem. apply (i_mark _ _ HI). now right.
        - intros x [<-|Hx]; [exists nd; exact Hnd|apply (i_live _ _ HI); exact Hx].
        - apply linked_snoc; [apply HI|exact Hlast].
        - apply HI.
        - apply HI. }
      (* the edge loop *)
      assert (Hgo : forall es s2, incl es (n_edges nd) ->
                Inv g s2 -> ext s1 s2 ->
                match go fuel g es s2 with
                | VRet false s3 => Inv g s3 /\ ext s2 s3 /\
                    forall e, In e es -> In (e_dest e) (done s3) \/
                                         (In n (in_cycle s3) /\ In (e_dest e) (in_cycle s3))
                | VRet true s3 => exists b, breakers s3 = breakers s ++ [b] /\ breaker g b /\ on_cycle g b
                | _ => False
                end).
      { induction es as [|e es IHes]; intros s2 Hincl HI2 Hext.
        - cbn. split; [exact HI2|]. split; [apply ext_refl|]. intros e [].
        - cbn [go].
          assert (Hcon : R g n (e_dest e)).
          { exists nd, e. split; [exact Hnd|]. split; [apply Hincl; now left|reflexivity]. }
          assert (Hst : stack s2 = stack s ++ [n]) by (destruct Hext as [-> _]; reflexivity).
          assert (Hp : post g (e_dest e) s2 (visit fuel g (e_dest e) s2)).
          { apply IH.
            - exact HI2.
            - eapply CL; exact Hcon.
            - rewrite Hst, rev_app_distr. cbn. exact Hcon.
            - destruct Hext as (_ & _ & _ & (m & Em) & _). rewrite Em, app_length. cbn. lia. }
          unfold post in Hp.
          destruct (visit fuel g (e_dest e) s2) as [| |[] s3]; [destruct Hp|destruct Hp| |].
          + destruct Hp as (b & Hb & Hb').
            exists b. split; [|exact Hb']. rewrite Hb. destruct Hext as (_ & Hbr & _). rewrite Hbr. reflexivity.
          + destruct Hp as (HI3 & Hext3 & Hset).
            specialize (IHes s3 (fun x Hx => Hincl x (or_intror Hx)) HI3 (ext_trans _ _ _ Hext Hext3)).
            destruct (go fuel g es s3) as [| |[] s4]; try exact IHes.
            destruct IHes as (HI4 & Hext4 & Hall).
            split; [exact HI4|]. split; [eapply ext_trans; eauto|].
            intros e' [<-|He']; [|apply Hall; exact He'].
            destruct Hset as [Hd|(cyc & Hc & Hinc)].
            * left. destruct Hext4 as (_ & _ & (d & ->) & _). apply in_or_app; now left.
            * right. destruct Hext4 as (_ & _ & _ & _ & Hi).
              rewrite Hst in Hc. split; apply Hi, Hinc.
              -- eapply last_of_suffix; exact Hc.
              -- destruct (suffix_from_Some _ _ _ Hc) as (? & ? & _ & ->). now left. }
      specialize (Hgo (n_edges nd) s1 (incl_refl _) HI1 (ext_refl _)).
      destruct (go fuel g (n_edges nd) s1) as [| |[] s2]; [destruct Hgo|destruct Hgo| |].
      * exact Hgo.
      * destruct Hgo as (HI2 & Hext & Hall). cbn.
        assert (Hst : stack s2 = stack s ++ [n]) by (destruct Hext as [-> _]; reflexivity).
        rewrite Hst, filter_app, filter_neq_id by exact Esuf.
        cbn. rewrite Nat.eqb_refl. cbn. rewrite app_nil_r.
        assert (Hnd2 : ~ In n (done s2)).
        { intros H. apply (i_disj _ _ HI2 n); [|exact H]. rewrite Hst. apply in_or_app; right; now left. }
        split; [|split].
        -- constructor; cbn.
           ++ apply HI.
           ++ apply NoDup_snoc; [apply HI2|exact Hnd2].
           ++ apply HI2.
           ++ intros x. rewrite (i_mark _ _ HI2 x), Hst, !in_app_iff. cbn. tauto.
           ++ intros x Hx Hd. apply in_app_or in Hd. destruct Hd as [Hd|[<-|[]]].
              ** apply (i_disj _ _ HI2 x); [|exact Hd]. rewrite Hst. apply in_or_app; now left.
              ** tauto.
           ++ apply HI2.
           ++ apply HI.
           ++ intros a b Ha Hab. apply in_app_or in Ha. destruct Ha as [Ha|[<-|[]]].
              ** destruct (i_topo _ _ HI2 a b Ha Hab) as [H|H]; [left|now right].
                 apply before_app_l. exact H.
              ** destruct Hab as (nd' & e & E1 & E2 & E3).
                 assert (nd' = nd) by congruence. subst nd' b.
                 destruct (Hall e E2) as [H|H]; [left|now right].
                 apply before_snoc. exact H.
           ++ apply HI2.
        -- destruct Hext as (_ & Hb & (d & Hd) & (m & Hm) & Hi). cbn in *.
           repeat split; cbn.
           ++ exact Hb.
           ++ exists (d ++ [n]). rewrite Hd, <- app_assoc. reflexivity.
           ++ exists (m ++ [n]). rewrite Hm, <- app_assoc. reflexivity.
           ++ exact Hi.
        -- left. cbn. apply in_or_app; right; now left.
Qed.

Lemma visit_all_post fuel g ks s : closed g -> Inv g s -> stack s = [] ->
  (forall k, In k ks -> live g k) ->
  live_count g < fuel ->
  match visit_all fuel g ks s with
  | VRet false s' => Inv g s' /\ stack s' = [] /\ breakers s' = breakers s /\ incl (done s) (done s') /\
                     forall k, In k ks -> In k (done s')
  | VRet true s' => exists b, breakers s' = breakers s ++ [b] /\ breaker g b /\ on_cycle g b
  | _ => False
  end.
Proof.
  intros CL. revert s. induction ks as [|k ks IH]; intros s HI Hs Hk Hf; cbn [visit_all].
  - split; [exact HI|]. split; [exact Hs|]. split; [reflexivity|]. split; [apply incl_refl|]. intros k [].
  - assert (Hp : post g k s (visit fuel g k s)).
    { apply visit_post; try assumption.
      - apply Hk; now left.
      - rewrite Hs. exact I.
      - lia. }
    unfold post in Hp.
    destruct (visit fuel g k s) as [| |[] s1]; [destruct Hp|destruct Hp| |].
    + exact Hp.
    + destruct Hp as (HI1 & (E1 & E2 & (d & E3) & _) & Hset).
      assert (Hd : In k (done s1)).
      { destruct Hset as [H|(cyc & Hc & _)]; [exact H|]. rewrite Hs in Hc. discriminate. }
      specialize (IH s1 HI1 (eq_trans E1 Hs) (fun x Hx => Hk x (or_intror Hx)) Hf).
      destruct (visit_all fuel g ks s1) as [| |[] s2]; try exact IH.
      * destruct IH as (b & Hb & H2). exists b. rewrite Hb, E2. tauto.
      * destruct IH as (HI2 & A & B & C & D).
        split; [exact HI2|]. split; [exact A|]. split; [congruence|].
        split.
        -- intros x Hx. apply C. rewrite E3. apply in_or_app; now left.
        -- intros k' [<-|Hk']; [apply C; exact Hd|apply D; exact Hk'].
Qed.

Lemma Inv0 g : Inv g vstate0.
Proof.
  constructor; cbn; try (constructor; fail); try tauto.
Qed.

(** ** The outer loop *)

Lemma clear_breakers_one g b : clear_breakers g [b] = update g b clear_edges.
Proof. reflexivity. Qed.

(** number of breakers with outgoing edges *)
Definition active_breaker (g : nodes) (i : nat) : bool :=
  match get g i with
  | Some n => n_breaker n && (match n_edges n with [] => false | _ => true end)
  | None => false
  end.
Definition measure (g : nodes) : nat := length (filter (active_breaker g) (keys g)).

Lemma keys_from_set_slot (g : nodes) k i n n' :
  get g i = Some n -> keys_from k (set_slot g i (Some n')) = keys_from k g.
Proof.
  revert k i. induction g as [|x g IH]; intros k [|i] H; cbn; try discriminate.
  - unfold get in H. cbn in H. destruct x; [reflexivity|discriminate].
  - unfold get in H. cbn in H. destruct x; rewrite (IH (S k) i H); reflexivity.
Qed.

Lemma keys_update (g : nodes) i f : keys (update g i f) = keys g.
Proof.
  unfold update. destruct (get g i) eqn:E; [|reflexivity].
  unfold keys. eapply keys_from_set_slot. exact E.
Qed.

Lemma filter_length_lt (f h : nat -> bool) l b :
  (forall x, f x = true -> h x = true) -> In b l -> f b = false -> h b = true ->
  length (filter f l) < length (filter h l).
Proof.
  intros Hfh Hb Hf Hh.
  assert (Hle : forall l', length (filter f l') <= length (filter h l')).
  { induction l' as [|x l' IH]; cbn; [lia|].
    destruct (f x) eqn:E; [rewrite (Hfh x E); cbn; lia|]. destruct (h x); cbn; lia. }
  induction l as [|x l IH]; [destruct Hb|].
  cbn. destruct Hb as [->|Hb].
  - rewrite Hf, Hh. cbn. specialize (Hle l). lia.
  - specialize (IH Hb). destruct (f x) eqn:E; [rewrite (Hfh x E); cbn; lia|].
    destruct (h x); cbn; lia.
Qed.

Lemma is_cycle_out (g : nodes) c b : is_cycle (connected g) c -> In b c -> exists y, connected g b y.
Proof.
  destruct c as [|a l]; [intros []|]. cbn. generalize a at 2. intros z.
  revert a. induction l as [|x l IH]; intros a; cbn.
  - intros H [<-|[]]. exists z. exact H.
  - intros [H1 H2] [<-|H3]; [exists x; exact H1|]. apply (IH x); assumption.
Qed.

Lemma measure_decreases g b : breaker g b -> on_cycle g b -> measure (update g b clear_edges) < measure g.
Proof.
  intros (n & E & B) (c & Hc & Hb). unfold measure. rewrite keys_update.
  apply (filter_length_lt _ _ _ b).
  - intros x. unfold active_breaker. destruct (Nat.eq_dec b x) as [->|N].
    + rewrite get_update_eq, E. cbn. now rewrite andb_false_r.
    + rewrite get_update_neq by exact N. tauto.
  - apply keys_In. exists n. exact E.
  - unfold active_breaker. rewrite get_update_eq, E. cbn. now rewrite andb_false_r.
  - unfold active_breaker. rewrite E, B. cbn.
    destruct (is_cycle_out g c b Hc Hb) as (y & m & e & E1 & E2 & _).
    rewrite E in E1. injection E1 as <-. destruct (n_edges n); [destruct E2|reflexivity].
Qed.

Lemma connected_update_sub g b x y : connected (update g b clear_edges) x y -> connected g x y.
Proof.
  intros (n & e & E & He & Hd). destruct (Nat.eq_dec b x) as [->|N].
  - rewrite get_update_eq in E. destruct (get g x) as [m|]; [|discriminate].
    cbn in E. injection E as <-. destruct He.
  - rewrite get_update_neq in E by exact N. exists n, e. tauto.
Qed.

Lemma live_update g b f x : live (update g b f) x <-> live g x.
Proof. rewrite <- !keys_In, keys_update. tauto. Qed.

Lemma closed_update g b : closed g -> closed (update g b clear_edges).
Proof.
  intros H x y Hxy. apply live_update. eapply H. eapply connected_update_sub; eauto.
Qed.

Lemma chain_weaken {A} (R S : A -> A -> Prop) a l b :
  (forall x y, R x y -> S x y) -> chain R a l b -> chain S a l b.
Proof.
  intros H. apply (chain_mono R S (fun _ => True)); auto.
Qed.

Lemma is_cycle_weaken {A} (R S : A -> A -> Prop) c : (forall x y, R x y -> S x y) -> is_cycle R c -> is_cycle S c.
Proof. destruct c; cbn; [tauto|]. apply chain_weaken. Qed.

Lemma on_cycle_update g b i : on_cycle (update g b clear_edges) i -> on_cycle g i.
Proof.
  intros (c & Hc & Hi). exists c. split; [|exact Hi].
  eapply is_cycle_weaken; [|exact Hc]. apply connected_update_sub.
Qed.

Lemma clear_edges_idem (n : node) : clear_edges (clear_edges n) = clear_edges n.
Proof. reflexivity. Qed.

Lemma cut_step g b g' : breaker g b -> on_cycle g b ->
  cut_at_breakers (update g b clear_edges) g' -> cut_at_breakers g g'.
Proof.
  intros (n & E & B) Hb H i. destruct (H i) as [Hi|(m & E1 & B1 & C1 & D1)].
  - destruct (Nat.eq_dec b i) as [->|N].
    + right. exists n. rewrite get_update_eq, E in Hi. cbn in Hi. tauto.
    + left. rewrite get_update_neq in Hi by exact N. exact Hi.
  - destruct (Nat.eq_dec b i) as [->|N].
    + rewrite get_update_eq, E in E1. cbn in E1. injection E1 as <-.
      right. exists n. tauto.
    + rewrite get_update_neq in E1 by exact N.
      right. exists m. split; [exact E1|]. split; [exact B1|]. split; [|exact D1].
      eapply on_cycle_update; exact C1.
Qed.

Definition order_post (g g' : nodes) (ord cyc : list nat) : Prop :=
  cut_at_breakers g g' /\
  rendering_order g' ord /\
  (forall i, In i cyc -> cyc_within g' cyc i) /\
  (forall i, live g' i -> In i ord \/ In i cyc) /\
  (forall i, In i ord -> ~ In i cyc) /\
  closed g' /\ keys g' = keys g.

Lemma order_loop_post fuel : forall vfuel g, closed g -> measure g < fuel -> live_count g < vfuel ->
  exists g' ord cyc, order_loop fuel vfuel g = ORet g' ord cyc /\ order_post g g' ord cyc.
Proof.
  induction fuel as [|fuel IH]; intros vfuel g CL Hm Hv; [lia|].
  cbn [order_loop].
  pose proof (visit_all_post vfuel g (keys g) vstate0 CL (Inv0 g) eq_refl
                (fun k Hk => proj1 (keys_In g k) Hk) Hv) as Hp.
  destruct (visit_all vfuel g (keys g) vstate0) as [| |[] s]; [destruct Hp|destruct Hp| |].
  - destruct Hp as (b & Hb & Hbr & Hcy). cbn in Hb. rewrite Hb, clear_breakers_one.
    destruct (IH vfuel (update g b clear_edges)) as (g' & ord & cyc & E & Hcut & Hrest).
    + apply closed_update. exact CL.
    + pose proof (measure_decreases g b Hbr Hcy). lia.
    + unfold live_count. rewrite keys_update. exact Hv.
    + exists g', ord, cyc. split; [exact E|]. split.
      * eapply cut_step; eauto.
      * destruct Hrest as (A1 & A2 & A3 & A4 & A5 & A6). rewrite keys_update in A6. tauto.
  - destruct Hp as (HI & Hst & _ & _ & Hall).
    eexists g, _, _. split; [reflexivity|].
    split; [intros i; now left|].
    split; [|split; [|split; [|split; [|split]]]].
    + split; [|split].
      * apply NoDup_rev. apply NoDup_filter. apply HI.
      * intros i Hi. apply in_rev in Hi. apply filter_In in Hi.
        apply (i_live _ _ HI). apply (i_mark _ _ HI). right. tauto.
      * intros a b Ha Hb Hab. apply in_rev in Ha. apply filter_In in Ha. destruct Ha as [Ha Ha'].
        apply in_rev in Hb. apply filter_In in Hb. destruct Hb as [Hb Hb'].
        apply before_rev.
        destruct (i_topo _ _ HI a b Ha Hab) as [H|[H _]].
        -- apply before_filter; assumption.
        -- apply mem_In in H. rewrite H in Ha'. discriminate.
    + apply HI.
    + intros i Hi. apply keys_In in Hi.
      destruct (mem i (in_cycle s)) eqn:E.
      * right. apply mem_In. exact E.
      * left. apply in_rev. rewrite rev_involutive. apply filter_In. split; [apply Hall; exact Hi|].
        rewrite E. reflexivity.
    + intros i Hi Hc. apply in_rev in Hi. apply filter_In in Hi.
      apply mem_In in Hc. rewrite Hc in Hi. destruct Hi as [_ Hi]. discriminate.
    + exact CL.
    + reflexivity.
Qed.

Lemma measure_le g : measure g <= live_count g.
Proof.
  unfold measure, live_count. generalize (keys g). intros l.
  induction l as [|x l IH]; cbn; [lia|]. destruct (active_breaker g x); cbn; lia.
Qed.

Lemma order_nodes_post g : closed g ->
  exists g' ord cyc, order_nodes g = ORet g' ord cyc /\ order_post g g' ord cyc.
Proof.
  intros CL. apply order_loop_post; [exact CL| |].
  - pose proof (measure_le g). lia.
  - lia.
Qed.

Lemma cyc_within_delay_free g l i : cyc_within g l i -> on_delay_free_cycle g i.
Proof. intros (c & A & B & C & D). exists c. tauto. Qed.

(** cutting only removes connections, and keeps those of non-breakers *)
Lemma cut_connected_sub g g' a b : cut_at_breakers g g' -> connected g' a b -> connected g a b.
Proof.
  intros H (n & e & E & He & Hd). destruct (H a) as [Ha|(m & E1 & _ & _ & E2)].
  - exists n, e. rewrite <- Ha. tauto.
  - rewrite E2 in E. injection E as <-. destruct He.
Qed.

Lemma cut_connected_keep g g' a b : cut_at_breakers g g' -> ~ breaker g a -> connected g a b -> connected g' a b.
Proof.
  intros H Hn (n & e & E & He & Hd). destruct (H a) as [Ha|(m & E1 & B & _ & E2)].
  - exists n, e. rewrite Ha. tauto.
  - exfalso. apply Hn. exists m. tauto.
Qed.

Lemma cut_breaker g g' a : cut_at_breakers g g' -> (breaker g' a <-> breaker g a).
Proof.
  intros H. unfold breaker. destruct (H a) as [->|(m & E1 & B & _ & E2)]; [tauto|].
  rewrite E1, E2. split; intros _; [exists m; tauto|exists (clear_edges m); tauto].
Qed.

Lemma cut_live g g' a : cut_at_breakers g g' -> (live g' a <-> live g a).
Proof.
  intros H. unfold live. destruct (H a) as [->|(m & E1 & B & _ & E2)]; [tauto|].
  rewrite E1, E2. split; intros _; eexists; reflexivity.
Qed.

Lemma cut_delay_free g g' i : cut_at_breakers g g' -> (on_delay_free_cycle g' i <-> on_delay_free_cycle g i).
Proof.
  intros H. split; intros (c & Hc & Hi & Hb).
  - exists c. split; [|split; [exact Hi|]].
    + eapply is_cycle_weaken; [|exact Hc]. intros x y. apply cut_connected_sub. exact H.
    + intros x Hx. rewrite <- (cut_breaker g g' x H). apply Hb. exact Hx.
  - exists c. split; [|split; [exact Hi|]].
    + destruct c as [|a l]; [destruct Hc|]. cbn in *.
      eapply (chain_mono _ _ (fun x => ~ breaker g x)); [| | |exact Hc].
      * intros x y Hx. apply cut_connected_keep; assumption.
      * apply Hb. now left.
      * intros x Hx. apply Hb. now right.
    + intros x Hx. rewrite (cut_breaker g g' x H). apply Hb. exact Hx.
Qed.

(** a closed walk cannot be ordered *)
Lemma chain_before g ord a l b : rendering_order g ord -> In a ord -> In b ord ->
  (forall x, In x l -> In x ord) -> chain (connected g) a l b -> before ord a b.
Proof.
  intros (N & L & T). revert a. induction l as [|x l IH]; cbn; intros a Ha Hb Hl.
  - apply T; assumption.
  - intros [H1 H2]. apply (before_trans ord a x b N).
    + apply T; try assumption. apply Hl; now left.
    + apply IH; try assumption; [apply Hl; now left|]. intros y Hy. apply Hl. now right.
Qed.

Lemma cycle_not_ordered g ord c : rendering_order g ord -> is_cycle (connected g) c ->
  exists i, In i c /\ ~ In i ord.
Proof.
  intros H Hc.
  destruct (existsb (fun i => negb (mem i ord)) c) eqn:E.
  - apply existsb_exists in E. destruct E as (i & Hi & E). exists i. split; [exact Hi|].
    apply mem_nIn. now destruct (mem i ord).
  - exfalso.
    assert (Hall : forall i, In i c -> In i ord).
    { intros i Hi. apply mem_In. destruct (mem i ord) eqn:Em; [reflexivity|].
      assert (existsb (fun i => negb (mem i ord)) c = true); [|congruence].
      apply existsb_exists. exists i. rewrite Em. tauto. }
    destruct c as [|a l]; [destruct Hc|]. cbn in Hc.
    apply (before_NoDup_irrefl ord a); [apply H|].
    eapply chain_before; try exact Hc; try exact H.
    + apply Hall; now left.
    + apply Hall; now left.
    + intros x Hx. apply Hall. now right.
Qed.

End Order.
