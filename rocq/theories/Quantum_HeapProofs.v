From Coq Require Import List Arith Bool Lia.
From Verif Require Import Quantum_HeapModel Quantum_HeapSpec.
Import ListNotations.

Lemma set_nth_length {A} n (x : A) l : length (set_nth n x l) = length l.
Proof. revert n; induction l as [|y l IH]; intros [|n]; simpl; congruence. Qed.

Lemma set_nth_error {A} n (x : A) l k :
  nth_error (set_nth n x l) k =
  if Nat.eqb k n then (if Nat.ltb n (length l) then Some x else None) else nth_error l k.
Proof.
  revert n k; induction l as [|y l IH]; intros n k; simpl.
  - destruct n, k; simpl; try reflexivity; destruct (Nat.eqb k n); reflexivity.
  - destruct n as [|n], k as [|k]; simpl; try reflexivity.
    rewrite IH. destruct (Nat.eqb k n); [|reflexivity].
    destruct (Nat.ltb_spec n (length l)), (Nat.ltb_spec (S n) (S (length l))); try reflexivity; lia.
Qed.

Lemma set_nth_same {A} n (x : A) l : n < length l -> nth_error (set_nth n x l) n = Some x.
Proof. intros H. rewrite set_nth_error, Nat.eqb_refl. destruct (Nat.ltb_spec n (length l)); [reflexivity|lia]. Qed.

Lemma set_nth_other {A} n (x : A) l k : k <> n -> nth_error (set_nth n x l) k = nth_error l k.
Proof. intros H. rewrite set_nth_error. destruct (Nat.eqb_spec k n); [contradiction|reflexivity]. Qed.

Lemma removelast_set_nth_app {A} i (x y : A) l :
  i < length l -> removelast (set_nth i x (l ++ [y])) = set_nth i x l.
Proof.
  revert i; induction l as [|z l IH]; intros i H; simpl in *; [lia|].
  destruct i as [|i]; simpl.
  - destruct (l ++ [y]) eqn:E; [destruct l; discriminate|].
    rewrite <- E. f_equal. apply removelast_last.
  - rewrite <- (IH i) by lia.
    destruct (set_nth i x (l ++ [y])) eqn:E; [|reflexivity].
    apply (f_equal (@length A)) in E. rewrite set_nth_length, app_length in E. simpl in E; lia.
Qed.

Lemma set_nth_twice {A} i (x y : A) l : set_nth i x (set_nth i y l) = set_nth i x l.
Proof. revert i; induction l as [|z l IH]; intros [|i]; simpl; congruence. Qed.

Lemma count_handles_0 l hs :
  count_handles l hs = 0 <-> (forall j, nth_error hs j <> Some (Some l)).
Proof.
  unfold count_handles. split.
  - intros H j E. apply nth_error_In in E.
    assert (In (Some l) (filter (fun o => match o with Some k => Nat.eqb k l | None => false end) hs)).
    { apply filter_In; split; [assumption|]. apply Nat.eqb_refl. }
    destruct (filter _ hs); simpl in *; [contradiction|discriminate].
  - intros H. destruct (filter _ hs) as [|o r] eqn:E; [reflexivity|].
    assert (X : In o (filter (fun o => match o with Some k => Nat.eqb k l | None => false end) hs))
      by (rewrite E; left; reflexivity).
    apply filter_In in X. destruct X as [X Y]. destruct o as [k|]; [|discriminate].
    apply Nat.eqb_eq in Y; subst k. apply In_nth_error in X. destruct X as [j X].
    exfalso; exact (H j X).
Qed.

Lemma count_handles_pos l hs i : nth_error hs i = Some (Some l) -> 1 <= count_handles l hs.
Proof.
  intros H. destruct (count_handles l hs) eqn:E; [|lia].
  rewrite count_handles_0 in E. exfalso; exact (E i H).
Qed.

Lemma count_handles_cons l o hs :
  count_handles l (o :: hs) =
  (match o with Some k => if Nat.eqb k l then 1 else 0 | None => 0 end) + count_handles l hs.
Proof.
  unfold count_handles; simpl. destruct o as [k|]; [|reflexivity].
  destruct (Nat.eqb k l); reflexivity.
Qed.

Lemma count_handles_unique l hs i j :
  count_handles l hs = 1 -> nth_error hs i = Some (Some l) -> nth_error hs j = Some (Some l) -> i = j.
Proof.
  revert i j; induction hs as [|o hs IH]; intros i j C Hi Hj.
  - destruct i; discriminate.
  - rewrite count_handles_cons in C.
    destruct i as [|i], j as [|j]; simpl in *; try reflexivity.
    + injection Hi as ->. rewrite Nat.eqb_refl in C.
      assert (C' : count_handles l hs = 0) by lia. rewrite count_handles_0 in C'.
      exfalso; exact (C' j Hj).
    + injection Hj as ->. rewrite Nat.eqb_refl in C.
      assert (C' : count_handles l hs = 0) by lia. rewrite count_handles_0 in C'.
      exfalso; exact (C' i Hi).
    + f_equal. apply IH; try assumption.
      pose proof (count_handles_pos _ _ _ Hi).
      destruct o as [k|]; [destruct (Nat.eqb k l)|]; lia.
Qed.

Lemma count_handles_one l hs i :
  nth_error hs i = Some (Some l) -> (forall j, nth_error hs j = Some (Some l) -> j = i) ->
  count_handles l hs = 1.
Proof.
  revert i; induction hs as [|o hs IH]; intros i Hi Hu; [destruct i; discriminate|].
  rewrite count_handles_cons. destruct i as [|i]; simpl in Hi.
  - injection Hi as ->. rewrite Nat.eqb_refl.
    replace (count_handles l hs) with 0; [reflexivity|]. symmetry; apply count_handles_0.
    intros j E. specialize (Hu (S j) E). discriminate.
  - rewrite (IH i Hi).
    + destruct o as [k|]; [|reflexivity]. destruct (Nat.eqb_spec k l); [|reflexivity].
      subst k. specialize (Hu 0 eq_refl). discriminate.
    + intros j E. specialize (Hu (S j) E). lia.
Qed.

Lemma count_nat_0 l p : count_nat l p = 0 <-> ~ In l p.
Proof. unfold count_nat. symmetry. apply count_occ_not_In. Qed.

Section Proofs.
Context {V : Type} (zero : V) (size : nat).
Implicit Types h : @heap V.
Implicit Types s : @vals V.

Lemma handle_nth h i l : handle h i = Some l <-> nth_error (h_handles h) i = Some (Some l).
Proof.
  unfold handle. destruct (nth_error (h_handles h) i) as [[k|]|]; split; intros H; congruence.
Qed.

Lemma handle_lt h i l : handle h i = Some l -> i < length (h_handles h).
Proof. rewrite handle_nth. intros H. apply nth_error_Some. congruence. Qed.

Record hinv h : Prop := {
  hi_zero : nth_error (h_data h) zeroes = Some (repeat zero size);
  hi_handle : forall i l, handle h i = Some l -> l < length (h_data h);
  hi_pool_nodup : NoDup (h_pool h);
  hi_pool : forall l, In l (h_pool h) ->
    l <> zeroes /\ l < length (h_data h) /\ (forall i, handle h i <> Some l)
}.

Lemma sc_one h i l : strong_count h l = 1 -> handle h i = Some l ->
  l <> zeroes /\ ~ In l (h_pool h) /\ (forall j, handle h j = Some l -> j = i).
Proof.
  unfold strong_count. intros C H. rewrite handle_nth in H.
  pose proof (count_handles_pos _ _ _ H) as P.
  destruct (Nat.eqb_spec l zeroes); [lia|].
  split; [assumption|]. split.
  - apply count_nat_0. lia.
  - intros j Hj. rewrite handle_nth in Hj.
    eapply count_handles_unique; [|exact Hj|exact H]. lia.
Qed.

Lemma sc_one_intro h i l : handle h i = Some l -> l <> zeroes -> ~ In l (h_pool h) ->
  (forall j, handle h j = Some l -> j = i) -> strong_count h l = 1.
Proof.
  intros H N P U. unfold strong_count.
  rewrite (proj2 (count_nat_0 _ _) P).
  destruct (Nat.eqb_spec l zeroes); [contradiction|].
  rewrite (count_handles_one l (h_handles h) i); [reflexivity|now apply handle_nth|].
  intros j Hj. apply U. now apply handle_nth.
Qed.

Lemma sc_zero_intro h l : l <> zeroes -> ~ In l (h_pool h) ->
  (forall j, handle h j <> Some l) -> strong_count h l = 0.
Proof.
  intros N P U. unfold strong_count.
  rewrite (proj2 (count_nat_0 _ _) P).
  destruct (Nat.eqb_spec l zeroes); [contradiction|].
  replace (count_handles l (h_handles h)) with 0; [reflexivity|].
  symmetry; apply count_handles_0. intros j E. apply (U j). now apply handle_nth.
Qed.

Lemma nth_contents h l v : nth_error (h_data h) l = Some v -> contents h l = v.
Proof. intros H. unfold contents. now apply nth_error_nth. Qed.

Lemma make_mut_spec h i l v l' h' :
  hinv h -> handle h i = Some l -> nth_error (h_data h) l = Some v ->
  make_mut zero size h i l = (l', h') ->
  h_handles h' = set_nth i (Some l') (h_handles h) /\
  l' <> zeroes /\ l' < length (h_data h') /\ length (h_data h) <= length (h_data h') /\
  (forall j, j <> i -> handle h j <> Some l') /\
  NoDup (h_pool h') /\ incl (h_pool h') (h_pool h) /\ ~ In l' (h_pool h') /\
  nth_error (h_data h') l' = Some v /\
  (forall k, k <> l' -> k < length (h_data h) -> nth_error (h_data h') k = nth_error (h_data h) k).
Proof.
  intros I H D M. unfold make_mut in M.
  pose proof (handle_lt _ _ _ H) as Li.
  assert (Ll : l < length (h_data h)) by (eapply hi_handle; eauto).
  destruct (Nat.eqb_spec (strong_count h l) 1) as [C|C]; simpl in M.
  - unfold rc_make_mut in M. rewrite (proj2 (Nat.eqb_eq _ _) C) in M. injection M as <- <-.
    destruct (sc_one _ _ _ C H) as (N & P & U).
    assert (Hs : set_nth i (Some l) (h_handles h) = h_handles h).
    { rewrite handle_nth in H. clear -H. revert i H.
      induction (h_handles h) as [|o hs IH]; intros [|i] H; simpl in *; try discriminate.
      - congruence. - f_equal. now apply IH. }
    split; [now symmetry|]. split; [assumption|]. split; [assumption|]. split; [lia|].
    split. { intros j J E. apply J. now apply U. }
    split; [apply I|]. split; [apply incl_refl|]. split; [assumption|]. split; [assumption|].
    reflexivity.
  - (* a new buffer is taken *)
    assert (Z : zeroes < length (h_data h)).
    { apply nth_error_Some. rewrite (hi_zero h I). discriminate. }
    assert (HA : exists n h1, allocate zero size h = (n, h1) /\ h_handles h1 = h_handles h /\
       n <> zeroes /\ n < length (h_data h1) /\ length (h_data h) <= length (h_data h1) /\
       (forall j, handle h j <> Some n) /\ NoDup (h_pool h1) /\ incl (h_pool h1) (h_pool h) /\
       ~ In n (h_pool h1) /\
       (forall k, k < length (h_data h) -> nth_error (h_data h1) k = nth_error (h_data h) k)).
    { unfold allocate. destruct (h_pool h) as [|n p] eqn:EP.
      - eexists _, _. split; [reflexivity|]. simpl. rewrite app_length; simpl.
        split; [reflexivity|]. split; [unfold zeroes in *; lia|]. split; [lia|]. split; [lia|].
        split. { intros j E. apply (hi_handle h I) in E. lia. }
        rewrite EP. split; [constructor|]. split; [apply incl_refl|]. split; [simpl; tauto|].
        intros k K. now apply nth_error_app1.
      - pose proof (hi_pool_nodup h I) as ND. rewrite EP in ND. inversion ND as [|? ? NI ND']; subst.
        destruct (hi_pool h I n) as (A & B & B'); [rewrite EP; now left|].
        eexists _, _. split; [reflexivity|]. simpl.
        split; [reflexivity|]. split; [assumption|]. split; [assumption|]. split; [lia|].
        split; [assumption|]. split; [assumption|]. split; [intros x X; now right|].
        split; [assumption|]. reflexivity. }
    destruct HA as (n & h1 & EA & Hh & Hn0 & Hnl & Hlen & Hnh & ND & Hincl & Hnp & Hdata).
    rewrite EA in M.
    assert (S0 : strong_count h1 n = 0).
    { apply sc_zero_intro; try assumption. intros j E. apply (Hnh j).
      unfold handle in *. now rewrite Hh in E. }
    unfold rc_make_mut_local in M. rewrite S0 in M. simpl in M.
    assert (Cl : contents h1 l = v).
    { apply nth_contents. now rewrite Hdata. }
    rewrite Cl in M.
    set (h4 := set_handle (set_contents h1 n v) i (Some n)) in *.
    assert (H4h : h_handles h4 = set_nth i (Some n) (h_handles h)) by (unfold h4; simpl; now rewrite Hh).
    assert (S1 : strong_count h4 n = 1).
    { apply (sc_one_intro h4 i).
      - apply handle_nth. rewrite H4h. now apply set_nth_same.
      - assumption.
      - assumption.
      - intros j E. apply handle_nth in E. rewrite H4h in E.
        destruct (Nat.eq_dec j i); [assumption|]. rewrite set_nth_other in E by assumption.
        exfalso. apply (Hnh j). now apply handle_nth. }
    unfold rc_make_mut in M. rewrite S1 in M. simpl in M. injection M as <- <-.
    split; [exact H4h|]. split; [assumption|].
    unfold h4; simpl. rewrite set_nth_length.
    split; [assumption|]. split; [assumption|]. split; [intros j _; apply Hnh|].
    split; [assumption|]. split; [assumption|]. split; [assumption|].
    split; [now apply set_nth_same|].
    intros k K1 K2. rewrite set_nth_other by assumption. now apply Hdata.
Qed.

(** The relation between the heap and the private arrays. *)
Record rel h s : Prop := {
  r_inv : hinv h;
  r_len : length (h_handles h) = length (v_chan s);
  r_none : forall i, handle h i = None <-> vget s i = None;
  r_val : forall i l t v, handle h i = Some l -> vget s i = Some (t, v) ->
    nth_error (h_data h) l = Some v;
  r_tag : forall i j l k t u v w, handle h i = Some l -> handle h j = Some k ->
    vget s i = Some (t, v) -> vget s j = Some (u, w) -> (l = k <-> t = u);
  r_silent : forall i l t v, handle h i = Some l -> vget s i = Some (t, v) -> (l = zeroes <-> t = 0);
  r_next : forall i t v, vget s i = Some (t, v) -> t < v_next s;
  r_pos : 0 < v_next s
}.

Lemma rel_init n : rel (with_capacity zero size n) vals_init.
Proof.
  constructor; simpl; try lia; try reflexivity.
  - constructor; simpl.
    + reflexivity.
    + intros [|i] l H; discriminate.
    + apply NoDup_rev, seq_NoDup.
    + intros l H. apply in_rev in H. apply in_seq in H. rewrite repeat_length.
      split; [unfold zeroes; lia|]. split; [lia|]. intros [|i]; discriminate.
  - intros [|i]; split; reflexivity.
  - intros [|i]; discriminate.
  - intros [|i]; discriminate.
  - intros [|i]; discriminate.
  - intros [|i]; discriminate.
Qed.

Lemma vget_nth s i c : vget s i = Some c <-> nth_error (v_chan s) i = Some (Some c).
Proof.
  unfold vget. destruct (nth_error (v_chan s) i) as [[k|]|]; split; intros H; congruence.
Qed.

Lemma rel_both h s i l : rel h s -> handle h i = Some l -> exists t v, vget s i = Some (t, v).
Proof.
  intros R H. destruct (vget s i) as [[t v]|] eqn:E; [eauto|].
  apply (r_none h s R) in E. congruence.
Qed.

Lemma rel_both' h s i c : rel h s -> vget s i = Some c -> exists l, handle h i = Some l.
Proof.
  intros R H. destruct (handle h i) as [l|] eqn:E; [eauto|].
  apply (r_none h s R) in E. congruence.
Qed.

Lemma handle_app d p hs o i :
  handle (@mk_heap V d p (hs ++ [o])) i =
  if Nat.eqb i (length hs) then o else handle (mk_heap d p hs) i.
Proof.
  unfold handle; simpl. destruct (Nat.eqb_spec i (length hs)).
  - subst. rewrite nth_error_app2, Nat.sub_diag by lia. simpl. destruct o; reflexivity.
  - destruct (Nat.lt_ge_cases i (length hs)).
    + now rewrite nth_error_app1.
    + rewrite (proj2 (nth_error_None hs i)), (proj2 (nth_error_None (hs ++ [o]) i)); try reflexivity;
      rewrite ?app_length; simpl; lia.
Qed.

Lemma vget_app n cs o i :
  vget (@mk_vals V n (cs ++ [o])) i =
  if Nat.eqb i (length cs) then o else vget (mk_vals n cs) i.
Proof.
  unfold vget; simpl. destruct (Nat.eqb_spec i (length cs)).
  - subst. rewrite nth_error_app2, Nat.sub_diag by lia. simpl. destruct o; reflexivity.
  - destruct (Nat.lt_ge_cases i (length cs)).
    + now rewrite nth_error_app1.
    + rewrite (proj2 (nth_error_None cs i)), (proj2 (nth_error_None (cs ++ [o]) i)); try reflexivity;
      rewrite ?app_length; simpl; lia.
Qed.

Lemma handle_set d p hs o i j : i < length hs ->
  handle (@mk_heap V d p (set_nth i o hs)) j = if Nat.eqb j i then o else handle (mk_heap d p hs) j.
Proof.
  intros L. unfold handle; simpl. rewrite set_nth_error.
  destruct (Nat.eqb j i); [|reflexivity].
  destruct (Nat.ltb_spec i (length hs)); [|lia]. destruct o; reflexivity.
Qed.

Lemma vget_set n cs o i j : i < length cs ->
  vget (@mk_vals V n (set_nth i o cs)) j = if Nat.eqb j i then o else vget (mk_vals n cs) j.
Proof.
  intros L. unfold vget; simpl. rewrite set_nth_error.
  destruct (Nat.eqb j i); [|reflexivity].
  destruct (Nat.ltb_spec i (length cs)); [|lia]. destruct o; reflexivity.
Qed.

Lemma handle_eta h i : handle (mk_heap (h_data h) (h_pool h) (h_handles h)) i = handle h i.
Proof. reflexivity. Qed.
Lemma vget_eta s i n : vget (mk_vals n (v_chan s)) i = vget s i.
Proof. reflexivity. Qed.

(** adding a channel that names [c] and refers to [l] *)
Lemma rel_new h s l t v :
  rel h s -> nth_error (h_data h) l = Some v -> ~ In l (h_pool h) ->
  (l = zeroes <-> t = 0) -> t < v_next s ->
  (forall j k u w, handle h j = Some k -> vget s j = Some (u, w) -> (k = l <-> u = t)) ->
  rel (new_handle h l) (mk_vals (v_next s) (v_chan s ++ [Some (t, v)])).
Proof.
  intros R D P Z N T. pose proof (r_len h s R) as Len.
  unfold new_handle. constructor; simpl; rewrite ?app_length; simpl; try lia; try apply R.
  - constructor; simpl; try apply R.
    + intros i k. rewrite handle_app. destruct (Nat.eqb i _).
      * intros E; injection E as <-. apply nth_error_Some. congruence.
      * apply R.
    + intros k K. destruct (hi_pool h (r_inv h s R) k K) as (A & B & C).
      split; [assumption|]. split; [assumption|]. intros i. rewrite handle_app.
      destruct (Nat.eqb i _); [intros E; injection E as <-; contradiction|]. apply C.
  - intros i. rewrite handle_app, vget_app, Len. destruct (Nat.eqb i _); [split; discriminate|].
    rewrite handle_eta, vget_eta. apply R.
  - intros i k u w. rewrite handle_app, vget_app, Len. destruct (Nat.eqb i _).
    + intros E F; injection E as <-; injection F as <- <-. assumption.
    + apply R.
  - intros i j k m u w x y. rewrite !handle_app, !vget_app, Len.
    destruct (Nat.eqb i _), (Nat.eqb j _); intros A B C E.
    + injection A as <-; injection B as <-; injection C as <- <-; injection E as <- <-. tauto.
    + injection A as <-; injection C as <- <-. specialize (T j m w y B E). split; intros; symmetry; apply T; congruence.
    + injection B as <-; injection E as <- <-. exact (T i k u x A C).
    + exact (r_tag h s R i j k m u w x y A B C E).
  - intros i k u w. rewrite handle_app, vget_app, Len. destruct (Nat.eqb i _).
    + intros E F; injection E as <-; injection F as <- <-. assumption.
    + apply R.
  - intros i u w. rewrite vget_app. destruct (Nat.eqb i _).
    + intros F; injection F as <- <-. assumption.
    + apply R.
Qed.

Lemma handle_not_pool h s i l : rel h s -> handle h i = Some l -> ~ In l (h_pool h).
Proof. intros R H I. destruct (hi_pool h (r_inv h s R) l I) as (_ & _ & C). exact (C i H). Qed.

(** dropping a channel *)
Lemma rel_drop h s i l :
  rel h s -> handle h i = Some l ->
  rel (drop h i l) (mk_vals (v_next s) (set_nth i None (v_chan s))).
Proof.
  intros R H. pose proof (r_len h s R) as Len. pose proof (handle_lt _ _ _ H) as Li.
  assert (Li' : i < length (v_chan s)) by lia.
  pose proof (r_inv h s R) as I.
  assert (Base : forall p, NoDup p ->
    (forall k, In k p -> k <> zeroes /\ k < length (h_data h) /\ (forall j, j <> i -> handle h j <> Some k)) ->
    rel (mk_heap (h_data h) p (set_nth i None (h_handles h))) (mk_vals (v_next s) (set_nth i None (v_chan s)))).
  { intros p ND HP. constructor; simpl; rewrite ?set_nth_length; try assumption; try apply R.
    - constructor; simpl; try apply I; try assumption.
      + intros j k. rewrite handle_set by assumption. destruct (Nat.eqb j i); [discriminate|]. apply I.
      + intros k K. destruct (HP k K) as (A & B & C). split; [assumption|]. split; [assumption|].
        intros j. rewrite handle_set by assumption. destruct (Nat.eqb_spec j i); [discriminate|].
        now apply C.
    - intros j. rewrite handle_set, vget_set by assumption.
      destruct (Nat.eqb j i); [tauto|]. apply R.
    - intros j k t v. rewrite handle_set, vget_set by assumption.
      destruct (Nat.eqb j i); [discriminate|]. apply R.
    - intros j j' k k' t t' v v'. rewrite !handle_set, !vget_set by assumption.
      destruct (Nat.eqb j i); [discriminate|]. destruct (Nat.eqb j' i); [discriminate|]. apply R.
    - intros j k t v. rewrite handle_set, vget_set by assumption.
      destruct (Nat.eqb j i); [discriminate|]. apply R.
    - intros j t v. rewrite vget_set by assumption.
      destruct (Nat.eqb j i); [discriminate|]. apply R. }
  unfold drop. destruct (Nat.eqb_spec (strong_count h l) 1) as [C|C].
  - destruct (sc_one _ _ _ C H) as (N & P & U). apply Base.
    + constructor; [assumption|apply I].
    + intros k [<-|K].
      * split; [assumption|]. split; [now apply (hi_handle h I i)|].
        intros j J E. apply J. now apply U.
      * destruct (hi_pool h I k K) as (A & B & B'). split; [assumption|]. split; [assumption|].
        intros j _. apply B'.
  - apply Base; [apply I|]. intros k K. destruct (hi_pool h I k K) as (A & B & B').
    split; [assumption|]. split; [assumption|]. intros j _. apply B'.
Qed.

(** [*self = other] where the new value is held by a temporary *)
Lemma rel_assign h s i li l t v :
  rel h s -> handle h i = Some li ->
  nth_error (h_data h) l = Some v -> ~ In l (h_pool h) ->
  (l = zeroes <-> t = 0) -> t < v_next s ->
  (forall j k u w, handle h j = Some k -> vget s j = Some (u, w) -> (k = l <-> u = t)) ->
  let h2 := drop (new_handle h l) i li in
  rel (mk_heap (h_data h2) (h_pool h2) (set_nth i (Some l) (removelast (h_handles h2))))
      (mk_vals (v_next s) (set_nth i (Some (t, v)) (v_chan s))).
Proof.
  intros R H D P Z N T h2.
  pose proof (rel_new h s l t v R D P Z N T) as R1.
  pose proof (handle_lt _ _ _ H) as Li. pose proof (r_len h s R) as Len.
  assert (H1 : handle (new_handle h l) i = Some li).
  { unfold new_handle. rewrite handle_app. destruct (Nat.eqb_spec i (length (h_handles h))); [lia|].
    exact H. }
  pose proof (rel_drop _ _ i li R1 H1) as R2. fold h2 in R2. simpl in R2.
  assert (Eh : h_handles h2 = set_nth i None (h_handles h ++ [Some l])).
  { unfold h2, drop. destruct (Nat.eqb _ 1); reflexivity. }
  rewrite Eh, removelast_set_nth_app, set_nth_twice by assumption.
  (* the temporary, at index [length handles], becomes index [i] *)
  set (n := length (h_handles h)) in *.
  assert (G : forall j, handle (mk_heap (h_data h2) (h_pool h2) (set_nth i (Some l) (h_handles h))) j =
      if Nat.eqb j i then Some l else if Nat.eqb j n then None else handle h2 j).
  { intros j. rewrite handle_set by assumption. destruct (Nat.eqb_spec j i); [reflexivity|].
    unfold handle; simpl; rewrite Eh. rewrite set_nth_other by assumption.
    destruct (Nat.eqb_spec j n).
    - subst j. now rewrite (proj2 (nth_error_None (h_handles h) n)) by (unfold n; lia).
    - destruct (Nat.lt_ge_cases j n).
      + now rewrite nth_error_app1.
      + rewrite (proj2 (nth_error_None (h_handles h) j)) by (unfold n in *; lia).
        rewrite (proj2 (nth_error_None (h_handles h ++ [Some l]) j)); [reflexivity|].
        rewrite app_length; simpl; unfold n in *; lia. }
  assert (G2 : forall j, vget (mk_vals (v_next s) (set_nth i (Some (t,v)) (v_chan s))) j =
      if Nat.eqb j i then Some (t,v) else if Nat.eqb j n then None else
      vget (mk_vals (v_next s) (set_nth i None (v_chan s ++ [Some (t,v)]))) j).
  { intros j. rewrite vget_set by lia. destruct (Nat.eqb_spec j i) as [|Nji]; [reflexivity|].
    rewrite vget_set by (rewrite app_length; lia). rewrite (proj2 (Nat.eqb_neq j i) Nji).
    rewrite vget_app, vget_eta. rewrite <- Len. fold n.
    destruct (Nat.eqb_spec j n); [|reflexivity]. subst j. unfold vget.
    now rewrite (proj2 (nth_error_None (v_chan s) n)) by (unfold n; lia). }
  assert (Gn : handle h2 n = Some l).
  { apply handle_nth. rewrite Eh. rewrite set_nth_other by lia.
    rewrite nth_error_app2 by (unfold n; lia). unfold n; rewrite Nat.sub_diag. reflexivity. }
  assert (Vn : vget (mk_vals (v_next s) (set_nth i None (v_chan s ++ [Some (t,v)]))) n = Some (t,v)).
  { rewrite vget_set by (rewrite app_length; lia).
    destruct (Nat.eqb_spec n i); [lia|]. rewrite vget_app, <- Len. fold n. now rewrite Nat.eqb_refl. }
  destruct R2 as [I2 L2 N2 V2 T2 S2 X2 P2].
  constructor; simpl; rewrite ?set_nth_length; try assumption.
  - constructor; simpl; try apply I2.
    + intros j k. rewrite G. destruct (Nat.eqb j i); [|destruct (Nat.eqb j n)].
      * intros E; injection E as <-. now apply (hi_handle h2 I2 n).
      * discriminate.
      * apply I2.
    + intros k K. destruct (hi_pool h2 I2 k K) as (A & B & C). split; [assumption|]. split; [assumption|].
      intros j. rewrite G. destruct (Nat.eqb j i); [|destruct (Nat.eqb j n)].
      * intros E; injection E as <-. exact (C n Gn).
      * discriminate.
      * apply C.
  - intros j. rewrite G, G2. destruct (Nat.eqb j i); [|destruct (Nat.eqb j n)].
    + split; discriminate.
    + tauto.
    + apply N2.
  - intros j k u w. rewrite G, G2. destruct (Nat.eqb j i); [|destruct (Nat.eqb j n)].
    + intros E F; injection E as <-; injection F as <- <-. exact (V2 n l t v Gn Vn).
    + discriminate.
    + apply V2.
  - intros j j' k k' u u' w w'. rewrite !G, !G2.
    destruct (Nat.eqb j i); [|destruct (Nat.eqb j n); [discriminate|]];
    (destruct (Nat.eqb j' i); [|destruct (Nat.eqb j' n); [discriminate|]]); intros A B C E.
    + injection A as <-; injection B as <-; injection C as <- <-; injection E as <- <-. tauto.
    + injection A as <-; injection C as <- <-. exact (T2 n j' _ _ _ _ _ _ Gn B Vn E).
    + injection B as <-; injection E as <- <-. exact (T2 j n _ _ _ _ _ _ A Gn C Vn).
    + exact (T2 j j' _ _ _ _ _ _ A B C E).
  - intros j k u w. rewrite G, G2. destruct (Nat.eqb j i); [|destruct (Nat.eqb j n)].
    + intros E F; injection E as <-; injection F as <- <-. exact (S2 n l t v Gn Vn).
    + discriminate.
    + apply S2.
  - intros j u w. rewrite G2. destruct (Nat.eqb j i); [|destruct (Nat.eqb j n)].
    + intros F; injection F as <- <-. assumption.
    + discriminate.
    + apply X2.
Qed.

Lemma rel_step h s o :
  rel h s ->
  match hstep zero size h o, vstep zero size s o with
  | Some h', Some s' => rel h' s'
  | None, None => True
  | _, _ => False
  end.
Proof.
  intros R. pose proof (r_len h s R) as Len. pose proof (r_inv h s R) as I.
  assert (ZP : ~ In zeroes (h_pool h)).
  { intros X. destruct (hi_pool h I zeroes X) as (A & _). now apply A. }
  assert (ZT : forall j k u w, handle h j = Some k -> vget s j = Some (u, w) -> (k = zeroes <-> u = 0)).
  { intros j k u w A B. exact (r_silent h s R j k u w A B). }
  destruct o as [|i|i f|i j|i|i]; cbn [hstep vstep].
  - apply rel_new; try assumption; try apply R; try tauto.
  - destruct (handle h i) as [l|] eqn:E.
    + destruct (rel_both h s i l R E) as (t & v & F). rewrite F.
      apply rel_new; try assumption.
      * exact (r_val h s R i l t v E F).
      * exact (handle_not_pool h s i l R E).
      * exact (r_silent h s R i l t v E F).
      * exact (r_next h s R i t v F).
      * intros j k u w A B. exact (r_tag h s R j i k l u t w v A E B F).
    + apply (r_none h s R) in E. now rewrite E.
  - destruct (handle h i) as [l|] eqn:E.
    2: { apply (r_none h s R) in E. now rewrite E. }
    destruct (rel_both h s i l R E) as (t & v & F). rewrite F.
    pose proof (r_val h s R i l t v E F) as D.
    destruct (make_mut zero size h i l) as [l' h'] eqn:M.
    destruct (make_mut_spec h i l v l' h' I E D M) as (Hh & Hz & Hl & Hle & Hu & ND & Inc & NP & Hv & Ho).
    pose proof (handle_lt _ _ _ E) as Li.
    rewrite (nth_contents h' l' v Hv).
    set (h3 := set_contents h' l' (f v)).
    assert (G : forall j, handle h3 j = if Nat.eqb j i then Some l' else handle h j).
    { intros j. unfold h3, set_contents. rewrite Hh. now rewrite handle_set. }
    assert (G2 : forall n j, vget (mk_vals n (set_nth i (Some (v_next s, f v)) (v_chan s))) j =
                if Nat.eqb j i then Some (v_next s, f v) else vget s j).
    { intros n j. now rewrite vget_set by lia. }
    assert (Hd : nth_error (h_data h3) l' = Some (f v)) by (unfold h3; simpl; now apply set_nth_same).
    assert (Hd' : forall k, k <> l' -> k < length (h_data h) -> nth_error (h_data h3) k = nth_error (h_data h) k).
    { intros k K1 K2. unfold h3; simpl. rewrite set_nth_other by assumption. now apply Ho. }
    assert (Hlen3 : length (h_data h3) = length (h_data h')) by (unfold h3; simpl; apply set_nth_length).
    assert (Hp3 : h_pool h3 = h_pool h') by reflexivity.
    assert (Zl : zeroes < length (h_data h)).
    { apply nth_error_Some. rewrite (hi_zero h I). discriminate. }
    constructor.
    + constructor.
      * rewrite Hd'; [apply I|congruence|assumption].
      * intros j k. rewrite G, Hlen3. destruct (Nat.eqb j i).
        -- intros X; injection X as <-. assumption.
        -- intros X. apply (hi_handle h I) in X. lia.
      * now rewrite Hp3.
      * intros k K. rewrite Hp3 in K. destruct (hi_pool h I k (Inc k K)) as (A & B & C).
        split; [assumption|]. split; [lia|]. intros j. rewrite G. destruct (Nat.eqb j i).
        -- intros X; injection X as <-. contradiction.
        -- apply C.
    + unfold h3; simpl. rewrite Hh, !set_nth_length. assumption.
    + intros j. rewrite G, G2. destruct (Nat.eqb j i); [split; discriminate|apply R].
    + intros j k u w. rewrite G, G2. destruct (Nat.eqb_spec j i).
      * intros X Y; injection X as <-; injection Y as <- <-. assumption.
      * intros X Y. rewrite Hd'.
        -- exact (r_val h s R j k u w X Y).
        -- intros ->. exact (Hu j n X).
        -- now apply (hi_handle h I j).
    + intros j j' k k' u u' w w'. rewrite !G, !G2.
      destruct (Nat.eqb_spec j i) as [->|Nj]; destruct (Nat.eqb_spec j' i) as [->|Nj']; intros A B C X.
      * injection A as <-; injection B as <-; injection C as <- <-; injection X as <- <-. tauto.
      * injection A as <-; injection C as <- <-. pose proof (r_next h s R j' u' w' X).
        split; [intros <-; exfalso; exact (Hu j' Nj' B)|lia].
      * injection B as <-; injection X as <- <-. pose proof (r_next h s R j u w C).
        split; [intros ->; exfalso; exact (Hu j Nj A)|lia].
      * exact (r_tag h s R j j' k k' u u' w w' A B C X).
    + intros j k u w. rewrite G, G2. destruct (Nat.eqb j i).
      * intros X Y; injection X as <-; injection Y as <- <-. pose proof (r_pos h s R).
        split; [congruence|lia].
      * apply R.
    + intros j u w. rewrite G2. simpl. destruct (Nat.eqb j i).
      * intros Y; injection Y as <- <-. lia.
      * intros Y. apply (r_next h s R) in Y. lia.
    + simpl. lia.
  - destruct (handle h i) as [li|] eqn:Ei.
    2: { apply (r_none h s R) in Ei. now rewrite Ei. }
    destruct (rel_both h s i li R Ei) as (ti & vi & Fi). rewrite Fi.
    destruct (handle h j) as [lj|] eqn:Ej.
    2: { apply (r_none h s R) in Ej. now rewrite Ej. }
    destruct (rel_both h s j lj R Ej) as (tj & vj & Fj). rewrite Fj.
    apply rel_assign; try assumption.
    + exact (r_val h s R j lj tj vj Ej Fj).
    + exact (handle_not_pool h s j lj R Ej).
    + exact (r_silent h s R j lj tj vj Ej Fj).
    + exact (r_next h s R j tj vj Fj).
    + intros k lk u w A B. exact (r_tag h s R k j lk lj u tj w vj A Ej B Fj).
  - destruct (handle h i) as [li|] eqn:Ei.
    2: { apply (r_none h s R) in Ei. now rewrite Ei. }
    destruct (rel_both h s i li R Ei) as (ti & vi & Fi). rewrite Fi.
    apply rel_assign; try assumption; try apply R; try tauto.
  - destruct (handle h i) as [l|] eqn:E.
    2: { apply (r_none h s R) in E. now rewrite E. }
    destruct (rel_both h s i l R E) as (t & v & F). rewrite F.
    now apply rel_drop.
Qed.

Lemma rel_run os : forall h s, rel h s ->
  match hrun zero size h os, vrun zero size s os with
  | Some h', Some s' => rel h' s'
  | None, None => True
  | _, _ => False
  end.
Proof.
  induction os as [|o os IH]; intros h s R; cbn [hrun vrun]; [assumption|].
  pose proof (rel_step h s o R) as St.
  destruct (hstep zero size h o), (vstep zero size s o); try contradiction; [|assumption].
  now apply IH.
Qed.

Lemma vstep_zero s o s' :
  (forall i v, vget s i = Some (0, v) -> v = repeat zero size) -> 0 < v_next s ->
  vstep zero size s o = Some s' ->
  (forall i v, vget s' i = Some (0, v) -> v = repeat zero size) /\ 0 < v_next s'.
Proof.
  intros Z P E. destruct o as [|i|i f|i j|i|i]; cbn [vstep] in E.
  - injection E as <-. split; [|assumption]. intros k v. rewrite vget_app.
    destruct (Nat.eqb k _); [intros X; injection X as <-; reflexivity|apply Z].
  - destruct (vget s i) as [c|] eqn:F; [|discriminate]. injection E as <-. split; [|assumption].
    intros k v. rewrite vget_app. destruct (Nat.eqb k _).
    + intros X; injection X as ->. exact (Z i v F).
    + apply Z.
  - destruct (vget s i) as [[t w]|] eqn:F; [|discriminate]. injection E as <-. split; [|simpl; lia].
    assert (i < length (v_chan s)) by (apply vget_nth in F; apply nth_error_Some; congruence).
    intros k v. rewrite vget_set by assumption. destruct (Nat.eqb k i).
    + intros X. injection X as X _. lia.
    + apply Z.
  - destruct (vget s i) as [ci|] eqn:F; [|discriminate]. destruct (vget s j) as [c|] eqn:G; [|discriminate].
    injection E as <-. split; [|assumption].
    assert (i < length (v_chan s)) by (apply vget_nth in F; apply nth_error_Some; congruence).
    intros k v. rewrite vget_set by assumption. destruct (Nat.eqb k i).
    + intros X. injection X as ->. exact (Z j v G).
    + apply Z.
  - destruct (vget s i) as [ci|] eqn:F; [|discriminate]. injection E as <-. split; [|assumption].
    assert (i < length (v_chan s)) by (apply vget_nth in F; apply nth_error_Some; congruence).
    intros k v. rewrite vget_set by assumption. destruct (Nat.eqb k i).
    + intros X. injection X as <-. reflexivity.
    + apply Z.
  - destruct (vget s i) as [ci|] eqn:F; [|discriminate]. injection E as <-. split; [|assumption].
    assert (i < length (v_chan s)) by (apply vget_nth in F; apply nth_error_Some; congruence).
    intros k v. rewrite vget_set by assumption. destruct (Nat.eqb k i); [discriminate|apply Z].
Qed.

(** Main statements *)
Theorem heap_refines n os :
  match hrun zero size (with_capacity zero size n) os, vrun zero size vals_init os with
  | Some h, Some s =>
      (forall i, hread h i = option_map snd (vget s i)) /\
      (forall i, his_silent h i = option_map (fun c => Nat.eqb (fst c) 0) (vget s i)) /\
      (forall i j, hptr_eq h i j =
         match vget s i, vget s j with
         | Some a, Some b => Some (Nat.eqb (fst a) (fst b)) | _, _ => None end)
  | None, None => True
  | _, _ => False
  end.
Proof.
  pose proof (rel_run os _ _ (rel_init n)) as R.
  destruct (hrun _ _ _ os) as [h|], (vrun _ _ _ os) as [s|]; try exact R.
  assert (L : forall i, match handle h i, vget s i with
             | Some _, Some _ => True | None, None => True | _, _ => False end).
  { intros i. destruct (handle h i) eqn:E.
    - destruct (rel_both h s i n0 R E) as (t & v & ->). exact Logic.I.
    - apply (r_none h s R) in E. now rewrite E. }
  split; [|split].
  - intros i. specialize (L i). unfold hread. destruct (handle h i) eqn:E, (vget s i) as [[t v]|] eqn:F; try contradiction; [|reflexivity].
    exact (r_val h s R i _ t v E F).
  - intros i. specialize (L i). unfold his_silent. destruct (handle h i) eqn:E, (vget s i) as [[t v]|] eqn:F; try contradiction; [|reflexivity].
    simpl. f_equal. pose proof (r_silent h s R i _ t v E F).
    destruct (Nat.eqb_spec n0 zeroes), (Nat.eqb_spec t 0); try reflexivity; tauto.
  - intros i j. pose proof (L i) as Li. pose proof (L j) as Lj. unfold hptr_eq.
    destruct (handle h i) eqn:E, (vget s i) as [[t v]|] eqn:F; try contradiction; [|reflexivity].
    destruct (handle h j) eqn:E', (vget s j) as [[t' v']|] eqn:F'; try contradiction; [|reflexivity].
    simpl. f_equal. pose proof (r_tag h s R i j _ _ t t' v v' E E' F F').
    destruct (Nat.eqb_spec n0 n1), (Nat.eqb_spec t t'); try reflexivity; tauto.
Qed.

Theorem heap_invariant n os h :
  hrun zero size (with_capacity zero size n) os = Some h ->
  nth_error (h_data h) zeroes = Some (repeat zero size) /\
  (forall l, In l (h_pool h) -> forall i, handle h i <> Some l) /\ NoDup (h_pool h) /\ ~ In zeroes (h_pool h).
Proof.
  intros E. pose proof (rel_run os _ _ (rel_init n)) as R. rewrite E in R.
  destruct (vrun _ _ _ os) as [s|]; [|contradiction].
  destruct R as [[Z H N P] _ _ _ _ _ _ _]. split; [assumption|]. split; [|split; [assumption|]].
  - intros l L. apply (P l L).
  - intros X. destruct (P _ X) as (A & _). now apply A.
Qed.

Theorem heap_silent n os h i :
  hrun zero size (with_capacity zero size n) os = Some h ->
  his_silent h i = Some true -> hread h i = Some (repeat zero size).
Proof.
  intros E S. destruct (heap_invariant n os h E) as (Z & _).
  unfold his_silent in S. unfold hread. destruct (handle h i); [|discriminate].
  injection S as S. apply Nat.eqb_eq in S. now subst.
Qed.

End Proofs.
