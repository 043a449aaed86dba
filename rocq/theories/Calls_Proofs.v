(** Proofs about connection calls: the calls on node identifiers refine the links
    between nodes. *)
From Coq Require Import List Arith Bool Lia.
From Verif Require Import Graph_Model Protocol_Model Calls_Model Calls_Spec.
Import ListNotations.

Notation table := (list (object * bool)).

Definition obj (t : table) (a : nat) : object :=
  match nth_error t a with Some (o, _) => o | None => mk_object 0 0 0 0 0 end.
Definition live_at (t : table) (a : nat) (o : object) : Prop := nth_error t a = Some (o, true).
Definition image (t : table) (l : link) : conn :=
  let '(a, out, b, inp) := l in (o_out (obj t a), out, o_in (obj t b), Some inp).
Definition csrc (c : conn) : nat := let '(s, _, _, _) := c in s.
Definition cdst (c : conn) : nat := let '(_, _, d, _) := c in d.
Definition lsrc (l : link) : nat := let '(a, _, _, _) := l in a.
Definition ldst (l : link) : nat := let '(_, _, b, _) := l in b.
Definition vis (t : table) (ctx : nat) (c : conn) : bool :=
  existsb (fun ob => snd ob && Nat.eqb (o_ctx (fst ob)) ctx && Nat.eqb (o_out (fst ob)) (csrc c)) t.
Definition within (t : table) (ctx : nat) (l : link) : bool := Nat.eqb (o_ctx (obj t (lsrc l))) ctx.
Definition used (t : table) (ctx id : nat) : Prop :=
  exists a o, live_at t a o /\ o_ctx o = ctx /\ (o_in o = id \/ o_out o = id).
Definition known (t : table) (ctx id : nat) : Prop := id <= 10 \/ used t ctx id.

Definition rel (ob : object * bool) (n : node) : Prop :=
  o_ctx (fst ob) = n_ctx n /\ o_ins (fst ob) = n_ins n /\ o_outs (fst ob) = n_outs n /\
  snd ob = n_alive n /\ magic (o_in (fst ob)) = n_stays n.

Record J (t : table) (cn : nat -> list conn) (v : view) : Prop := {
  j_tab : Forall2 rel t (v_nodes v);
  j_dis : forall a b x y, live_at t a x -> live_at t b y -> o_ctx x = o_ctx y -> a <> b ->
          o_in x <> o_in y /\ o_in x <> o_out y /\ o_out x <> o_out y;
  j_one : forall a x, live_at t a x ->
          o_in x <> 1 /\ o_out x <> 1 /\ (o_in x = o_out x \/ (10 < o_in x /\ 10 < o_out x));
  j_lnk : forall l, In l (v_links v) ->
          exists x y, live_at t (lsrc l) x /\ live_at t (ldst l) y /\ o_ctx x = o_ctx y;
  j_cns : forall ctx, filter (vis t ctx) (cn ctx) = map (image t) (filter (within t ctx) (v_links v));
  j_end : forall ctx c, In c (cn ctx) -> known t ctx (csrc c) /\ known t ctx (cdst c)
}.

Lemma obj_live t a x : live_at t a x -> obj t a = x.
Proof. unfold live_at, obj. now intros ->. Qed.

Lemma vis_true t ctx c : vis t ctx c = true <-> exists a o, live_at t a o /\ o_ctx o = ctx /\ o_out o = csrc c.
Proof.
  unfold vis. rewrite existsb_exists. split.
  - intros ((o, b) & Hin & H). cbn [fst snd] in H.
    apply andb_true_iff in H as [H H3]. apply andb_true_iff in H as [H1 H2].
    apply Nat.eqb_eq in H2, H3. subst b. apply In_nth_error in Hin as [a Ha]. exists a, o. repeat split; assumption.
  - intros (a & o & Ha & H1 & H2). exists (o, true). split; [eapply nth_error_In; exact Ha|].
    cbn [fst snd]. rewrite H1, H2, !Nat.eqb_refl. reflexivity.
Qed.

Lemma filter_ext_In {X} (f g : X -> bool) l : (forall x, In x l -> f x = g x) -> filter f l = filter g l.
Proof.
  induction l as [|x l IH]; intros H; [reflexivity|]. cbn [filter].
  rewrite (H x) by (now left). rewrite IH; [reflexivity|]. intros y Hy; apply H; now right.
Qed.
Lemma filter_none {X} (f : X -> bool) l : (forall x, In x l -> f x = false) -> filter f l = [].
Proof.
  induction l as [|x l IH]; intros H; [reflexivity|]. cbn [filter].
  rewrite (H x) by (now left). apply IH; intros y Hy; apply H; now right.
Qed.
Lemma filter_filter {X} (f g : X -> bool) l : filter f (filter g l) = filter (fun x => g x && f x) l.
Proof.
  induction l as [|x l IH]; [reflexivity|]. cbn [filter]. destruct (g x); cbn [filter andb]; rewrite ?IH; reflexivity.
Qed.
Lemma filter_map {X Y} (f : Y -> bool) (g : X -> Y) l : filter f (map g l) = map g (filter (fun x => f (g x)) l).
Proof.
  induction l as [|x l IH]; [reflexivity|]. cbn [filter map]. destruct (f (g x)); cbn [map]; rewrite IH; reflexivity.
Qed.
Lemma filter_swap {X} (f g : X -> bool) l : filter f (filter g l) = filter g (filter f l).
Proof. rewrite !filter_filter. apply filter_ext_In. intros. apply andb_comm. Qed.

Lemma conn_eqb_eq c d : conn_eqb c d = true <-> c = d.
Proof.
  destruct c as [[[s o] e] p], d as [[[s' o'] e'] p']. unfold conn_eqb.
  rewrite !andb_true_iff, !Nat.eqb_eq. unfold port_eqb. split.
  - intros [[[-> ->] ->] H]. destruct p, p'; try discriminate; [apply Nat.eqb_eq in H as ->|]; reflexivity.
  - intros [= -> -> -> ->]. repeat split. destruct p'; [apply Nat.eqb_refl|reflexivity].
Qed.
Lemma same_link_eq l m : same_link l m = true <-> l = m.
Proof.
  destruct l as [[[a o] b] i], m as [[[a' o'] b'] i']. unfold same_link.
  rewrite !andb_true_iff, !Nat.eqb_eq. split; [intros [[[-> ->] ->] ->]|intros [= -> -> -> ->]]; auto.
Qed.

(** the table is only read at live entries *)
Lemma rel_held t v a : Forall2 rel t (v_nodes v) ->
  (exists x n, nth_error t a = Some (x, true) /\ alive v a = Some n /\ rel (x, true) n)
  \/ ((forall x, nth_error t a <> Some (x, true)) /\ alive v a = None).
Proof.
  intros F. unfold alive. revert a. induction F as [|ob n t ns R F IH]; intros a.
  - right. destruct a; split; cbn; congruence.
  - destruct a as [|a]; cbn [nth_error]; [|apply IH].
    destruct ob as [o b]. pose proof R as (_ & _ & _ & Hb & _). cbn [snd] in Hb.
    destruct b.
    + left. exists o, n. rewrite <- Hb. repeat split; try reflexivity; apply R.
    + right. rewrite <- Hb. split; [intros x [=]|reflexivity].
Qed.

(** identifying a connection from a live object's output *)
Section In_J.
Variables (t : table) (cn : nat -> list conn) (v : view).
Hypothesis HJ : J t cn v.

Lemma out_inj a b x y : live_at t a x -> live_at t b y -> o_ctx x = o_ctx y -> o_out x = o_out y -> a = b.
Proof.
  intros Ha Hb Hc He. destruct (Nat.eq_dec a b) as [|N]; [assumption|].
  destruct (j_dis _ _ _ HJ a b x y Ha Hb Hc N) as (_ & _ & N'). contradiction.
Qed.
Lemma in_inj a b x y : live_at t a x -> live_at t b y -> o_ctx x = o_ctx y -> o_in x = o_in y -> a = b.
Proof.
  intros Ha Hb Hc He. destruct (Nat.eq_dec a b) as [|N]; [assumption|].
  destruct (j_dis _ _ _ HJ a b x y Ha Hb Hc N) as (N' & _ & _). contradiction.
Qed.

Lemma image_inj l m ctx :
  In l (v_links v) -> within t ctx l = true ->
  (exists x y, live_at t (lsrc m) x /\ live_at t (ldst m) y /\ o_ctx x = ctx /\ o_ctx y = ctx) ->
  image t l = image t m -> l = m.
Proof.
  intros Hl Hw (x' & y' & Hx' & Hy' & C1' & C2') E.
  destruct (j_lnk _ _ _ HJ l Hl) as (x & y & Hx & Hy & C).
  destruct l as [[[a o] b] i], m as [[[a' o'] b'] i']. cbn [lsrc ldst] in *.
  unfold within in Hw. cbn [lsrc] in Hw. apply Nat.eqb_eq in Hw.
  rewrite (obj_live _ _ _ Hx) in Hw. unfold image in E.
  rewrite (obj_live _ _ _ Hx), (obj_live _ _ _ Hy), (obj_live _ _ _ Hx'), (obj_live _ _ _ Hy') in E.
  injection E as E1 -> E2 ->.
  rewrite (out_inj a a' x x' Hx Hx' ltac:(congruence) E1).
  rewrite (in_inj b b' y y' Hy Hy' ltac:(congruence) E2). reflexivity.
Qed.

(** the selection of connections is the selection of links *)
Lemma selects_image a x out b inp (l : link) dst :
  live_at t a x ->
  match b with None => dst = None | Some b' => exists y, live_at t b' y /\ o_ctx y = o_ctx x /\ dst = Some (o_in y) end ->
  In l (v_links v) -> within t (o_ctx x) l = true ->
  selects (o_out x) out dst (match inp with Some i => Some (Some i) | None => None end) (image t l)
  = matches a out b inp l.
Proof.
  intros Ha Hb Hl Hw. destruct (j_lnk _ _ _ HJ l Hl) as (x' & y' & Hx & Hy & C).
  destruct l as [[[a' o'] b'] i']. cbn [lsrc ldst] in *.
  unfold within in Hw. cbn [lsrc] in Hw. apply Nat.eqb_eq in Hw. rewrite (obj_live _ _ _ Hx) in Hw.
  unfold image, selects, matches. rewrite (obj_live _ _ _ Hx), (obj_live _ _ _ Hy).
  f_equal; [f_equal; [f_equal| ]| ].
  - destruct (Nat.eqb a' a) eqn:E.
    + apply Nat.eqb_eq in E as ->. unfold live_at in *. rewrite Ha in Hx. injection Hx as <-. apply Nat.eqb_refl.
    + rewrite Nat.eqb_neq in E |- *. intro E'. apply E. eapply out_inj; eauto.
  - destruct b as [b0|].
    + destruct Hb as (y & Hy0 & C0 & ->). unfold given.
      destruct (Nat.eqb b' b0) eqn:E.
      * apply Nat.eqb_eq in E as ->. unfold live_at in *. rewrite Hy0 in Hy. injection Hy as <-. apply Nat.eqb_refl.
      * rewrite Nat.eqb_neq in E |- *. intro E'. apply E. eapply in_inj; eauto. congruence.
    + subst dst. reflexivity.
  - destruct inp; reflexivity.
Qed.

Lemma sel_links a x out b inp dst :
  live_at t a x ->
  match b with None => dst = None | Some b' => exists y, live_at t b' y /\ o_ctx y = o_ctx x /\ dst = Some (o_in y) end ->
  filter (selects (o_out x) out dst (match inp with Some i => Some (Some i) | None => None end)) (cn (o_ctx x))
  = map (image t) (filter (matches a out b inp) (v_links v)).
Proof.
  intros Ha Hb. set (sel := selects _ _ _ _).
  assert (E : filter sel (cn (o_ctx x)) = filter sel (filter (vis t (o_ctx x)) (cn (o_ctx x)))).
  { rewrite filter_filter. apply filter_ext_In. intros c _. destruct (sel c) eqn:S; [|now rewrite andb_false_r].
    rewrite andb_true_r. symmetry. apply vis_true. exists a, x. repeat split; [assumption|].
    unfold sel, selects in S. destruct c as [[[s o] d] p]. rewrite !andb_true_iff in S.
    destruct S as [[[S _] _] _]. apply Nat.eqb_eq in S. now cbn. }
  rewrite E, (j_cns _ _ _ HJ), filter_map. f_equal. rewrite filter_filter. apply filter_ext_In.
  intros l Hl. destruct (within t (o_ctx x) l) eqn:W.
  - cbn [andb]. unfold sel. now apply selects_image.
  - cbn [andb]. symmetry. destruct (matches a out b inp l) eqn:M; [|reflexivity]. exfalso.
    destruct l as [[[a' o'] b'] i']. unfold matches in M. rewrite !andb_true_iff in M.
    destruct M as [[[M _] _] _]. apply Nat.eqb_eq in M as ->. unfold within in W. cbn [lsrc] in W.
    rewrite (obj_live _ _ _ Ha), Nat.eqb_refl in W. discriminate.
Qed.

(** disconnecting *)
Lemma J_cut a x out b inp dst :
  live_at t a x ->
  match b with None => dst = None | Some b' => exists y, live_at t b' y /\ o_ctx y = o_ctx x /\ dst = Some (o_in y) end ->
  let sel := selects (o_out x) out dst (match inp with Some i => Some (Some i) | None => None end) in
  J t (set cn (o_ctx x) (filter (fun c => negb (sel c)) (cn (o_ctx x))))
      (mk_view (v_nodes v) (filter (fun l => negb (matches a out b inp l)) (v_links v))).
Proof.
  intros Ha Hb sel. pose proof HJ as [T D O L C N].
  constructor; cbn [v_nodes v_links]; [assumption|assumption|assumption| | |].
  - intros l Hl. apply filter_In in Hl as [Hl _]. now apply L.
  - intros ctx. unfold set. destruct (Nat.eqb ctx (o_ctx x)) eqn:E.
    + apply Nat.eqb_eq in E as ->. rewrite filter_swap, C, filter_map. f_equal.
      rewrite !filter_filter. apply filter_ext_In. intros l Hl.
      destruct (within t (o_ctx x) l) eqn:W; [|cbn; now rewrite andb_false_r].
      rewrite andb_true_r. cbn [andb]. f_equal. unfold sel. now apply selects_image.
    + rewrite C. f_equal. rewrite filter_filter. apply filter_ext_In. intros l Hl.
      destruct (matches a out b inp l) eqn:M; [|reflexivity]. cbn [negb andb].
      destruct l as [[[a' o'] b'] i']. unfold matches in M. rewrite !andb_true_iff in M.
      destruct M as [[[M _] _] _]. apply Nat.eqb_eq in M as ->. unfold within. cbn [lsrc].
      rewrite (obj_live _ _ _ Ha), Nat.eqb_sym. exact E.
  - intros ctx c Hc. unfold set in Hc. destruct (Nat.eqb ctx (o_ctx x)) eqn:E.
    + apply Nat.eqb_eq in E as ->. apply filter_In in Hc as [Hc _]. now apply N.
    + now apply N.
Qed.

(** connecting two objects *)
Lemma J_link a x b y out inp :
  live_at t a x -> live_at t b y -> o_ctx x = o_ctx y ->
  J t (set cn (o_ctx x) (record (o_out x, out, o_in y, Some inp) (cn (o_ctx x))))
      (add_link v (a, out, b, inp)).
Proof.
  intros Ha Hb Hc. pose proof HJ as [T D O L C N].
  set (c := (o_out x, out, o_in y, Some inp) : conn). set (l := (a, out, b, inp) : link).
  assert (Im : image t l = c).
  { unfold image, l. now rewrite (obj_live _ _ _ Ha), (obj_live _ _ _ Hb). }
  assert (Vc : vis t (o_ctx x) c = true) by (apply vis_true; exists a, x; repeat split; assumption).
  assert (Wl : within t (o_ctx x) l = true)
    by (unfold within, l; cbn [lsrc]; rewrite (obj_live _ _ _ Ha); apply Nat.eqb_refl).
  assert (Ex : existsb (conn_eqb c) (cn (o_ctx x)) = existsb (same_link l) (v_links v)).
  { apply eq_true_iff_eq. rewrite !existsb_exists. split.
    - intros (d & Hd & E). apply conn_eqb_eq in E. subst d.
      assert (Hin : In c (filter (vis t (o_ctx x)) (cn (o_ctx x)))) by (apply filter_In; now split).
      rewrite C in Hin. apply in_map_iff in Hin as (m & Em & Hm). apply filter_In in Hm as [Hm Wm].
      exists m. split; [assumption|]. apply same_link_eq. symmetry.
      apply (image_inj m l (o_ctx x)); [assumption|assumption| |congruence].
      exists x, y. repeat split; congruence || assumption.
    - intros (m & Hm & E). apply same_link_eq in E. subst m. exists c. split; [|now apply conn_eqb_eq].
      assert (Hin : In c (filter (vis t (o_ctx x)) (cn (o_ctx x)))).
      { rewrite C, <- Im. apply in_map. apply filter_In. now split. }
      now apply filter_In in Hin. }
  unfold add_link. fold l.
  constructor; cbn [v_nodes v_links]; [assumption|assumption|assumption| | |].
  - intros m Hm. destruct (existsb (same_link l) (v_links v)); [now apply L|].
    apply in_app_iff in Hm as [Hm|[<-|[]]]; [now apply L|]. exists x, y. repeat split; assumption.
  - intros ctx. unfold set. destruct (Nat.eqb ctx (o_ctx x)) eqn:E.
    + apply Nat.eqb_eq in E as ->. unfold record. rewrite Ex.
      destruct (existsb (same_link l) (v_links v)); [apply C|].
      rewrite !filter_app, map_app, C. cbn [filter]. rewrite Vc, Wl. cbn [map]. now rewrite Im.
    + rewrite C. destruct (existsb (same_link l) (v_links v)); [reflexivity|].
      rewrite filter_app. cbn [filter]. replace (within t ctx l) with false; [now rewrite app_nil_r|].
      symmetry. unfold within, l. cbn [lsrc]. rewrite (obj_live _ _ _ Ha), Nat.eqb_sym. exact E.
  - intros ctx d Hd. unfold set in Hd. destruct (Nat.eqb ctx (o_ctx x)) eqn:E; [|now apply N].
    apply Nat.eqb_eq in E as ->. unfold record in Hd.
    destruct (existsb (conn_eqb c) (cn (o_ctx x))); [now apply N|].
    apply in_app_iff in Hd as [Hd|[<-|[]]]; [now apply N|]. unfold c. cbn [csrc cdst].
    split; right; [exists a, x|exists b, y]; repeat split; auto; congruence.
Qed.

(** connections that no link stands for *)
Lemma J_hidden ctx src out dst port :
  (forall a x, live_at t a x -> o_ctx x = ctx -> o_out x <> src) ->
  known t ctx src -> known t ctx dst ->
  J t (set cn ctx (record (src, out, dst, port) (cn ctx))) v.
Proof.
  intros Hh K1 K2. pose proof HJ as [T D O L C N].
  constructor; [assumption|assumption|assumption|assumption| |].
  - intros c. unfold set. destruct (Nat.eqb c ctx) eqn:E; [|apply C].
    apply Nat.eqb_eq in E as ->. unfold record. destruct (existsb _ _); [apply C|].
    rewrite filter_app, C. cbn [filter]. destruct (vis t ctx (src, out, dst, port)) eqn:V; [|now rewrite app_nil_r].
    apply vis_true in V as (a & o & Ha & H1 & H2). exfalso. exact (Hh a o Ha H1 H2).
  - intros c d Hd. unfold set in Hd. destruct (Nat.eqb c ctx) eqn:E; [|now apply N].
    apply Nat.eqb_eq in E as ->. unfold record in Hd. destruct (existsb _ _); [now apply N|].
    apply in_app_iff in Hd as [Hd|[<-|[]]]; [now apply N|]. now split.
Qed.
End In_J.

(** new objects *)
Lemma nth_snoc {X} (l : list X) m a x :
  nth_error (l ++ m) a = Some x -> nth_error l a = Some x \/ (length l <= a /\ nth_error m (a - length l) = Some x).
Proof.
  intros H. destruct (Nat.lt_ge_cases a (length l)) as [G|G].
  - left. now rewrite nth_error_app1 in H.
  - right. split; [assumption|]. now rewrite nth_error_app2 in H.
Qed.
Lemma live_old t m a x : live_at t a x -> live_at (t ++ m) a x.
Proof.
  unfold live_at. intros H. rewrite nth_error_app1; [assumption|]. apply nth_error_Some. congruence.
Qed.

Definition shown (o : object) : node := mk_node (o_ctx o) (o_ins o) (o_outs o) true (magic (o_in o)).

Lemma J_new t cn v os ctx :
  J t cn v ->
  (forall x, In x os -> o_ctx x = ctx /\ 10 < o_in x /\ 10 < o_out x /\
                        ~ used t ctx (o_in x) /\ ~ used t ctx (o_out x)) ->
  (forall i j x y, nth_error os i = Some x -> nth_error os j = Some y -> i <> j ->
     o_in x <> o_in y /\ o_in x <> o_out y /\ o_out x <> o_out y) ->
  J (t ++ map (fun o => (o, true)) os) cn (add_nodes v (map shown os)).
Proof.
  intros [T D O L C N] F P. set (t' := t ++ map (fun o => (o, true)) os).
  assert (Split : forall a x, live_at t' a x ->
            live_at t a x \/ (length t <= a /\ nth_error os (a - length t) = Some x)).
  { intros a x H. unfold live_at, t' in H. apply nth_snoc in H as [H|[G H]]; [now left|right].
    split; [assumption|]. rewrite nth_error_map in H. destruct (nth_error os (a - length t)); [|discriminate].
    cbn in H. now injection H as <-. }
  assert (Ho : forall a x, live_at t a x -> obj t' a = obj t a).
  { intros a x H. rewrite (obj_live _ _ _ H). apply obj_live. unfold t'. now apply live_old. }
  constructor; cbn [add_nodes v_nodes v_links].
  - apply Forall2_app; [assumption|]. clear. induction os as [|o os IH]; cbn [map]; constructor; [|assumption].
    repeat split.
  - intros a b x y Ha Hb E Nq. apply Split in Ha as [Ha|[Ga Ha]]; apply Split in Hb as [Hb|[Gb Hb]].
    + eapply D; eauto.
    + apply nth_error_In in Hb. destruct (F y Hb) as (Cy & _ & _ & U1 & U2).
      repeat split; intro E'; [apply U1|apply U2|apply U2]; exists a, x; repeat split; auto; congruence.
    + apply nth_error_In in Ha. destruct (F x Ha) as (Cx & _ & _ & U1 & U2).
      repeat split; intro E'; [apply U1|apply U1|apply U2]; exists b, y; repeat split; auto; congruence.
    + eapply P; eauto. lia.
  - intros a x Ha. apply Split in Ha as [Ha|[_ Ha]]; [now apply (O a)|].
    apply nth_error_In in Ha. destruct (F x Ha) as (_ & G1 & G2 & _). lia.
  - intros l Hl. destruct (L l Hl) as (x & y & Hx & Hy & E). exists x, y.
    repeat split; try (unfold t'; apply live_old); assumption.
  - intros c. rewrite (filter_ext_In (vis t' c) (vis t c)).
    + rewrite C.
      assert (E : filter (within t c) (v_links v) = filter (within t' c) (v_links v)).
      { apply filter_ext_In. intros l Hl. destruct (L l Hl) as (x & y & Hx & _). unfold within. now rewrite (Ho _ _ Hx). }
      rewrite <- E. apply map_ext_in. intros l Hl. apply filter_In in Hl as [Hl _].
      destruct (L l Hl) as (x & y & Hx & Hy & _). destruct l as [[[a o] b] i]. unfold image. cbn [lsrc ldst] in *.
      now rewrite (Ho _ _ Hx), (Ho _ _ Hy).
    + intros d Hd. apply eq_true_iff_eq. rewrite !vis_true. split.
      * intros (a & o & Ha & E1 & E2). apply Split in Ha as [Ha|[_ Ha]]; [exists a, o; repeat split; assumption|].
        exfalso. apply nth_error_In in Ha. destruct (F o Ha) as (Co & _ & G & _ & U2).
        destruct (N c d Hd) as [[K|K] _]; [lia|]. apply U2. rewrite E2. congruence.
      * intros (a & o & Ha & E). exists a, o. split; [unfold t'; now apply live_old|assumption].
  - intros c d Hd. destruct (N c d Hd) as [K1 K2].
    assert (G : forall id, known t c id -> known t' c id).
    { intros id [K|(a & o & Ha & R)]; [now left|right]. exists a, o. split; [unfold t'; now apply live_old|assumption]. }
    split; apply G; assumption.
Qed.

(** dropping *)
Lemma release_at t a b : nth_error (release t a) b =
  if Nat.eqb b a then match nth_error t b with Some (o, _) => Some (o, false) | None => None end else nth_error t b.
Proof.
  revert a b. induction t as [|[o f] t IH]; intros [|a] [|b]; cbn [release nth_error Nat.eqb]; try reflexivity;
    try (now destruct (Nat.eqb b a)); apply IH.
Qed.
Lemma live_release t a b x : live_at (release t a) b x <-> live_at t b x /\ b <> a.
Proof.
  unfold live_at. rewrite release_at. destruct (Nat.eqb_spec b a) as [E|E].
  - split; [|tauto]. destruct (nth_error t b) as [[o f]|]; discriminate.
  - tauto.
Qed.
Lemma obj_release t a b : obj (release t a) b = obj t b.
Proof.
  unfold obj. rewrite release_at. destruct (Nat.eqb b a); [|reflexivity].
  now destruct (nth_error t b) as [[o f]|].
Qed.
Lemma rel_release t ns a : Forall2 rel t ns -> Forall2 rel (release t a) (kill ns a).
Proof.
  intros F. revert a. induction F as [|[o f] n t ns R F IH]; intros [|a]; cbn [release kill]; constructor; auto.
  destruct R as (R1 & R2 & R3 & R4 & R5). repeat split; assumption.
Qed.

Lemma J_drop t cn v a x :
  J t cn v -> live_at t a x ->
  J (release t a)
    (set cn (o_ctx x) (filter (fun c => negb (mentions (o_out x) c || mentions (o_in x) c)) (cn (o_ctx x))))
    (mk_view (kill (v_nodes v) a) (filter (fun l => negb (touches a l)) (v_links v))).
Proof.
  intros HJ Ha. pose proof HJ as [T D O L C N].
  constructor; cbn [v_nodes v_links].
  - now apply rel_release.
  - intros i j y z Hi Hj. apply live_release in Hi as [Hi _], Hj as [Hj _]. eapply D; eauto.
  - intros i y Hi. apply live_release in Hi as [Hi _]. now apply (O i).
  - intros l Hl. apply filter_In in Hl as [Hl Ht]. destruct (L l Hl) as (y & z & Hy & Hz & E).
    exists y, z. destruct l as [[[p o] q] i]. cbn [lsrc ldst touches] in *.
    apply negb_true_iff, orb_false_iff in Ht as [T1 T2]. apply Nat.eqb_neq in T1, T2.
    repeat split; [apply live_release; now split|apply live_release; now split|assumption].
  - intros ctx. unfold set. destruct (Nat.eqb ctx (o_ctx x)) eqn:E.
    + apply Nat.eqb_eq in E as ->.
      rewrite (filter_ext_In (vis (release t a) (o_ctx x)) (vis t (o_ctx x))).
      2:{ intros d Hd. apply filter_In in Hd as [Hd M]. apply eq_true_iff_eq. rewrite !vis_true. split.
          - intros (b & o & Hb & R). apply live_release in Hb as [Hb _]. exists b, o. now split.
          - intros (b & o & Hb & R1 & R2). exists b, o. split; [|now split]. apply live_release. split; [assumption|].
            intros ->. unfold live_at in *. rewrite Ha in Hb. injection Hb as <-.
            apply negb_true_iff, orb_false_iff in M as [M _]. destruct d as [[[s q] e] p]. cbn [csrc mentions] in *.
            apply orb_false_iff in M as [M _]. apply Nat.eqb_neq in M. congruence. }
      rewrite filter_swap, C, filter_map.
      rewrite (map_ext (image (release t a)) (image t)).
      2:{ intros [[[p o] q] i]. unfold image. now rewrite !obj_release. }
      f_equal. rewrite !filter_filter. apply filter_ext_In. intros l Hl.
      assert (W' : within (release t a) (o_ctx x) l = within t (o_ctx x) l)
        by (unfold within; now rewrite obj_release).
      rewrite W'. destruct (within t (o_ctx x) l) eqn:W; [|now rewrite andb_false_r].
      rewrite andb_true_r. cbn [andb]. f_equal.
      destruct (L l Hl) as (y & z & Hy & Hz & Ec). destruct l as [[[p o] q] i]. cbn [lsrc ldst] in *.
      unfold within in W. cbn [lsrc] in W. apply Nat.eqb_eq in W. rewrite (obj_live _ _ _ Hy) in W.
      unfold image, mentions, touches. rewrite (obj_live _ _ _ Hy), (obj_live _ _ _ Hz).
      apply eq_true_iff_eq. rewrite !orb_true_iff, !Nat.eqb_eq. split.
      * intros [[H|H]|[H|H]].
        -- left. destruct (Nat.eq_dec p a) as [|Nq]; [assumption|].
           destruct (D p a y x Hy Ha ltac:(congruence) Nq) as (A1 & A2 & A3). congruence.
        -- right. destruct (Nat.eq_dec q a) as [|Nq]; [assumption|].
           destruct (D q a z x Hz Ha ltac:(congruence) Nq) as (A1 & A2 & A3). congruence.
        -- left. destruct (Nat.eq_dec p a) as [|Nq]; [assumption|].
           destruct (D a p x y Ha Hy ltac:(congruence) ltac:(congruence)) as (A1 & A2 & A3). congruence.
        -- right. destruct (Nat.eq_dec q a) as [|Nq]; [assumption|].
           destruct (D q a z x Hz Ha ltac:(congruence) Nq) as (A1 & A2 & A3). congruence.
      * intros [->| ->]; unfold live_at in *.
        -- rewrite Ha in Hy. injection Hy as <-. left. now left.
        -- rewrite Ha in Hz. injection Hz as <-. right. now right.
    + rewrite (filter_ext_In (vis (release t a) ctx) (vis t ctx)).
      2:{ intros d Hd. apply eq_true_iff_eq. rewrite !vis_true. split.
          - intros (b & o & Hb & R). apply live_release in Hb as [Hb _]. exists b, o. now split.
          - intros (b & o & Hb & R1 & R2). exists b, o. split; [|now split]. apply live_release. split; [assumption|].
            intros ->. unfold live_at in *. rewrite Ha in Hb. injection Hb as <-.
            apply Nat.eqb_neq in E. congruence. }
      rewrite C. rewrite (map_ext (image (release t a)) (image t)).
      2:{ intros [[[p o] q] i]. unfold image. now rewrite !obj_release. }
      f_equal. rewrite filter_filter. apply filter_ext_In. intros l Hl.
      assert (W' : within (release t a) ctx l = within t ctx l) by (unfold within; now rewrite obj_release).
      rewrite W'. destruct (within t ctx l) eqn:W; [|now rewrite andb_false_r].
      rewrite andb_true_r. symmetry. apply negb_true_iff.
      destruct (L l Hl) as (y & z & Hy & Hz & Ec). destruct l as [[[p o] q] i]. cbn [lsrc ldst] in *.
      unfold within in W. cbn [lsrc] in W. apply Nat.eqb_eq in W. rewrite (obj_live _ _ _ Hy) in W.
      apply Nat.eqb_neq in E. unfold touches. apply orb_false_iff. rewrite !Nat.eqb_neq. split; intros ->; unfold live_at in *.
      * rewrite Ha in Hy. injection Hy as <-. congruence.
      * rewrite Ha in Hz. injection Hz as <-. congruence.
  - intros ctx d Hd. unfold set in Hd.
    assert (Kx : forall id, known t ctx id -> (o_ctx x = ctx -> id <> o_out x /\ id <> o_in x) -> known (release t a) ctx id).
    { intros id [K|(b & o & Hb & R1 & R2)] Nq; [now left|right]. exists b, o. split; [|now split].
      apply live_release. split; [assumption|]. intros ->. unfold live_at in *. rewrite Ha in Hb. injection Hb as <-.
      destruct (Nq R1) as [N1 N2]. destruct R2; congruence. }
    destruct (Nat.eqb ctx (o_ctx x)) eqn:E.
    + apply Nat.eqb_eq in E as ->. apply filter_In in Hd as [Hd M]. destruct (N _ d Hd) as [K1 K2].
      destruct d as [[[s q] e] p]. cbn [csrc cdst mentions] in *. rewrite !negb_orb, !andb_true_iff, !negb_true_iff, !Nat.eqb_neq in M.
      split; apply Kx; try assumption; intros _; split; tauto.
    + apply Nat.eqb_neq in E. destruct (N _ d Hd) as [K1 K2]. split; apply Kx; try assumption; intros E'; congruence.
Qed.
