From Coq Require Import List Arith Bool Lia.
From Verif Require Import Graph_Model Graph_Spec Graph_OrderProofs.
Import ListNotations.

(** ** indexed map *)
Fixpoint mapi_from {A B} (k : nat) (f : nat -> A -> B) (l : list A) : list B :=
  match l with [] => [] | x :: l' => f k x :: mapi_from (S k) f l' end.
Definition mapi {A B} (f : nat -> A -> B) l := mapi_from 0 f l.

Lemma mapi_from_length {A B} k (f : nat -> A -> B) l : length (mapi_from k f l) = length l.
Proof. revert k. induction l; cbn; intros; [reflexivity|]. now rewrite IHl. Qed.

Lemma mapi_from_compose {A B C} k (f : nat -> A -> B) (h : nat -> B -> C) l :
  mapi_from k h (mapi_from k f l) = mapi_from k (fun i x => h i (f i x)) l.
Proof. revert k. induction l; cbn; intros; [reflexivity|]. now rewrite IHl. Qed.

Lemma mapi_from_ext {A B} k (f h : nat -> A -> B) l :
  (forall i x, f i x = h i x) -> mapi_from k f l = mapi_from k h l.
Proof. intros H. revert k. induction l; cbn; intros; [reflexivity|]. now rewrite IHl, H. Qed.

Lemma mapi_from_id {A} k (l : list A) : mapi_from k (fun _ x => x) l = l.
Proof. revert k. induction l; cbn; intros; [reflexivity|]. now rewrite IHl. Qed.

Lemma list_upd_spec {A} (l : list A) p f k : p < length l ->
  list_upd l p f = Some (mapi_from k (fun i x => if Nat.eqb i (k + p) then f x else x) l).
Proof.
  revert p k. induction l as [|x l IH]; cbn; intros [|p] k H; try lia.
  - rewrite Nat.add_0_r, Nat.eqb_refl. f_equal. f_equal.
    rewrite <- (mapi_from_id (S k) l) at 1.
    assert (Hlt : forall j, k < j -> mapi_from j (fun _ x => x) l
              = mapi_from j (fun (i : nat) (x0 : A) => if i =? k then f x0 else x0) l).
    { clear. induction l as [|y l IH]; cbn; intros j Hj; [reflexivity|].
      destruct (Nat.eqb_spec j k); [lia|]. f_equal. apply IH. lia. }
    apply Hlt. lia.
  - rewrite (IH p (S k)) by lia. replace (k + S p) with (S k + p) by lia.
    destruct (Nat.eqb_spec k (S k + p)); [lia|]. reflexivity.
Qed.

Section Render.
Context {P Q CFG : Type}.
Notation nodes := (nodes P Q CFG).
Notation node := (node P Q CFG).
Notation step_log := (step_log P Q).
Implicit Types g : nodes.
Variable E : env P Q CFG.

Definition feed (sig : nat -> list Q) (n : node) (con : bool) : node :=
  mk_node (n_proc n)
          (mapi (fun port q => fold_left (fun acc s => qadd E acc s (n_cfg n)) (sig port) q) (n_inputs n))
          (n_outputs n) (n_cfg n) (n_edges n) (n_dropped n) (n_connected n || con) (n_breaker n).

Definition feeds (id : nat) (e : edge) : bool :=
  Nat.eqb (e_dest e) id && match e_port e with Some _ => true | None => false end.

Lemma feed_nil n : feed (fun _ => []) n false = n.
Proof.
  destruct n. unfold feed; cbn. unfold mapi. rewrite mapi_from_id, orb_false_r. reflexivity.
Qed.

Lemma feed_feed s1 c1 s2 c2 n :
  feed s2 (feed s1 n c1) c2 = feed (fun p => s1 p ++ s2 p) n (c1 || c2).
Proof.
  unfold feed; cbn. unfold mapi. rewrite mapi_from_compose, orb_assoc. f_equal.
  apply mapi_from_ext. intros i x. rewrite fold_left_app. reflexivity.
Qed.

Lemma feed_ext s1 s2 c1 c2 n : (forall p, s1 p = s2 p) -> c1 = c2 -> feed s1 n c1 = feed s2 n c2.
Proof.
  intros H ->. unfold feed. f_equal. unfold mapi. apply mapi_from_ext. intros i x. now rewrite H.
Qed.

Lemma feed_inputs_length s n c : length (n_inputs (feed s n c)) = length (n_inputs n).
Proof. cbn. unfold mapi. apply mapi_from_length. Qed.

Definition edges_ok (self : nat) (outs : list Q) (g : nodes) (es : list edge) : Prop :=
  forall e p, In e es -> e_port e = Some p ->
    e_dest e <> self /\ e_self e < length outs /\
    exists d, get g (e_dest e) = Some d /\ p < length (n_inputs d).

Lemma push_edge_spec self outs g e : edges_ok self outs g [e] ->
  exists g', push_edge E self outs g e = Some g' /\
    forall j, get g' j = option_map (fun n => feed (signals_of outs [e] j) n (feeds j e)) (get g j).
Proof.
  intros H. unfold push_edge.
  destruct (e_port e) as [p|] eqn:Ep.
  - destruct (H e p (or_introl eq_refl) Ep) as (Hs & Ho & d & Ed & Hp).
    destruct (Nat.eqb_spec (e_dest e) self); [congruence|].
    rewrite Ed. destruct (nth_error outs (e_self e)) as [q|] eqn:Eq; [|apply nth_error_None in Eq; lia].
    rewrite (list_upd_spec _ _ _ 0) by exact Hp.
    eexists. split; [reflexivity|]. intros j.
    destruct (Nat.eq_dec (e_dest e) j) as [<-|N].
    + rewrite get_set_slot_eq by (eapply get_In; eauto). rewrite Ed. cbn.
      unfold feed, feeds, signals_of. cbn. rewrite Ep, Nat.eqb_refl. cbn. rewrite orb_true_r.
      f_equal. f_equal. unfold mapi. apply mapi_from_ext. intros i x.
      rewrite (Nat.eqb_sym p i). destruct (i =? p) eqn:Ei; [|reflexivity].
      rewrite Eq. reflexivity.
    + rewrite get_set_slot_neq by exact N. destruct (get g j); [|reflexivity]. cbn.
      unfold feeds. rewrite (proj2 (Nat.eqb_neq _ _) N). cbn. f_equal. symmetry.
      rewrite <- (feed_nil n0) at 2. apply feed_ext; [|reflexivity].
      intros i. unfold signals_of. cbn. rewrite (proj2 (Nat.eqb_neq _ _) N). reflexivity.
  - exists g. split; [reflexivity|]. intros j. destruct (get g j); [|reflexivity]. cbn. f_equal.
    unfold feeds. rewrite Ep, andb_false_r. symmetry. rewrite <- (feed_nil n) at 2.
    apply feed_ext; [|reflexivity]. intros i. unfold signals_of. cbn. rewrite Ep.
    cbn. rewrite andb_false_r. reflexivity.
Qed.

Lemma signals_of_cons (outs : list Q) e es j p :
  signals_of outs (e :: es) j p = signals_of outs [e] j p ++ signals_of outs es j p.
Proof. unfold signals_of. cbn. rewrite app_nil_r. reflexivity. Qed.

Lemma push_edges_spec self outs es : forall g, edges_ok self outs g es ->
  exists g', push_edges E self outs g es = Some g' /\
    forall j, get g' j = option_map (fun n => feed (signals_of outs es j) n (existsb (feeds j) es)) (get g j).
Proof.
  induction es as [|e es IH]; intros g H; cbn [push_edges].
  - exists g. split; [reflexivity|]. intros j. destruct (get g j); [|reflexivity]. cbn.
    f_equal. symmetry. apply feed_nil.
  - destruct (push_edge_spec self outs g e) as (g1 & E1 & H1).
    { intros e' p [<-|[]] Hp. apply H; [now left|exact Hp]. }
    rewrite E1. destruct (IH g1) as (g2 & E2 & H2).
    { intros e' p He' Hp. destruct (H e' p (or_intror He') Hp) as (A & B & d & C & D).
      split; [exact A|]. split; [exact B|]. rewrite H1, C. cbn. eexists. split; [reflexivity|].
      rewrite feed_inputs_length. exact D. }
    exists g2. split; [exact E2|]. intros j. rewrite H2, H1.
    destruct (get g j) as [n|]; [|reflexivity]. cbn. f_equal. rewrite feed_feed.
    apply feed_ext; [|reflexivity]. intros p. rewrite <- signals_of_cons. reflexivity.
Qed.

Lemma get_map_opt g (f : node -> node) i : get (map (option_map f) g) i = option_map f (get g i).
Proof.
  unfold get. rewrite nth_error_map. destruct (nth_error g i) as [[m|]|]; reflexivity.
Qed.

(** ** Characterisation of the state after rendering a prefix of the order *)

Definition freed_ids (pre : list step_log) : list nat := reclaimed pre.

Definition live_edges (pre : list step_log) (es : list edge) : list edge :=
  filter (fun e => negb (mem (e_dest e) (freed_ids pre))) es.

Definition fedb (pre : list step_log) (id : nat) : bool :=
  existsb (fun lg => match l_result lg with Some _ => existsb (feeds id) (l_edges lg) | None => false end) pre.

Definition logged (pre : list step_log) (i : nat) : option step_log :=
  find (fun lg => Nat.eqb (l_id lg) i) pre.

Definition after (g : nodes) (pre : list step_log) (i : nat) : option node :=
  match get g i with
  | None => None
  | Some n =>
      match logged pre i with
      | Some lg =>
          if l_freed lg then None else
          match l_result lg with
          | Some (p', o', _) =>
              Some (mk_node p' (repeat (silence E) (length (n_inputs n))) o' (n_cfg n)
                            (live_edges pre (n_edges n)) (n_dropped n) false (n_breaker n))
          | None => None
          end
      | None =>
          let n1 := feed (signals_into pre i) n (fedb pre i) in
          Some (mk_node (n_proc n1) (n_inputs n1) (n_outputs n1) (n_cfg n1)
                        (live_edges pre (n_edges n)) (n_dropped n1) (n_connected n1) (n_breaker n1))
      end
  end.

(** what the log entry of [id] must be when the nodes [pre] were rendered before *)
Definition log_ok (frame : nat) (g : nodes) (pre : list step_log) (lg : step_log) : Prop :=
  exists n, get g (l_id lg) = Some n /\
    let n1 := feed (signals_into pre (l_id lg)) n (fedb pre (l_id lg)) in
    l_inputs lg = n_inputs n1 /\
    l_proc lg = n_proc n /\ l_outs0 lg = n_outputs n /\
    (forall j, l_view lg j = if Nat.eqb j (l_id lg) then None else option_map n_outputs (after g pre j)) /\
    l_result lg = process E (n_proc n) (l_inputs lg) (n_outputs n) (l_view lg) frame /\
    match l_result lg with
    | None => l_edges lg = [] /\ l_freed lg = true
    | Some (p', o', t) =>
        l_edges lg = n_edges n /\
        l_freed lg = can_free E (mk_node p' (l_inputs lg) o' (n_cfg n) (n_edges n) (n_dropped n)
                                        (n_connected n || fedb pre (l_id lg)) (n_breaker n)) t
    end.

Lemma logged_None (pre : list step_log) i : ~ In i (map l_id pre) -> logged pre i = None.
Proof.
  induction pre as [|lg pre IH]; cbn; [reflexivity|]. intros H.
  destruct (Nat.eqb_spec (l_id lg) i); [exfalso; tauto|]. apply IH. tauto.
Qed.

Lemma logged_snoc (pre : list step_log) lg i : ~ In (l_id lg) (map l_id pre) ->
  logged (pre ++ [lg]) i = if Nat.eqb (l_id lg) i then Some lg else logged pre i.
Proof.
  unfold logged. induction pre as [|x pre IH]; cbn; intros H.
  - destruct (Nat.eqb (l_id lg) i); reflexivity.
  - destruct (Nat.eqb_spec (l_id x) i) as [Ex|Nx].
    + destruct (Nat.eqb_spec (l_id lg) i); [exfalso; apply H; left; congruence|reflexivity].
    + apply IH. tauto.
Qed.

Lemma freed_ids_In (pre : list step_log) i : In i (freed_ids pre) -> In i (map l_id pre).
Proof.
  unfold freed_ids, reclaimed. rewrite !in_map_iff. intros (lg & <- & H). apply filter_In in H.
  exists lg. tauto.
Qed.

Lemma live_edges_all (pre : list step_log) es : (forall e, In e es -> ~ In (e_dest e) (freed_ids pre)) -> live_edges pre es = es.
Proof.
  induction es as [|e es IH]; cbn; [reflexivity|]. intros H.
  rewrite (proj2 (mem_nIn _ _)) by (apply H; now left). cbn. f_equal. apply IH. intros; apply H; now right.
Qed.

Lemma live_edges_snoc (pre : list step_log) lg es :
  live_edges (pre ++ [lg]) es =
  if l_freed lg then filter (fun e => negb (Nat.eqb (e_dest e) (l_id lg))) (live_edges pre es)
  else live_edges pre es.
Proof.
  unfold live_edges, freed_ids, reclaimed. rewrite filter_app, map_app. cbn.
  destruct (l_freed lg) eqn:F; cbn.
  - induction es as [|e es IH]; cbn; [reflexivity|].
    unfold mem in *. rewrite existsb_app. cbn. rewrite orb_false_r.
    destruct (existsb (Nat.eqb (e_dest e)) (map l_id (filter l_freed pre))) eqn:X; cbn; [exact IH|].
    destruct (Nat.eqb (e_dest e) (l_id lg)); cbn; [exact IH|]. now rewrite IH.
  - rewrite app_nil_r. reflexivity.
Qed.

Lemma signals_into_snoc (pre : list step_log) lg i p :
  signals_into (pre ++ [lg]) i p =
  signals_into pre i p ++ match l_result lg with Some (_, outs, _) => signals_of outs (l_edges lg) i p | None => [] end.
Proof. unfold signals_into. rewrite flat_map_app. cbn. rewrite app_nil_r. reflexivity. Qed.

Lemma fedb_snoc (pre : list step_log) lg i :
  fedb (pre ++ [lg]) i = fedb pre i || match l_result lg with Some _ => existsb (feeds i) (l_edges lg) | None => false end.
Proof. unfold fedb. rewrite existsb_app. cbn. rewrite orb_false_r. reflexivity. Qed.

Lemma existsb_false {A} (f : A -> bool) l : (forall x, In x l -> f x = false) -> existsb f l = false.
Proof. induction l as [|x l IH]; cbn; intros H; [reflexivity|]. rewrite H by now left. apply IH. intros; apply H; now right. Qed.

Lemma flat_map_nil {A B} (f : A -> list B) l : (forall x, In x l -> f x = []) -> flat_map f l = [].
Proof. induction l as [|x l IH]; cbn; intros H; [reflexivity|]. rewrite H by now left. apply IH. intros; apply H; now right. Qed.

(** static conditions of a quantum *)
Record QOK (g : nodes) (ord : list nat) : Prop := {
  q_ord : rendering_order g ord;
  q_ports : ports_ok g
}.

Hypothesis EOK : env_ok E.

Lemma after_outputs_length frame g pre i n m : get g i = Some n -> after g pre i = Some m ->
  (forall lg, In lg pre -> exists pre', log_ok frame g pre' lg) ->
  length (n_outputs m) = length (n_outputs n).
Proof.
  intros En Ea Hl. unfold after in Ea. rewrite En in Ea.
  destruct (logged pre i) as [lg|] eqn:El.
  - destruct (l_freed lg); [discriminate|].
    destruct (l_result lg) as [[[p' o'] t]|] eqn:Er; [|discriminate].
    injection Ea as <-. cbn.
    apply find_some in El. destruct El as [Hin Hid]. apply Nat.eqb_eq in Hid.
    destruct (Hl lg Hin) as (pre' & n' & En' & _ & _ & _ & _ & Hres & _).
    rewrite Hid, En in En'. injection En' as <-.
    symmetry in Hres. rewrite Er in Hres. exact (EOK _ _ _ _ _ _ _ _ Hres).
  - injection Ea as <-. reflexivity.
Qed.

Lemma after_inputs_length g pre i n m : get g i = Some n -> after g pre i = Some m ->
  length (n_inputs m) = length (n_inputs n).
Proof.
  intros En Ea. unfold after in Ea. rewrite En in Ea.
  destruct (logged pre i) as [lg|] eqn:El.
  - destruct (l_freed lg); [discriminate|].
    destruct (l_result lg) as [[[p' o'] t]|] eqn:Er; [|discriminate].
    injection Ea as <-. cbn. apply repeat_length.
  - injection Ea as <-. cbn. unfold mapi. apply mapi_from_length.
Qed.

Lemma after_nil g i : after g [] i = get g i.
Proof.
  unfold after. destruct (get g i) as [n|]; [|reflexivity]. cbn. f_equal.
  unfold live_edges. cbn.
  replace (filter (fun e : edge => true) (n_edges n)) with (n_edges n).
  - unfold signals_into; cbn. destruct n; cbn. unfold mapi. rewrite mapi_from_id, orb_false_r. reflexivity.
  - induction (n_edges n) as [|e es IH]; cbn; [reflexivity|]. now rewrite <- IH.
Qed.

Lemma NoDup_app_mid {A} (l1 : list A) x l2 : NoDup (l1 ++ x :: l2) -> ~ In x l1 /\ ~ In x l2.
Proof.
  intros H. apply NoDup_remove_2 in H. rewrite in_app_iff in H. tauto.
Qed.

Lemma render_node_step frame g0 ord g pre id rest :
  QOK g0 ord -> ord = map l_id pre ++ id :: rest ->
  (forall i, get g i = after g0 pre i) ->
  (forall lg, In lg pre -> exists pre', log_ok frame g0 pre' lg) ->
  exists g' lg, render_node E frame g id = Some (g', lg) /\ l_id lg = id /\
    log_ok frame g0 pre lg /\ forall i, get g' i = after g0 (pre ++ [lg]) i.
Proof.
  intros [(ND & LV & TP) PO] Eord Hg Hlogs.
  assert (Hid : ~ In id (map l_id pre)).
  { rewrite Eord in ND. apply NoDup_app_mid in ND. tauto. }
  assert (Hin : In id ord) by (rewrite Eord; apply in_or_app; right; now left).
  destruct (LV id Hin) as [n En].
  assert (Hpre_in : forall i, In i (map l_id pre) -> In i ord).
  { intros i Hi. rewrite Eord. apply in_or_app; now left. }
  (* a node rendered before never receives from id *)
  assert (Hearlier : forall d, In d (map l_id pre) -> ~ connected g0 id d).
  { intros d Hd Hc. pose proof (TP id d Hin (Hpre_in d Hd) Hc) as Hb.
    assert (Hb2 : before ord d id).
    { rewrite Eord. apply in_split in Hd. destruct Hd as (l1 & l2 & Hd). rewrite Hd.
      exists l1, l2, rest. rewrite <- app_assoc. reflexivity. }
    apply (before_NoDup_irrefl ord id ND). eapply before_trans; eauto. }
  assert (Hself : ~ connected g0 id id).
  { intros Hc. apply (before_NoDup_irrefl ord id ND). apply TP; assumption. }
  assert (Hle : live_edges pre (n_edges n) = n_edges n).
  { apply live_edges_all. intros e He Hf. apply freed_ids_In in Hf.
    apply (Hearlier _ Hf). exists n, e. tauto. }
  set (n1 := feed (signals_into pre id) n (fedb pre id)).
  assert (Egid : get g id = Some n1).
  { rewrite Hg. unfold after. rewrite En, (logged_None pre id Hid). fold n1.
    rewrite Hle. destruct n; reflexivity. }
  assert (Hview : forall j, view g id j = if Nat.eqb j id then None else option_map n_outputs (after g0 pre j)).
  { intros j. unfold view. destruct (Nat.eqb j id); [reflexivity|]. rewrite Hg. reflexivity. }
  unfold render_node. rewrite Egid.
  destruct (process E (n_proc n1) (n_inputs n1) (n_outputs n1) (view g id) frame)
    as [[[p' o'] t]|] eqn:Eproc.
  - (* no panic *)
    cbn [n_edges n_outputs].
    set (n2 := mk_node p' (n_inputs n1) o' (n_cfg n1) (n_edges n1) (n_dropped n1) (n_connected n1) (n_breaker n1)).
    assert (Hok : edges_ok id o' (set_slot g id (Some n2)) (n_edges n1)).
    { intros e p He Hp. change (n_edges n1) with (n_edges n) in He.
      assert (Hc : connected g0 id (e_dest e)) by (exists n, e; tauto).
      destruct (PO id n e En He) as [Ho Hd]. destruct (Hd p Hp) as (d & Ed & Hpd).
      assert (Hne : e_dest e <> id) by (intros X; apply Hself; rewrite X in Hc; exact Hc).
      split; [exact Hne|]. split.
      - rewrite (EOK _ _ _ _ _ _ _ _ Eproc). exact Ho.
      - rewrite get_set_slot_neq by congruence. rewrite Hg.
        assert (Hlg : logged pre (e_dest e) = None).
        { apply logged_None. intros X. apply (Hearlier _ X Hc). }
        unfold after. rewrite Ed, Hlg. eexists. split; [reflexivity|]. cbn.
        unfold mapi. rewrite mapi_from_length. exact Hpd. }
    destruct (push_edges_spec id o' (n_edges n1) _ Hok) as (g2 & E2 & H2).
    rewrite E2.
    assert (Hsig_id : forall q, signals_of o' (n_edges n) id q = []).
    { intros q. apply flat_map_nil. intros e He.
      destruct (Nat.eqb_spec (e_dest e) id) as [X|]; [|reflexivity].
      exfalso. apply Hself. exists n, e. tauto. }
    assert (Hfeeds_id : existsb (feeds id) (n_edges n) = false).
    { apply existsb_false. intros e He. unfold feeds.
      destruct (Nat.eqb_spec (e_dest e) id) as [X|]; [|reflexivity].
      exfalso. apply Hself. exists n, e. tauto. }
    assert (H2id : get g2 id = Some n2).
    { rewrite H2, get_set_slot_eq by (eapply get_In; exact Egid). cbn. f_equal.
      change (n_edges n1) with (n_edges n). rewrite Hfeeds_id.
      transitivity (feed (fun _ => []) n2 false); [|apply feed_nil].
      apply feed_ext; [exact Hsig_id|reflexivity]. }
    set (free := negb true || can_free E n2 t).
    set (lg := mk_log id (n_inputs n1) (view g id) (n_proc n1) (n_outputs n1)
                 (Some (p', o', t)) (n_edges n2) free).
    assert (Hlok : log_ok frame g0 pre lg).
    { exists n. cbn. fold n1. split; [exact En|]. split; [reflexivity|]. split; [reflexivity|].
      split; [reflexivity|]. split; [exact Hview|]. split; [symmetry; exact Eproc|].
      split; [reflexivity|]. reflexivity. }
    assert (Hsn : forall i, i <> id -> after g0 (pre ++ [lg]) i =
              match get g0 i with
              | None => None
              | Some m =>
                match after g0 pre i with
                | None => None
                | Some a => Some (mk_node (n_proc a)
                      (if logged pre i then n_inputs a else
                       mapi (fun port q => fold_left (fun acc s => qadd E acc s (n_cfg m)) (signals_of o' (n_edges n) i port) q) (n_inputs a))
                      (n_outputs a) (n_cfg a)
                      (if free then filter (fun e => negb (Nat.eqb (e_dest e) id)) (n_edges a) else n_edges a)
                      (n_dropped a) (if logged pre i then n_connected a else n_connected a || existsb (feeds i) (n_edges n)) (n_breaker a))
                end end).
    { intros i Hi. unfold after. destruct (get g0 i) as [m|]; [|reflexivity].
      rewrite logged_snoc by exact Hid. cbn [l_id lg].
      rewrite (proj2 (Nat.eqb_neq id i)) by congruence.
      rewrite live_edges_snoc. cbn [l_freed l_id lg].
      destruct (logged pre i) as [lg'|].
      - destruct (l_freed lg'); [reflexivity|]. destruct (l_result lg') as [[[p2 o2] t2]|]; reflexivity.
      - cbn. unfold mapi. rewrite mapi_from_compose, fedb_snoc. cbn. rewrite orb_assoc. f_equal. f_equal.
        apply mapi_from_ext. intros k x. rewrite signals_into_snoc, fold_left_app. reflexivity. }
    assert (Hother : forall i, i <> id -> get g2 i =
        option_map (fun a => feed (signals_of o' (n_edges n) i) a (existsb (feeds i) (n_edges n))) (after g0 pre i)).
    { intros i Hi. rewrite H2, get_set_slot_neq by congruence. rewrite Hg. reflexivity. }
    (* nodes rendered earlier receive nothing *)
    assert (Hquiet : forall i lg', logged pre i = Some lg' ->
              (forall q, signals_of o' (n_edges n) i q = []) /\ existsb (feeds i) (n_edges n) = false).
    { intros i lg' Hl. apply find_some in Hl. destruct Hl as [Hl1 Hl2]. apply Nat.eqb_eq in Hl2.
      assert (Hii : In i (map l_id pre)) by (rewrite <- Hl2; apply in_map; exact Hl1).
      split.
      - intros q. apply flat_map_nil. intros e He.
        destruct (Nat.eqb_spec (e_dest e) i) as [X|]; [|reflexivity].
        exfalso. apply (Hearlier i Hii). exists n, e. tauto.
      - apply existsb_false. intros e He. unfold feeds.
        destruct (Nat.eqb_spec (e_dest e) i) as [X|]; [|reflexivity].
        exfalso. apply (Hearlier i Hii). exists n, e. tauto. }
    assert (Hmatch : forall i, i <> id ->
       option_map (fun a : node => mk_node (n_proc a) (n_inputs a) (n_outputs a) (n_cfg a)
            (if free then filter (fun e => negb (Nat.eqb (e_dest e) id)) (n_edges a) else n_edges a)
            (n_dropped a) (n_connected a) (n_breaker a)) (get g2 i) = after g0 (pre ++ [lg]) i).
    { intros i Hi. rewrite Hsn by exact Hi. rewrite Hother by exact Hi.
      unfold after. destruct (get g0 i) as [m|]; [|reflexivity].
      destruct (logged pre i) as [lg'|] eqn:Elog.
      - destruct (Hquiet i lg' Elog) as [Q1 Q2].
        destruct (l_freed lg'); [reflexivity|]. destruct (l_result lg') as [[[p2 o2] t2]|]; [|reflexivity].
        cbn. rewrite Q2. f_equal. f_equal. unfold mapi.
        rewrite <- (mapi_from_id 0 (repeat (silence E) (length (n_inputs m)))) at 2.
        apply mapi_from_ext. intros k x. rewrite Q1. reflexivity.
      - cbn. reflexivity. }
    assert (Hid_after : after g0 (pre ++ [lg]) id =
              if free then None else
              Some (mk_node p' (repeat (silence E) (length (n_inputs n))) o' (n_cfg n) (n_edges n)
                            (n_dropped n) false (n_breaker n))).
    { unfold after. rewrite En, logged_snoc by exact Hid. cbn [l_id lg]. rewrite Nat.eqb_refl.
      cbn [l_freed lg l_result]. destruct free eqn:F; [reflexivity|].
      rewrite live_edges_snoc. cbn [l_freed lg]. rewrite ?F, Hle. reflexivity. }
    destruct free eqn:F.
    + eexists _, lg. split; [reflexivity|]. split; [reflexivity|]. split; [exact Hlok|].
      intros i. unfold strip_edges. rewrite get_map_opt.
      destruct (Nat.eq_dec i id) as [->|Hi].
      * rewrite Hid_after. unfold remove. rewrite get_set_slot_eq by (eapply get_In; exact H2id). reflexivity.
      * unfold remove. rewrite get_set_slot_neq by congruence. apply Hmatch. exact Hi.
    + eexists _, lg. split; [reflexivity|]. split; [reflexivity|]. split; [exact Hlok|].
      intros i. destruct (Nat.eq_dec i id) as [->|Hi].
      * rewrite Hid_after. rewrite get_set_slot_eq by (eapply get_In; exact H2id). cbn.
        unfold mapi. rewrite mapi_from_length. reflexivity.
      * rewrite get_set_slot_neq by congruence. rewrite <- (Hmatch i Hi).
        destruct (get g2 i) as [[]|]; reflexivity.
  - (* panic *)
    cbn.
    set (lg := mk_log id (n_inputs n1) (view g id) (n_proc n1) (n_outputs n1) None [] true).
    assert (Hlok : log_ok frame g0 pre lg).
    { exists n. cbn. fold n1. split; [exact En|]. split; [reflexivity|]. split; [reflexivity|].
      split; [reflexivity|]. split; [exact Hview|]. split; [symmetry; exact Eproc|]. tauto. }
    eexists _, lg. split; [reflexivity|]. split; [reflexivity|]. split; [exact Hlok|].
    intros i. unfold strip_edges. rewrite get_map_opt. unfold remove.
    destruct (Nat.eq_dec i id) as [->|Hi].
    + rewrite get_set_slot_eq by (rewrite set_slot_length; eapply get_In; exact Egid).
      unfold after. rewrite En, logged_snoc by exact Hid. cbn [l_id lg]. rewrite Nat.eqb_refl. reflexivity.
    + rewrite !get_set_slot_neq by congruence. rewrite Hg. unfold after.
      destruct (get g0 i) as [m|]; [|reflexivity].
      rewrite logged_snoc by exact Hid. cbn [l_id lg].
      rewrite (proj2 (Nat.eqb_neq id i)) by congruence.
      rewrite live_edges_snoc. cbn [l_freed l_id lg].
      destruct (logged pre i) as [lg'|].
      * destruct (l_freed lg'); [reflexivity|]. destruct (l_result lg') as [[[p2 o2] t2]|]; reflexivity.
      * cbn. rewrite fedb_snoc. cbn. rewrite orb_false_r. f_equal. f_equal.
        unfold mapi. apply mapi_from_ext. intros k x. rewrite signals_into_snoc. cbn. rewrite app_nil_r. reflexivity.
Qed.

(** all log entries, each with its prefix *)
Fixpoint logs_ok (frame : nat) (g : nodes) (pre lgs : list step_log) : Prop :=
  match lgs with
  | [] => True
  | lg :: lgs' => log_ok frame g pre lg /\ logs_ok frame g (pre ++ [lg]) lgs'
  end.

Lemma render_nodes_step frame g0 ord : QOK g0 ord -> forall rest g pre,
  ord = map l_id pre ++ rest ->
  (forall i, get g i = after g0 pre i) ->
  (forall lg, In lg pre -> exists pre', log_ok frame g0 pre' lg) ->
  exists g' lgs, render_nodes E frame g rest = Some (g', lgs) /\ map l_id lgs = rest /\
    logs_ok frame g0 pre lgs /\ forall i, get g' i = after g0 (pre ++ lgs) i.
Proof.
  intros HQ. induction rest as [|id rest IH]; intros g pre Eord Hg Hl; cbn [render_nodes].
  - exists g, []. split; [reflexivity|]. split; [reflexivity|]. split; [exact I|].
    intros i. rewrite app_nil_r. apply Hg.
  - destruct (render_node_step frame g0 ord g pre id rest HQ Eord Hg Hl) as (g1 & lg & E1 & Hid & Hlok & Hg1).
    rewrite E1.
    destruct (IH g1 (pre ++ [lg])) as (g2 & lgs & E2 & Hids & Hlgs & Hg2).
    + rewrite map_app, <- app_assoc. cbn. rewrite Hid. exact Eord.
    + exact Hg1.
    + intros l Hin. apply in_app_or in Hin. destruct Hin as [Hin|[<-|[]]]; [apply Hl; exact Hin|].
      exists pre. exact Hlok.
    + rewrite E2. exists g2, (lg :: lgs). split; [reflexivity|]. split; [cbn; congruence|].
      split; [split; assumption|]. intros i. rewrite Hg2, <- app_assoc. reflexivity.
Qed.

Lemma render_nodes_post frame g ord : QOK g ord ->
  exists g' lgs, render_nodes E frame g ord = Some (g', lgs) /\ map l_id lgs = ord /\
    logs_ok frame g [] lgs /\ forall i, get g' i = after g lgs i.
Proof.
  intros HQ. destruct (render_nodes_step frame g ord HQ ord g []) as (g' & lgs & H).
  - reflexivity.
  - intros i. now rewrite after_nil.
  - intros lg [].
  - exists g', lgs. exact H.
Qed.

Lemma logs_ok_split frame g pre l1 lg l2 : logs_ok frame g pre (l1 ++ lg :: l2) -> log_ok frame g (pre ++ l1) lg.
Proof.
  revert pre. induction l1 as [|x l1 IH]; cbn; intros pre H.
  - rewrite app_nil_r. tauto.
  - destruct H as [_ H]. apply IH in H. rewrite <- app_assoc in H. exact H.
Qed.

Lemma logs_ok_In frame g pre lgs lg : logs_ok frame g pre lgs -> In lg lgs -> exists pre', log_ok frame g pre' lg.
Proof.
  intros H Hin. apply in_split in Hin. destruct Hin as (l1 & l2 & ->).
  exists (pre ++ l1). eapply logs_ok_split; exact H.
Qed.

(** signals of the whole quantum = signals of the nodes rendered before *)
Lemma later_logs_silent frame g ord lgs l1 lg l2 :
  rendering_order g ord -> map l_id lgs = ord -> logs_ok frame g [] lgs -> lgs = l1 ++ lg :: l2 ->
  (forall p, signals_into lgs (l_id lg) p = signals_into l1 (l_id lg) p) /\
  fedb lgs (l_id lg) = fedb l1 (l_id lg).
Proof.
  intros (ND & LV & TP) Hids Hlogs Hsp.
  assert (Hno : forall x e, In x (lg :: l2) -> l_result x <> None -> In e (l_edges x) -> e_dest e <> l_id lg).
  { intros x e Hx Hr He Heq.
    assert (Hxin : In x lgs) by (rewrite Hsp; apply in_or_app; now right).
    destruct (logs_ok_In _ _ _ _ _ Hlogs Hxin) as (pre' & n & En & _ & _ & _ & _ & _ & Hm).
    destruct (l_result x) as [[[p' o'] t]|] eqn:Er; [|congruence].
    destruct Hm as [Hedges _]. rewrite Hedges in He.
    assert (Hc : connected g (l_id x) (l_id lg)) by (exists n, e; tauto).
    assert (Hxo : In (l_id x) ord) by (rewrite <- Hids; apply in_map; exact Hxin).
    assert (Hlo : In (l_id lg) ord).
    { rewrite <- Hids, Hsp. apply in_map. apply in_or_app; right; now left. }
    pose proof (TP _ _ Hxo Hlo Hc) as Hb.
    destruct Hx as [<-|Hx].
    - apply (before_NoDup_irrefl _ _ ND Hb).
    - apply in_split in Hx. destruct Hx as (m1 & m2 & ->).
      assert (Hb2 : before ord (l_id lg) (l_id x)).
      { rewrite <- Hids, Hsp, map_app. cbn. rewrite map_app. cbn.
        exists (map l_id l1), (map l_id m1), (map l_id m2). reflexivity. }
      apply (before_NoDup_irrefl ord (l_id lg) ND). eapply before_trans; eauto. }
  split.
  - intros p. rewrite Hsp at 1. unfold signals_into at 1. rewrite flat_map_app.
    fold (signals_into l1 (l_id lg) p). rewrite (flat_map_nil _ (lg :: l2)); [apply app_nil_r|].
    intros x Hx. destruct (l_result x) as [[[p' o'] t]|] eqn:Er; [|reflexivity].
    apply flat_map_nil. intros e He.
    rewrite (proj2 (Nat.eqb_neq (e_dest e) (l_id lg))); [reflexivity|].
    apply (Hno x e Hx); [congruence|exact He].
  - rewrite Hsp at 1. unfold fedb at 1. rewrite existsb_app. fold (fedb l1 (l_id lg)).
    rewrite (existsb_false _ (lg :: l2)); [apply orb_false_r|].
    intros x Hx. destruct (l_result x) as [[[p' o'] t]|] eqn:Er; [|reflexivity].
    apply existsb_false. intros e He. unfold feeds.
    rewrite (proj2 (Nat.eqb_neq (e_dest e) (l_id lg))); [reflexivity|].
    apply (Hno x e Hx); [congruence|exact He].
Qed.

Lemma mapi_repeat (A B : Type) (f : nat -> A -> B) a k n :
  mapi_from k f (repeat a n) = map (fun i => f i a) (seq k n).
Proof. revert k. induction n; cbn; intros; [reflexivity|]. now rewrite IHn. Qed.

Lemma fedb_fed (lgs : list step_log) i : fedb lgs i = true <-> fed lgs i.
Proof.
  unfold fedb, fed. rewrite existsb_exists. split.
  - intros (lg & Hin & H). destruct (l_result lg) as [res|] eqn:Er; [|discriminate].
    apply existsb_exists in H. destruct H as (e & He & H). unfold feeds in H.
    apply andb_true_iff in H. destruct H as [H1 H2]. apply Nat.eqb_eq in H1.
    destruct (e_port e) as [p|] eqn:Ep; [|discriminate].
    exists lg, e, p. repeat split; try assumption. congruence.
  - intros (lg & e & p & Hin & Hr & He & Hd & Hp). exists lg. split; [exact Hin|].
    destruct (l_result lg); [|congruence]. apply existsb_exists. exists e. split; [exact He|].
    unfold feeds. rewrite Hd, Nat.eqb_refl, Hp. reflexivity.
Qed.

(** inputs of a quiet node *)
Lemma quantum_inputs frame g ord lgs lg n :
  rendering_order g ord -> map l_id lgs = ord -> logs_ok frame g [] lgs -> In lg lgs ->
  get g (l_id lg) = Some n -> quiet E g (l_id lg) ->
  l_inputs lg = map (fun p => mixed E (n_cfg n) (signals_into lgs (l_id lg) p)) (seq 0 (length (n_inputs n))).
Proof.
  intros Hord Hids Hlogs Hin En Hq.
  apply in_split in Hin. destruct Hin as (l1 & l2 & Hsp).
  destruct (later_logs_silent frame g ord lgs l1 lg l2 Hord Hids Hlogs Hsp) as [Hs _].
  assert (Hlok : log_ok frame g l1 lg).
  { change l1 with ([] ++ l1). eapply logs_ok_split. rewrite <- Hsp. exact Hlogs. }
  destruct Hlok as (n' & En' & Hi & _). rewrite En in En'. injection En' as <-.
  rewrite Hi. destruct (Hq n En) as [Hsil _]. cbn. unfold mapi. rewrite Hsil at 1. rewrite mapi_repeat.
  apply map_ext. intros p. unfold mixed. rewrite Hs. reflexivity.
Qed.

Lemma can_free_spec n t : can_free E n t = true <->
  n_dropped n = true /\
  ((n_connected n = false /\ (t = false \/ n_edges n = [])) \/
   (side_effects E (n_proc n) = false /\ n_edges n = [])).
Proof.
  unfold can_free.
  destruct (n_dropped n); cbn; [|split; [discriminate|intros [H _]; discriminate]].
  destruct (n_connected n), t, (n_edges n) as [|e es], (side_effects E (n_proc n)); cbn;
    (split; [first [discriminate|intros _; split; [reflexivity|tauto]]
            |first [reflexivity|intros [_ [[X [Y|Y]]|[X Y]]]; discriminate]]).
Qed.

Lemma quantum_freed frame g ord lgs lg :
  rendering_order g ord -> map l_id lgs = ord -> logs_ok frame g [] lgs -> In lg lgs ->
  quiet E g (l_id lg) ->
  (l_freed lg = true <-> may_disappear E g lgs lg).
Proof.
  intros Hord Hids Hlogs Hin Hq.
  apply in_split in Hin. destruct Hin as (l1 & l2 & Hsp).
  destruct (later_logs_silent frame g ord lgs l1 lg l2 Hord Hids Hlogs Hsp) as [_ Hf].
  assert (Hlok : log_ok frame g l1 lg).
  { change l1 with ([] ++ l1). eapply logs_ok_split. rewrite <- Hsp. exact Hlogs. }
  destruct Hlok as (n & En & _ & _ & _ & _ & _ & Hm).
  unfold may_disappear. destruct (Hq n En) as [_ Hcon].
  destruct (l_result lg) as [[[p' o'] t]|].
  - destruct Hm as [He ->]. rewrite can_free_spec. cbn. rewrite Hcon, He. cbn.
    rewrite <- Hf.
    assert (Hfed : fedb lgs (l_id lg) = false <-> ~ fed lgs (l_id lg)).
    { rewrite <- fedb_fed. destruct (fedb lgs (l_id lg)); split; congruence. }
    rewrite Hfed. split.
    + intros [Hd H]. split; [exists n; tauto|exact H].
    + intros [(n' & En' & Hd) H]. rewrite En in En'. injection En' as <-. tauto.
  - tauto.
Qed.

End Render.
