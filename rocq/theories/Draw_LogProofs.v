(** What a program that keeps its handles has drawn, in terms of its messages. *)
From Coq Require Import List Arith Bool Lia.
From Verif Require Import Graph_Model Protocol_Model Calls_Model Calls_Spec Calls_Proofs Calls_RunProofs Calls_PortProofs Draw_Spec Draw_GraphProofs.
Import ListNotations.

Definition links_of (ms : list note) : list conn := flat_map (fun m => match m with NConnect s o d p => [(s, o, d, p)] | _ => [] end) ms.
Definition adds (m : note) : Prop := match m with NDisconnect _ _ _ _ | NDrop _ => False | _ => True end.
Lemma wired_adds ms : Forall adds ms -> forall l, wired_from l ms = l ++ links_of ms.
Proof.
  induction 1 as [|m ms H F IH]; intros l; [cbn; now rewrite app_nil_r|]. destruct m; cbn in H; try contradiction; cbn [wired_from links_of flat_map app]; fold (links_of ms); rewrite IH; [reflexivity| |reflexivity].
  now rewrite <- app_assoc.
Qed.
Lemma wired_grow log ms : Forall adds ms -> wired (log ++ ms) = wired log ++ links_of ms.
Proof. intros F. unfold wired. rewrite wired_from_app. now apply wired_adds. Qed.
Lemma links_app a b : links_of (a ++ b) = links_of a ++ links_of b.
Proof. apply flat_map_app. Qed.

(** *** the layout of the nodes *)
Definition extra (c : call) : nat := match params_made c with Some m => 1 + m | None => 0 end.
Fixpoint next (k : nat) (cs : list call) : nat := match cs with [] => k | c :: r => next (k + extra c) r end.
Lemma next_snoc k cs c : next k (cs ++ [c]) = next k cs + extra c.
Proof. revert k. induction cs as [|x cs IH]; intros k; cbn [app next]; [reflexivity|apply IH]. Qed.
Lemma layout_snoc k cs c : layout k (cs ++ [c]) = layout k cs ++ match params_made c with Some _ => [(c, next k cs)] | None => [] end.
Proof.
  revert k. induction cs as [|x cs IH]; intros k; cbn [app layout next].
  - destruct (params_made c); reflexivity.
  - unfold extra. destruct (params_made x); rewrite IH; cbn [app]; [|now rewrite Nat.add_0_r]. now rewrite Nat.add_assoc.
Qed.
Lemma placed_snoc n cs c c' k : placed n (cs ++ [c]) c' k <-> placed n cs c' k \/ (c' = c /\ params_made c <> None /\ k = next (10 * n) cs).
Proof.
  unfold placed. rewrite layout_snoc, in_app_iff. split.
  - intros [H|H]; [now left|right]. destruct (params_made c); [|destruct H]. destruct H as [H|[]]. injection H as <- <-. repeat split. discriminate.
  - intros [H|(-> & H & ->)]; [now left|right]. destruct (params_made c); [now left|congruence].
Qed.
Lemma belongs_snoc n cs c p b : belongs n cs p b -> belongs n (cs ++ [c]) p b.
Proof. intros (c' & m & H & Hm & Hp). exists c', m. split; [apply placed_snoc; now left|auto]. Qed.
Lemma taken_snoc cs c ctx id : taken cs ctx id -> taken (cs ++ [c]) ctx id.
Proof. intros (c' & ids & H & R). exists c', ids. split; [apply in_app_iff; now left|exact R]. Qed.
Lemma taken_new cs c ctx ids id : takes c = Some (ctx, ids) -> In id ids -> taken (cs ++ [c]) ctx id.
Proof. intros T H. exists c, ids. split; [apply in_app_iff; right; now left|auto]. Qed.

Definition stands (t : table) (c : call) (k : nat) : Prop :=
  match c with
  | MakeNode ctx id i o _ => live_at t k (mk_object ctx id id i o)
  | MakeDelay ctx wr rd _ => wr <> rd /\ live_at t k (mk_object ctx wr rd 1 1)
  | MakePanner ctx id _ => live_at t k (mk_object ctx id id 1 1)
  | _ => True
  end.
Definition none_edge (n : nat) (cs : list call) (t : table) (ctx s d : nat) : Prop :=
  (s = 1 /\ d = 0) \/ (2 <= s <= 10 /\ d = 1) \/ (s = 1 /\ exists id ps k, placed n cs (MakePanner ctx id ps) k /\ d = id) \/
  exists a x b y, live_at t a x /\ live_at t b y /\ o_ctx x = ctx /\ o_ctx y = ctx /\ o_out x = s /\ o_out y = d /\ belongs n cs a b.

Definition explained (n : nat) (cs : list call) (t : table) (ctx : nat) (e : conn) : Prop :=
  (exists s o d q a x, e = (s, o, d, Some q) /\ live_at t a x /\ o_ctx x = ctx /\ o_out x = s) \/
  (exists c k, placed n cs c k /\ In e (own ctx c)) \/ (existsb (wakes ctx) cs = true /\ In e of_ears).

Record D (n : nat) (cs : list call) (w : world) : Prop := {
  d_reg : forall ctx id, registered (w_sent w ctx) id -> id = 0 \/ (1 <= id <= 10 /\ w_waiting w ctx = []) \/ taken cs ctx id;
  d_good : forall ctx, Good (w_sent w ctx);
  d_conns : forall ctx c, In c (w_conns w ctx) -> In c (wired (w_sent w ctx));
  d_wired : forall ctx s o d q, In (s, o, d, Some q) (wired (w_sent w ctx)) -> In (s, o, d, Some q) (w_conns w ctx);
  d_some : forall ctx s o d q, In (s, o, d, Some q) (wired (w_sent w ctx)) ->
           In (NBreaker s) (w_sent w ctx) \/ exists a x, live_at (w_objs w) a x /\ o_ctx x = ctx /\ o_out x = s;
  d_none : forall ctx s o d, In (s, o, d, None) (wired (w_sent w ctx)) -> none_edge n cs (w_objs w) ctx s d;
  d_brk : forall ctx wr rd p k, placed n cs (MakeDelay ctx wr rd p) k -> In (NBreaker wr) (w_sent w ctx);
  d_objs : forall c k, placed n cs c k -> stands (w_objs w) c k;
  d_del : forall a x, live_at (w_objs w) a x -> o_in x <> o_out x -> exists p, placed n cs (MakeDelay (o_ctx x) (o_in x) (o_out x) p) a;
  d_len : length (w_objs w) = next (10 * n) cs;
  d_ids : forall a x f, nth_error (w_objs w) a = Some (x, f) -> f = true /\ (o_in x <= 10 \/ taken cs (o_ctx x) (o_in x)) /\ (o_out x <= 10 \/ taken cs (o_ctx x) (o_out x));
  d_once : drawn_once n cs -> forall ctx, NoDup (wired (w_sent w ctx));
  d_own : forall ctx e, In e (wired (w_sent w ctx)) -> explained n cs (w_objs w) ctx e
}.

Lemma live_grow t new a x : live_at t a x -> live_at (t ++ map (fun o : object => (o, true)) new) a x.
Proof. unfold live_at. intros H. rewrite nth_error_app1; [exact H|]. apply nth_error_Some. congruence. Qed.
Lemma live_new t new j x : nth_error new j = Some x -> live_at (t ++ map (fun o : object => (o, true)) new) (length t + j) x.
Proof. unfold live_at. intros H. rewrite nth_error_app2 by lia. replace (length t + j - length t) with j by lia. rewrite nth_error_map, H. reflexivity. Qed.
Lemma live_old_new t new a x f : nth_error (t ++ map (fun o : object => (o, true)) new) a = Some (x, f) ->
  nth_error t a = Some (x, f) \/ (f = true /\ exists j, a = length t + j /\ nth_error new j = Some x).
Proof.
  intros H. destruct (Nat.lt_ge_cases a (length t)) as [L|L]; [left; rewrite nth_error_app1 in H by exact L; exact H|right].
  rewrite nth_error_app2 in H by exact L. rewrite nth_error_map in H. destruct (nth_error new (a - length t)) eqn:En; [|discriminate]. cbn in H. injection H as -> <-.
  split; [reflexivity|]. exists (a - length t). split; [lia|exact En].
Qed.

Lemma none_grow n cs c t new ctx s d : none_edge n cs t ctx s d -> none_edge n (cs ++ [c]) (t ++ map (fun o : object => (o, true)) new) ctx s d.
Proof.
  intros [H|[H|[(H1 & id & ps & k & H2 & H3)|(a & x & b & y & Ha & Hb & R)]]]; [now left|right; now left|right; right; left|right; right; right].
  - split; [exact H1|]. exists id, ps, k. split; [apply placed_snoc; now left|exact H3].
  - exists a, x, b, y. split; [now apply live_grow|]. split; [now apply live_grow|]. destruct R as (R1 & R2 & R3 & R4 & R5). repeat split; try assumption. now apply belongs_snoc.
Qed.

Lemma explained_grow n cs c t new ctx e : explained n cs t ctx e -> explained n (cs ++ [c]) (t ++ map (fun o : object => (o, true)) new) ctx e.
Proof.
  intros [(s & o & d & q & a & x & H1 & H2 & H3)|[(c' & k & H1 & H2)|[H1 H2]]]; [left|right; left|right; right].
  - exists s, o, d, q, a, x. split; [exact H1|]. split; [now apply live_grow|exact H3].
  - exists c', k. split; [apply placed_snoc; now left|exact H2].
  - split; [rewrite existsb_app, H1; reflexivity|exact H2].
Qed.

Lemma NoDup_app_intro {A} (l1 l2 : list A) : NoDup l1 -> NoDup l2 -> (forall x, In x l1 -> ~ In x l2) -> NoDup (l1 ++ l2).
Proof.
  induction 1 as [|x l H1 H2 IH]; intros H3 H4; [exact H3|]. cbn [app]. constructor.
  - intros H. apply in_app_iff in H as [H|H]; [contradiction|]. apply (H4 x); [now left|exact H].
  - apply IH; [exact H3|]. intros y Hy. apply H4. now right.
Qed.

Lemma D_add n cs c w w' ctx ms cnew new :
  D n cs w ->
  w_objs w' = w_objs w ++ map (fun o => (o, true)) new ->
  (forall x, w_sent w' x = if Nat.eqb x ctx then w_sent w ctx ++ ms else w_sent w x) ->
  (forall x cc, In cc (w_conns w' x) <-> In cc (w_conns w x) \/ (x = ctx /\ In cc cnew)) ->
  (forall x, w_waiting w x = [] -> w_waiting w' x = []) ->
  Forall adds ms ->
  (forall cc, In cc cnew -> In cc (wired (w_sent w ctx)) \/ In cc (links_of ms)) ->
  (forall s o d q, In (s, o, d, Some q) (links_of ms) -> In (s, o, d, Some q) cnew) ->
  good_from (w_sent w ctx) ms ->
  (forall id, registered ms id -> id = 0 \/ (1 <= id <= 10 /\ w_waiting w' ctx = []) \/ taken (cs ++ [c]) ctx id) ->
  (forall s o d q, In (s, o, d, Some q) (links_of ms) -> In (NBreaker s) ms \/ exists a x, live_at (w_objs w') a x /\ o_ctx x = ctx /\ o_out x = s) ->
  (forall s o d, In (s, o, d, None) (links_of ms) -> none_edge n (cs ++ [c]) (w_objs w') ctx s d) ->
  (forall x wr rd p, c = MakeDelay x wr rd p -> x = ctx /\ In (NBreaker wr) ms) ->
  length new = extra c ->
  (params_made c <> None -> stands (w_objs w') c (length (w_objs w))) ->
  (forall j x, nth_error new j = Some x -> o_in x <> o_out x -> j = 0 /\ exists p, c = MakeDelay (o_ctx x) (o_in x) (o_out x) p) ->
  (forall x, In x new -> taken (cs ++ [c]) (o_ctx x) (o_in x) /\ taken (cs ++ [c]) (o_ctx x) (o_out x)) ->
  (drawn_once n (cs ++ [c]) -> NoDup (links_of ms) /\ forall cc, In cc (links_of ms) -> ~ In cc (wired (w_sent w ctx))) ->
  (forall s o d p, In (s, o, d, p) (links_of ms) -> (exists q a x, p = Some q /\ live_at (w_objs w') a x /\ o_ctx x = ctx /\ o_out x = s) \/
     (params_made c <> None /\ In (s, o, d, p) (own ctx c)) \/ (wakes ctx c = true /\ In (s, o, d, p) of_ears)) ->
  D n (cs ++ [c]) w'.
Proof.
  intros HD E1 E2 E3 E4 AO C1 C2 G HR HS HN HB HL HO HDel HT H1 HE. pose proof HD as [D1 D2 D3 D4 D5 D6 D7 D8 D9 D10 D11 D12 D13].
  assert (Wd : forall x, wired (w_sent w' x) = if Nat.eqb x ctx then wired (w_sent w ctx) ++ links_of ms else wired (w_sent w x)).
  { intros x. rewrite E2. destruct (Nat.eqb x ctx); [|reflexivity]. now apply wired_grow. }
  constructor.
  - intros x id H. rewrite E2 in H. destruct (Nat.eqb_spec x ctx) as [->|N].
    + apply registered_app in H as [H|H]; [|auto]. destruct (D1 ctx id H) as [H'|[[H' W']|H']]; [now left|right; left; auto|right; right; now apply taken_snoc].
    + destruct (D1 x id H) as [H'|[[H' W']|H']]; [now left|right; left; auto|right; right; now apply taken_snoc].
  - intros x. rewrite E2. destruct (Nat.eqb_spec x ctx) as [->|N]; [|apply D2]. unfold Good. apply good_from_app. split; [apply D2|exact G].
  - intros x cc H. rewrite Wd. apply E3 in H as [H|[-> H]].
    + destruct (Nat.eqb_spec x ctx) as [->|N]; [apply in_app_iff; left|]; now apply D3.
    + rewrite Nat.eqb_refl. apply in_app_iff. now apply C1.
  - intros x s o d q H. rewrite Wd in H. apply E3. destruct (Nat.eqb_spec x ctx) as [->|N]; [|left; now apply D4].
    apply in_app_iff in H as [H|H]; [left; now apply D4|right; auto].
  - intros x s o d q H. rewrite Wd in H. rewrite E2, E1. destruct (Nat.eqb_spec x ctx) as [->|N].
    + apply in_app_iff in H as [H|H].
      * destruct (D5 _ _ _ _ _ H) as [H'|(a & y & Ha & R)]; [left; apply in_app_iff; now left|right]. exists a, y. split; [now apply live_grow|exact R].
      * destruct (HS _ _ _ _ H) as [H'|H']; [left; apply in_app_iff; now right|right]. rewrite <- E1. exact H'.
    + destruct (D5 _ _ _ _ _ H) as [H'|(a & y & Ha & R)]; [now left|right]. exists a, y. split; [now apply live_grow|exact R].
  - intros x s o d H. rewrite Wd in H. destruct (Nat.eqb_spec x ctx) as [->|N].
    + apply in_app_iff in H as [H|H]; [rewrite E1; apply none_grow; now apply D6 with (o := o)|]. now apply HN with (o := o).
    + rewrite E1. apply none_grow. now apply D6 with (o := o).
  - intros x wr rd p k H. apply placed_snoc in H as [H|(<- & _ & _)].
    + apply D7 in H. rewrite E2. destruct (Nat.eqb_spec x ctx) as [->|N]; [apply in_app_iff; now left|exact H].
    + destruct (HB _ _ _ _ eq_refl) as [-> Hb]. rewrite E2, Nat.eqb_refl. apply in_app_iff. now right.
  - intros c' k H. apply placed_snoc in H as [H|(-> & Hm & ->)].
    + apply D8 in H. rewrite E1. destruct c'; cbn [stands] in *; try exact I; try (now apply live_grow). destruct H as [N H]. split; [exact N|now apply live_grow].
    + rewrite <- D10. now apply HO.
  - intros a x H Ne. unfold live_at in H. rewrite E1 in H. apply live_old_new in H as [H|(_ & j & -> & H)].
    + destruct (D9 a x H Ne) as [p Hp]. exists p. apply placed_snoc. now left.
    + destruct (HDel j x H Ne) as [-> [p ->]]. exists p. apply placed_snoc. right. split; [reflexivity|]. split; [discriminate|]. now rewrite D10, Nat.add_0_r.
  - rewrite E1, app_length, map_length, next_snoc, HL, D10. reflexivity.
  - intros a x f H. rewrite E1 in H. apply live_old_new in H as [H|(-> & j & -> & H)].
    + destruct (D11 a x f H) as (A & B & C). repeat split; [exact A| |]; [destruct B as [B|B]|destruct C as [C|C]]; auto using taken_snoc.
    + apply nth_error_In in H. destruct (HT x H). auto.
  - intros DO x. rewrite Wd.
    assert (DO' : drawn_once n cs). { intros b a o e i after Ec. apply (DO b a o e i (after ++ [c])). rewrite Ec, <- app_assoc. reflexivity. }
    destruct (Nat.eqb_spec x ctx) as [->|N]; [|now apply D12]. destruct (H1 DO) as [H2 H3].
    apply NoDup_app_intro; [now apply D12|exact H2|]. intros cc Hc Hin. exact (H3 cc Hin Hc).
  - intros x e H. rewrite Wd in H. destruct (Nat.eqb_spec x ctx) as [->|N]; [|rewrite E1; apply explained_grow; now apply D13].
    apply in_app_iff in H as [H|H]; [rewrite E1; apply explained_grow; now apply D13|]. destruct e as [[[s o] d] p].
    destruct (HE s o d p H) as [(q & a & y & -> & Ha)|[[Hm Ho]|[Hw Ho]]]; [left; exists s, o, d, q, a, y; auto|right; left|right; right].
    + exists c, (next (10 * n) cs). split; [apply placed_snoc; right; auto|exact Ho].
    + split; [rewrite existsb_app; cbn [existsb]; rewrite Hw, orb_true_r; reflexivity|exact Ho].
Qed.

(** *** blocks of messages *)
Lemma fine_connect_registered log s o d p : fine (fun _ => None) log -> In (NConnect s o d p) log -> registered log s /\ registered log d.
Proof.
  intros F H. apply in_split in H as (pre & post & ->). apply fine_app in F as [_ F]. cbn [fine] in F. destruct F as ((i & k & Es & _) & (i' & k' & Ed & _) & _).
  split; apply registered_app; left; [apply made_registered in Es as [Es|Es]|apply made_registered in Ed as [Ed|Ed]]; try discriminate; assumption.
Qed.
Lemma wired_registered log s o d p : fine (fun _ => None) log -> In (s, o, d, p) (wired log) -> registered log s /\ registered log d.
Proof. intros F H. apply wired_note in H. now apply (fine_connect_registered log s o d p F). Qed.

Lemma good_news f ids : forall log, NoDup ids -> (forall id, In id ids -> ~ registered log id) ->
  (forall id, exists i k, f id = NRegister id i k) -> good_from log (map f ids).
Proof.
  induction ids as [|id ids IH]; intros log ND H Hf; [exact I|]. inversion ND as [|? ? N1 N2]; subst. cbn [map good_from]. destruct (Hf id) as (i & k & E). rewrite E. split; [apply H; now left|].
  apply IH; [exact N2| |exact Hf]. intros j Hj Hr. apply registered_app in Hr as [Hr|(a & b & [Hr|[]])]; [apply (H j); [now right|exact Hr]|]. injection Hr as -> _ _. contradiction.
Qed.
Definition is_connect (m : note) : Prop := match m with NConnect _ _ _ _ => True | _ => False end.
Lemma good_connects ms : Forall is_connect ms -> forall log, good_from log ms.
Proof. induction 1 as [|m ms H F IH]; intros log; [exact I|]. destruct m; try contradiction. cbn [good_from good_note]. split; [exact I|apply IH]. Qed.
Lemma registered_map f ids : (forall id, exists i k, f id = NRegister id i k) -> forall j, registered (map f ids) j <-> In j ids.
Proof.
  intros Hf j. unfold registered. split.
  - intros (i & k & H). apply in_map_iff in H as (x & E & H). destruct (Hf x) as (a & b & E'). rewrite E' in E. injection E as -> _ _. exact H.
  - intros H. destruct (Hf j) as (i & k & E). exists i, k. rewrite <- E. now apply in_map.
Qed.
Lemma registered_connects ms : Forall is_connect ms -> forall j, ~ registered ms j.
Proof. intros F j (i & k & H). rewrite Forall_forall in F. exact (F _ H). Qed.
Lemma reg_is : forall id, exists i k, (fun p => NRegister p 1 1) id = NRegister id i k.
Proof. intros id. now exists 1, 1. Qed.
Lemma shape_is : forall id, exists i k, shape id = NRegister id i k.
Proof. intros id. unfold shape. destruct (Nat.eqb_spec id 1) as [->|]; eauto. Qed.
Lemma links_map f (g : nat -> conn) ids : (forall id, links_of [f id] = [g id]) -> links_of (map f ids) = map g ids.
Proof. intros H. induction ids as [|x ids IH]; [reflexivity|]. change (map f (x :: ids)) with ([f x] ++ map f ids). rewrite links_app, H, IH. reflexivity. Qed.
Lemma links_regs f ids : (forall id, exists i k, f id = NRegister id i k) -> links_of (map f ids) = [].
Proof. intros Hf. induction ids as [|x ids IH]; [reflexivity|]. cbn [map links_of flat_map]. destruct (Hf x) as (i & k & ->). exact IH. Qed.
Lemma adds_regs f ids : (forall id, exists i k, f id = NRegister id i k) -> Forall adds (map f ids).
Proof. intros Hf. apply Forall_forall. intros m H. apply in_map_iff in H as (x & <- & _). destruct (Hf x) as (i & k & ->). exact I. Qed.
Lemma adds_connects ms : Forall is_connect ms -> Forall adds ms.
Proof. apply Forall_impl. intros m. destruct m; cbn; auto. Qed.
Lemma connects_to id ids : Forall is_connect (map (fun p => NConnect p 0 id None) ids).
Proof. apply Forall_forall. intros m H. apply in_map_iff in H as (x & <- & _). exact I. Qed.

(** *** disconnecting *)
Lemma D_cut n cs c w ctx src out dst inp : D n cs w -> (forall x, fine (fun _ => None) (w_sent w x)) -> params_made c = None -> takes c = None -> (forall x wr rd p, c <> MakeDelay x wr rd p) ->
  D n (cs ++ [c]) (snd (link_down w ctx src out dst inp)).
Proof.
  intros HD HF Hm Ht Hc. pose proof HD as [D1 D2 D3 D4 D5 D6 D7 D8 D9 D10 D11 D12 D13]. set (port := match inp with Some i => Some (Some i) | None => None end).
  set (sel := filter (selects src out dst port) (w_conns w ctx)). set (rest := filter (fun c => negb (selects src out dst port c)) (w_conns w ctx)).
  assert (E : snd (link_down w ctx src out dst inp) = say (mk_world (w_objs w) (set (w_conns w) ctx rest) (w_waiting w) (w_params w) (w_sent w)) ctx (map (undo src) sel)).
  { unfold link_down. fold port. fold sel. fold rest. destruct sel, dst; reflexivity. }
  rewrite E. clear E.
  assert (Src : forall cc, In cc sel -> csrc cc = src /\ In cc (w_conns w ctx)).
  { intros [[[s o] d] p] H. apply filter_In in H as [H1 H2]. split; [|exact H1]. unfold selects in H2. rewrite !andb_true_iff in H2. cbn [csrc]. now apply Nat.eqb_eq. }
  assert (Wd : forall l log, (forall cc, In cc l -> csrc cc = src) -> forall cc, In cc (wired (log ++ map (undo src) l)) <-> In cc (wired log) /\ ~ In cc l).
  { intros l. induction l as [|x l IH] using rev_ind; intros log Hl cc; [cbn; rewrite app_nil_r; tauto|]. rewrite map_app, app_assoc. unfold wired at 1. rewrite wired_from_app. fold (wired (log ++ map (undo src) l)). destruct x as [[[s o] d] p].
    assert (s = src) as -> by (apply (Hl (s, o, d, p)); apply in_app_iff; right; now left). cbn [map undo wired_from]. rewrite filter_In, IH by (intros y Hy; apply Hl, in_app_iff; now left).
    rewrite negb_true_iff. rewrite in_app_iff. cbn [In]. destruct (conn_eqb (src, o, d, p) cc) eqn:Ec.
    - apply conn_eqb_spec in Ec. subst cc. split; [intros [_ H]; discriminate|]. tauto.
    - assert (N : (src, o, d, p) <> cc) by (intros <-; rewrite (proj2 (conn_eqb_spec _ _) eq_refl) in Ec; discriminate). tauto. }
  assert (Ndw : forall l log, NoDup (wired log) -> NoDup (wired (log ++ map (undo src) l))).
  { intros l. induction l as [|x l IH] using rev_ind; intros log H; [cbn; now rewrite app_nil_r|]. rewrite map_app, app_assoc. unfold wired. rewrite wired_from_app. fold (wired (log ++ map (undo src) l)). destruct x as [[[s o] d] p]. cbn [map undo wired_from]. apply NoDup_filter. now apply IH. }
  assert (Rg : forall l log id, registered (log ++ map (undo src) l) id <-> registered log id).
  { intros l log id. rewrite registered_app. split; [|now left]. intros [H|(i & k & H)]; [exact H|]. apply in_map_iff in H as ([[[s o] d] p] & H & _). discriminate. }
  assert (Bk : forall l log id, In (NBreaker id) (log ++ map (undo src) l) <-> In (NBreaker id) log).
  { intros l log id. rewrite in_app_iff. split; [|now left]. intros [H|H]; [exact H|]. apply in_map_iff in H as ([[[s o] d] p] & H & _). discriminate. }
  assert (Sd : forall x, w_sent (say (mk_world (w_objs w) (set (w_conns w) ctx rest) (w_waiting w) (w_params w) (w_sent w)) ctx (map (undo src) sel)) x = if Nat.eqb x ctx then w_sent w ctx ++ map (undo src) sel else w_sent w x) by reflexivity.
  set (w' := say _ _ _) in *.
  assert (WI : forall x cc, In cc (wired (w_sent w' x)) -> In cc (wired (w_sent w x)) /\ (x = ctx -> ~ In cc sel)).
  { intros x cc H. rewrite Sd in H. destruct (Nat.eqb_spec x ctx) as [->|]; [|auto]. apply Wd in H; [tauto|]. intros y Hy. now apply Src. }
  assert (P' : forall c' k, placed n (cs ++ [c]) c' k <-> placed n cs c' k).
  { intros c' k. rewrite placed_snoc. split; [intros [H|(_ & H & _)]; [exact H|congruence]|now left]. }
  constructor.
  - intros x id H. assert (H' : registered (w_sent w x) id). { rewrite Sd in H. destruct (Nat.eqb_spec x ctx) as [->|]; [apply (proj1 (Rg sel _ _)) in H|]; exact H. }
    destruct (D1 x id H') as [A|[A|A]]; [now left|right; now left|right; right; now apply taken_snoc].
  - intros x. rewrite Sd. destruct (Nat.eqb_spec x ctx) as [->|]; [|apply D2]. unfold Good. apply good_from_app. split; [apply D2|]. cbn [app].
    assert (G : forall l log, (forall cc, In cc l -> registered log src) -> good_from log (map (undo src) l)).
    { induction l as [|[[[s o] d] p] l IH]; intros log Hl; [exact I|]. cbn [map undo good_from good_note]. split; [apply (Hl (s, o, d, p)); now left|]. apply IH. intros cc Hcc. apply registered_app. left. apply (Hl cc). now right. }
    apply G. intros cc Hcc. destruct (Src cc Hcc) as [<- Hin]. apply D3 in Hin. destruct cc as [[[s o] d] p]. exact (proj1 (wired_registered _ _ _ _ _ (HF ctx) Hin)).
  - intros x cc H. rewrite Sd. unfold w' in H. cbn [say w_conns] in H. unfold set in H. destruct (Nat.eqb_spec x ctx) as [->|]; [|now apply D3].
    apply filter_In in H as [H1 H2]. apply Wd; [intros y Hy; now apply Src|]. split; [now apply D3|]. intros Hs. apply filter_In in Hs as [_ Hs]. rewrite Hs in H2. discriminate.
  - intros x s o d q H. apply WI in H as [H1 H2]. apply D4 in H1. unfold w'. cbn [say w_conns]. unfold set. destruct (Nat.eqb_spec x ctx) as [->|]; [|exact H1]. apply filter_In. split; [exact H1|].
    destruct (selects src out dst port (s, o, d, Some q)) eqn:Es; [|reflexivity]. exfalso. apply (H2 eq_refl). apply filter_In. auto.
  - intros x s o d q H. apply WI in H as [H1 _]. destruct (D5 _ _ _ _ _ H1) as [A|A]; [left|right; exact A]. rewrite Sd. destruct (Nat.eqb_spec x ctx) as [->|]; [now apply Bk|exact A].
  - intros x s o d H. apply WI in H as [H1 _]. assert (A := none_grow n cs c (w_objs w) [] x s d (D6 _ _ _ _ H1)). cbn [map] in A. now rewrite app_nil_r in A.
  - intros x wr rd p k H. apply P' in H. apply D7 in H. rewrite Sd. destruct (Nat.eqb_spec x ctx) as [->|]; [now apply Bk|exact H].
  - intros c' k H. apply P' in H. now apply D8.
  - intros a x H N. destruct (D9 a x H N) as [p Hp]. exists p. now apply P'.
  - rewrite next_snoc. unfold extra. rewrite Hm, Nat.add_0_r. exact D10.
  - intros a x f H. destruct (D11 a x f H) as (A & B & C). repeat split; [exact A| |]; [destruct B as [B|B]|destruct C as [C|C]]; auto using taken_snoc.
  - intros DO x. assert (DO' : drawn_once n cs). { intros b a o e i after Ec. apply (DO b a o e i (after ++ [c])). rewrite Ec, <- app_assoc. reflexivity. }
    rewrite Sd. destruct (Nat.eqb x ctx); [apply Ndw|]; now apply D12.
  - intros x e H. apply WI in H as [H _]. assert (A := explained_grow n cs c (w_objs w) [] x e (D13 x e H)). cbn [map] in A. now rewrite app_nil_r in A.
Qed.

(** calls without effect *)
Lemma D_same n cs c w : D n cs w -> params_made c = None -> D n (cs ++ [c]) w.
Proof.
  intros HD Hm. apply (D_add n cs c w w 0 [] [] [] HD).
  - cbn [map]. now rewrite app_nil_r.
  - intros x. rewrite app_nil_r. destruct (Nat.eqb_spec x 0) as [->|]; reflexivity.
  - intros x cc. cbn [In]. tauto.
  - auto.
  - constructor.
  - intros cc [].
  - intros s o d q [].
  - exact I.
  - intros id (i & k & []).
  - intros s o d q [].
  - intros s o d [].
  - intros x wr rd p ->. discriminate.
  - unfold extra. now rewrite Hm.
  - congruence.
  - intros [|j] x H; discriminate.
  - intros x [].
  - intros _. split; [constructor|intros cc []].
  - intros s o d p [].
Qed.
