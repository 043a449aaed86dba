(** The renderer's graph is the drawing of the program. *)
From Coq Require Import List Arith Bool Lia.
From Verif Require Import Graph_Model Graph_Spec Graph_TraceModel Graph_TraceSpec Whole_Spec Protocol_Model Calls_Model Calls_Spec Calls_Proofs Calls_RunProofs Calls_PortProofs
  Draw_Model Draw_Spec Draw_GraphProofs Draw_LogProofs Draw_StepProofs.
Import ListNotations.

Lemma down_objs w ctx src out dst inp : w_objs (snd (link_down w ctx src out dst inp)) = w_objs w.
Proof. unfold link_down. destruct (filter _ _), dst; reflexivity. Qed.

Lemma objs_grow c w : (forall a, c <> Drop a) -> exists new, w_objs (snd (call_step c w)) = w_objs w ++ new.
Proof.
  intros N. destruct c as [ctx id ins outs params|ctx wr rd p|ctx id params|ctx|a out b inp|a|a b|a out|a b out|a b out inp|a]; cbn [call_step];
    try (exfalso; eapply N; reflexivity);
    repeat match goal with |- context [match held ?w ?a with _ => _ end] => destruct (held w a) end;
    repeat match goal with |- context [if negb ?b then _ else _] => destruct b; cbn [negb] end;
    rewrite ?down_objs; cbn [snd];
    try (exists []; now rewrite ?wake_objs, ?app_nil_r);
    try (exists []; cbn [link_up say w_objs]; now rewrite app_nil_r);
    try (eexists; reflexivity).
  eexists. cbn [link_up say new_objs w_objs]. rewrite wake_objs. reflexivity.
Qed.

Lemma first_objs n cs : kept cs -> exists new, w_objs (snd (calls cs (world0 n))) = w_objs (world0 n) ++ new.
Proof.
  induction cs as [|c cs IH] using rev_ind; intros KP; [exists []; now rewrite app_nil_r|].
  destruct IH as [new En]; [intros a H; apply (KP a); apply in_app_iff; now left|]. rewrite calls_snoc.
  destruct (objs_grow c (snd (calls cs (world0 n)))) as [new' E']; [intros a ->; apply (KP a); apply in_app_iff; right; now left|].
  exists (new ++ new'). rewrite E', En, app_assoc. reflexivity.
Qed.

Lemma fixture_live n cs ctx j : kept cs -> ctx < n -> j < 10 ->
  exists x, live_at (w_objs (snd (calls cs (world0 n)))) (10 * ctx + j) x /\ o_ctx x = ctx /\ o_out x = (if Nat.eqb j 0 then 0 else S j).
Proof.
  intros KP L Lj. destruct (first_objs n cs KP) as [new En].
  destruct (nth_error (fixtures ctx) j) as [x|] eqn:Ex; [|apply nth_error_None in Ex; cbn in Ex; lia].
  assert (H : nth_error (flat_map fixtures (seq 0 n)) (10 * ctx + j) = Some x).
  { apply flat_fix. split; [lia|]. replace (10 * ctx + j) with (j + ctx * 10) by lia. rewrite Nat.div_add, Nat.mod_add, Nat.div_small, Nat.mod_small by lia. exact Ex. }
  exists x. split.
  - unfold live_at. rewrite En. rewrite nth_error_app1.
    + cbn [world0 w_objs]. now rewrite nth_error_map, H.
    + cbn [world0 w_objs]. rewrite map_length. apply nth_error_Some. congruence.
  - apply fixture_at in Ex as [[-> ->]|[Hj ->]]; cbn [o_ctx o_out]; [auto|]. split; [reflexivity|]. destruct (Nat.eqb_spec j 0); [lia|reflexivity].
Qed.

(** *** the connections made by constructors stay *)
Definition one_none (w : world) : Prop := forall ctx s o d, In (s, o, d, None) (w_conns w ctx) -> s = 1.

Lemma up_none w x s o d p : one_none w -> (p = None -> s = 1) -> one_none (link_up w x s o d p).
Proof.
  intros N H ctx s' o' d' Hin. cbn [link_up say w_conns] in Hin. unfold set in Hin. destruct (Nat.eqb ctx x); [|exact (N _ _ _ _ Hin)].
  apply record_in in Hin as [Hin|Hin]; [exact (N _ _ _ _ Hin)|]. injection Hin as -> _ _ <-. auto.
Qed.
Lemma down_none w x s o d i : one_none w -> one_none (snd (link_down w x s o d i)).
Proof.
  intros N ctx s' o' d' Hin. apply (N ctx s' o' d'). revert Hin. unfold link_down. destruct (filter _ _), d; cbn [snd say w_conns]; unfold set; destruct (Nat.eqb_spec ctx x) as [->|]; auto; intros H; apply filter_In in H; apply H.
Qed.
Lemma wake_none w x : one_none w -> one_none (wake_listener w x).
Proof. intros N. unfold wake_listener. destruct (w_waiting w x); [exact N|]. apply up_none; [|reflexivity]. exact N. Qed.

Lemma step_none c w : (forall a, c <> Drop a) -> one_none w -> one_none (snd (call_step c w)).
Proof.
  intros ND N. destruct c as [x id ins outs params|x wr rd p|x id params|x|a out b inp|a|a b|a out|a b out|a b out inp|a]; cbn [call_step];
    try (exfalso; eapply ND; reflexivity);
    repeat match goal with |- context [match held ?w ?a with _ => _ end] => destruct (held w a) end;
    repeat match goal with |- context [if negb ?b then _ else _] => destruct b; cbn [negb] end;
    try (apply down_none; exact N); cbn [snd]; try exact N.
  - apply up_none; [exact N|discriminate].
  - change (one_none (link_up (say (wake_listener (say w x (map (fun p => NRegister p 1 1) params)) x) x (NRegister id 1 1 :: map (fun p => NConnect p 0 id None) params)) x 1 0 id None)).
    apply up_none; [|reflexivity]. apply (wake_none (say w x (map (fun p => NRegister p 1 1) params)) x). exact N.
  - now apply wake_none.
  - apply up_none; [exact N|discriminate].
Qed.

Lemma say_sent w x ms ctx : w_sent (say w x ms) ctx = w_sent w ctx ++ (if Nat.eqb ctx x then ms else []).
Proof. cbn [say w_sent]. unfold set. destruct (Nat.eqb_spec ctx x) as [->|]; [reflexivity|now rewrite app_nil_r]. Qed.
Lemma up_sent w x s o d p ctx : w_sent (link_up w x s o d p) ctx = w_sent w ctx ++ (if Nat.eqb ctx x then [NConnect s o d p] else []).
Proof. unfold link_up. rewrite say_sent. reflexivity. Qed.
Lemma objs_sent w os ctx : w_sent (new_objs w os) ctx = w_sent w ctx.
Proof. reflexivity. Qed.

Lemma adds_shape l : Forall adds (map shape l).
Proof. induction l as [|x l IH]; cbn [map]; constructor; [|exact IH]. unfold shape. destruct (Nat.eqb x 1); exact I. Qed.
Lemma wake_sent w x ctx : exists ms, w_sent (wake_listener w x) ctx = w_sent w ctx ++ ms /\ Forall adds ms.
Proof.
  unfold wake_listener. destruct (w_waiting w x) as [|i l] eqn:Ew; [exists []; rewrite app_nil_r; auto|]. cbn [link_up say w_sent]. unfold set. rewrite Nat.eqb_refl. destruct (Nat.eqb_spec ctx x) as [->|]; [|exists []; rewrite app_nil_r; auto].
  rewrite <- app_assoc. eexists. split; [reflexivity|]. apply Forall_app. split; [apply Forall_app; split; [apply adds_shape|apply adds_connects, connects_to]|repeat constructor].
Qed.

Definition undone (w : world) (ctx : nat) (ms : list note) : Prop :=
  exists b y sel, live_at (w_objs w) b y /\ o_ctx y = ctx /\ ms = map (undo (o_out y)) sel /\ forall cc, In cc sel -> In cc (w_conns w ctx) /\ csrc cc = o_out y.

Lemma down_msgs w b y o d i ctx : held w b = Some y -> exists ms, w_sent (snd (link_down w (o_ctx y) (o_out y) o d i)) ctx = w_sent w ctx ++ ms /\ (Forall adds ms \/ undone w ctx ms).
Proof.
  intros H. apply held_live in H. unfold link_down. set (port := match i with Some _ => _ | None => _ end). set (sel := filter _ _).
  assert (Z : exists ms, set (w_sent w) (o_ctx y) (w_sent w (o_ctx y) ++ map (undo (o_out y)) sel) ctx = w_sent w ctx ++ ms /\ (Forall adds ms \/ undone w ctx ms)).
  { unfold set. destruct (Nat.eqb_spec ctx (o_ctx y)) as [->|]; [|exists []; rewrite app_nil_r; auto]. exists (map (undo (o_out y)) sel). split; [reflexivity|right]. exists b, y, sel. repeat split; try assumption.
    - unfold sel in H0. apply filter_In in H0. apply H0.
    - unfold sel in H0. apply filter_In in H0 as [_ H0]. destruct cc as [[[s o'] d'] p]. unfold selects in H0. rewrite !andb_true_iff in H0. cbn [csrc]. apply Nat.eqb_eq. apply H0. }
  destruct sel, d; exact Z.
Qed.

Lemma call_msgs c w ctx : (forall a, c <> Drop a) -> exists ms, w_sent (snd (call_step c w)) ctx = w_sent w ctx ++ ms /\ (Forall adds ms \/ undone w ctx ms).
Proof.
  intros ND. assert (Z : exists ms, w_sent w ctx = w_sent w ctx ++ ms /\ (Forall adds ms \/ undone w ctx ms)) by (exists []; rewrite app_nil_r; auto).
  destruct c as [x id ins outs params|x wr rd p|x id params|x|a out b inp|a|a b|a out|a b out|a b out inp|a]; cbn [call_step];
    try (exfalso; eapply ND; reflexivity);
    repeat match goal with |- context [match held ?w ?a with _ => _ end] => destruct (held w a) eqn:? end;
    repeat match goal with |- context [if negb ?b then _ else _] => destruct b; cbn [negb] end;
    try (eapply down_msgs; eassumption); cbn [snd]; try exact Z.
  - cbn [say new_objs w_sent]. unfold set. destruct (Nat.eqb_spec ctx x) as [->|]; [|exact Z]. eexists. split; [reflexivity|]. left. apply Forall_app. split; [apply adds_regs, reg_is|]. constructor; [exact I|apply adds_connects, connects_to].
  - cbn [link_up say new_objs w_sent]. unfold set. rewrite Nat.eqb_refl. destruct (Nat.eqb_spec ctx x) as [->|]; [|exact Z]. rewrite <- app_assoc. eexists. split; [reflexivity|]. left. repeat constructor.
  - set (w1 := say w x _). destruct (wake_sent w1 x ctx) as (ms & E1 & A1). rewrite objs_sent, up_sent, say_sent, E1. unfold w1. rewrite say_sent, <- !app_assoc. eexists. split; [reflexivity|]. left.
    destruct (Nat.eqb ctx x); [|cbn [app]; rewrite ?app_nil_r; exact A1]. apply Forall_app. split; [apply adds_regs, reg_is|]. apply Forall_app. split; [exact A1|]. apply Forall_app. split; [constructor; [exact I|apply adds_connects, connects_to]|repeat constructor].
  - destruct (wake_sent w x ctx) as (ms & E1 & A1). exists ms. auto.
  - cbn [link_up say w_sent]. unfold set. destruct (Nat.eqb_spec ctx (o_ctx o)) as [->|]; [|exact Z]. eexists. split; [reflexivity|]. left. repeat constructor.
Qed.

Lemma wired_undo src l : (forall cc, In cc l -> csrc cc = src) -> forall log cc, In cc (wired log) -> ~ In cc l -> In cc (wired (log ++ map (undo src) l)).
Proof.
  induction l as [|x l IH]; intros Hl log cc H N; [cbn; now rewrite app_nil_r|]. destruct x as [[[s o] d] p]. assert (s = src) as -> by (apply (Hl (s, o, d, p)); now left).
  cbn [map undo]. replace (log ++ NDisconnect src o d p :: map (undo src) l) with ((log ++ [NDisconnect src o d p]) ++ map (undo src) l) by (rewrite <- app_assoc; reflexivity).
  apply IH; [intros y Hy; apply Hl; now right| |intros Hc; apply N; now right].
  unfold wired. rewrite wired_from_app. cbn [wired_from]. apply filter_In. split; [exact H|]. apply negb_true_iff. destruct (conn_eqb (src, o, d, p) cc) eqn:Ec; [|reflexivity]. apply conn_eqb_spec in Ec. exfalso. apply N. left. exact Ec.
Qed.

Lemma stays c w v ctx s o d p : (forall a, c <> Drop a) -> one_none w -> J (w_objs w) (w_conns w) v ->
  (p = None \/ exists k x, live_at (w_objs w) k x /\ o_ctx x = ctx /\ o_in x = s /\ o_in x <> o_out x) ->
  In (s, o, d, p) (wired (w_sent w ctx)) -> In (s, o, d, p) (wired (w_sent (snd (call_step c w)) ctx)).
Proof.
  intros ND N HJ Hp H. destruct (call_msgs c w ctx ND) as (ms & -> & [A|(b & y & sel & Hb & Hc & -> & Hs)]); [rewrite wired_grow by exact A; apply in_app_iff; now left|].
  apply wired_undo; [intros cc Hcc; now apply Hs|exact H|]. intros Hin. destruct (Hs _ Hin) as [Hin' Es]. cbn [csrc] in Es. destruct Hp as [->|(k & x & Hk & Hx & Hi & Hne)].
  - destruct (j_one _ _ _ HJ b y Hb) as (_ & N1 & _). apply N1. rewrite <- Es. exact (N _ _ _ _ Hin').
  - destruct (Nat.eq_dec k b) as [->|Nk]; [unfold live_at in Hk, Hb; rewrite Hk in Hb; injection Hb as <-; congruence|].
    destruct (j_dis _ _ _ HJ k b x y Hk Hb ltac:(congruence) Nk) as (_ & N2 & _). congruence.
Qed.

Lemma new_own c w ctx e : In e (own ctx c) -> In e (wired (w_sent (snd (call_step c w)) ctx)).
Proof.
  destruct c as [x id ins outs params|x wr rd p|x id params|x|a out b inp|a|a b|a out|a b out|a b out inp|a]; cbn [own]; try (intros []; fail); (destruct (Nat.eqb_spec x ctx) as [->|]; [intros H|intros []]); cbn [call_step snd].
  - cbn [say new_objs w_sent]. unfold set. rewrite Nat.eqb_refl, wired_grow; [|apply Forall_app; split; [apply adds_regs, reg_is|]; constructor; [exact I|apply adds_connects, connects_to]].
    apply in_app_iff. right. rewrite !links_app. apply in_app_iff. right. apply in_app_iff. right. rewrite (links_map (fun p => NConnect p 0 id None) (fun p => (p, 0, id, None)) params (fun p => eq_refl)). exact H.
  - cbn [link_up say new_objs w_sent]. unfold set. rewrite !Nat.eqb_refl, <- app_assoc, wired_grow by repeat constructor. apply in_app_iff. right. exact H.
  - rewrite objs_sent, up_sent, say_sent, Nat.eqb_refl, <- app_assoc, wired_grow.
    + apply in_app_iff. right. cbn [app links_of flat_map]. fold (links_of (map (fun p => NConnect p 0 id None) params ++ [NConnect 1 0 id None])). rewrite links_app, (links_map (fun p => NConnect p 0 id None) (fun p => (p, 0, id, None)) params (fun p => eq_refl)). exact H.
    + constructor; [exact I|]. apply Forall_app. split; [apply adds_connects, connects_to|repeat constructor].
Qed.

Lemma new_ears c w ctx e : ready w ctx -> w_waiting w ctx <> [] -> w_waiting (snd (call_step c w)) ctx = [] -> In e of_ears -> In e (wired (w_sent (snd (call_step c w)) ctx)).
Proof.
  intros R W W' He. assert (Dn : forall a b x d e0 f, w_waiting (snd (link_down w a b x d e0)) f = w_waiting w f) by (intros; unfold link_down; destruct (filter _ _), d; reflexivity).
  assert (Wk : forall w0, ready w0 ctx -> w_waiting w0 ctx <> [] -> In e (wired (w_sent (wake_listener w0 ctx) ctx))).
  { intros w0 R0 W0. destruct (wake_effect w0 ctx R0) as (a & ms & cn & _ & E2 & _ & _ & Wg & Wf & _). rewrite E2, Nat.eqb_refl, wired_grow by exact (waking_adds _ _ _ Wg). apply in_app_iff. right. rewrite (waking_links _ _ _ Wg). destruct a; [exact He|]. exfalso. auto. }
  destruct c as [x id ins outs params|x wr rd p|x id params|x|a out b inp|a|a b|a out|a b out|a b out inp|a]; cbn [call_step] in *;
    repeat match goal with H : context [match held ?w ?a with _ => _ end] |- _ => destruct (held w a) end;
    repeat match goal with H : context [if negb ?b then _ else _] |- _ => destruct b; cbn [negb] in H end;
    rewrite ?Dn in W'; cbn [snd link_up say new_objs w_waiting] in W'; try contradiction.
  - destruct (Nat.eq_dec x ctx) as [->|N].
    + cbn [snd]. rewrite objs_sent, up_sent, say_sent, Nat.eqb_refl, <- app_assoc, wired_grow.
      * apply in_app_iff. left. apply Wk; [exact R|exact W].
      * constructor; [exact I|]. apply Forall_app. split; [apply adds_connects, connects_to|repeat constructor].
    + exfalso. apply W. rewrite <- W'. unfold wake_listener. cbn [say w_waiting]. destruct (w_waiting w x); [reflexivity|]. cbn [link_up say w_waiting]. unfold set. apply Nat.eqb_neq in N. rewrite Nat.eqb_sym, N. reflexivity.
  - destruct (Nat.eq_dec x ctx) as [->|N]; [cbn [snd]; now apply Wk|]. exfalso. apply W. rewrite <- W'. unfold wake_listener. destruct (w_waiting w x); [reflexivity|]. cbn [link_up say w_waiting]. unfold set. apply Nat.eqb_neq in N. rewrite Nat.eqb_sym, N. reflexivity.
  - exfalso. apply W. rewrite <- W'. destruct (magic (o_in o)); destruct (Nat.eqb (o_in o) (o_out o)); unfold drop_id; repeat match goal with |- context [if magic ?i then _ else _] => destruct (magic i) end; reflexivity.
Qed.

Lemma own_run n cs : never_reused cs -> asked_first n cs -> kept cs -> let w := snd (calls cs (world0 n)) in
  one_none w /\ (forall ctx c k e, placed n cs c k -> In e (own ctx c) -> In e (wired (w_sent w ctx))) /\
  (forall ctx e, w_waiting w ctx = [] -> In e of_ears -> In e (wired (w_sent w ctx))).
Proof.
  induction cs as [|c cs IH] using rev_ind; intros NR A KP w; [split; [intros ctx s o d []|split; [intros ctx c k e []|intros ctx e H; discriminate]]|].
  assert (NR' : never_reused cs). { intros b x a E. apply (NR b x (a ++ [c])). rewrite E, <- app_assoc. reflexivity. }
  assert (A' : asked_first n cs). { intros b a o d i after E. apply (A b a o d i (after ++ [c])). rewrite E, <- app_assoc. reflexivity. }
  assert (KP' : kept cs). { intros a H. apply (KP a). apply in_app_iff. now left. }
  assert (ND : forall a, c <> Drop a) by (intros a ->; apply (KP a), in_app_iff; right; now left).
  destruct (IH NR' A' KP') as (N & O & Ea). clear IH. destruct (D_run n cs NR' A' KP') as [F HD]. destruct (run_refines n cs F) as [_ HJ]. pose proof (K_run n cs F A') as HK.
  unfold w. rewrite calls_snoc. set (w0 := snd (calls cs (world0 n))) in *. split; [now apply step_none|]. split.
  - intros ctx c' k e Hp He. apply placed_snoc in Hp as [Hp|(-> & _ & _)]; [|now apply new_own]. destruct e as [[[s o] d] p]. apply (stays c w0 _ ctx s o d p ND N HJ); [|exact (O ctx c' k _ Hp He)].
    destruct c' as [x id ins outs params|x wr rd p'|x id params|x|a out b inp|a|a b|a out|a b out|a b out inp|a]; cbn [own] in He; try (now destruct He); destruct (Nat.eqb_spec x ctx) as [->|]; try (now destruct He).
    + apply in_map_iff in He as (z & Ez & _). injection Ez as _ _ _ <-. now left.
    + destruct He as [He|[He|[]]]; injection He as <- _ _ <-; [now left|right]. apply (d_objs _ _ _ HD) in Hp. cbn [stands] in Hp. destruct Hp as [Nw Hp]. exists k, (mk_object ctx wr rd 1 1). auto.
    + apply in_app_iff in He as [He|[He|[]]]; [apply in_map_iff in He as (z & Ez & _); injection Ez as _ _ _ <-|injection He as _ _ _ <-]; now left.
  - intros ctx e W He. destruct (w_waiting w0 ctx) as [|i l] eqn:E0.
    + destruct e as [[[s o] d] p]. apply (stays c w0 _ ctx s o d p ND N HJ); [|now apply Ea]. unfold of_ears in He. apply in_app_iff in He as [He|[He|[]]]; [apply in_map_iff in He as (z & Ez & _); injection Ez as _ _ _ <-|injection He as _ _ _ <-]; now left.
    + apply new_ears; [exact (K_ready cs w0 ctx HK)|congruence|exact W|exact He].
Qed.

Section Cycle.
Context {P Q CFG : Type}.
Variable E : env P Q CFG.
Variables (proc : nat -> P) (cfg : nat -> CFG).
Variables (n : nat) (cs : list call) (ctx : nat).
Hypotheses (NR : never_reused cs) (AF : asked_first n cs) (KP : kept cs) (Cx : ctx < n).
Let w := snd (calls cs (world0 n)).
Let vw := snd (meanings cs (view0 n)).
Let t := w_objs w.

Lemma fresh_here : fresh_ids n cs.
Proof. exact (proj1 (D_run n cs NR AF KP)). Qed.
Lemma D_here : D n cs w.
Proof. exact (proj2 (D_run n cs NR AF KP)). Qed.
Lemma J_here : J t (w_conns w) vw.
Proof. exact (proj2 (run_refines n cs fresh_here)). Qed.
Lemma K_here : K cs w.
Proof. exact (K_run n cs fresh_here AF). Qed.

Definition stands_for (id : nat) (v : vertex) : Prop :=
  (id = 1 /\ v = Ears) \/ exists a x, v = Node a /\ live_at t a x /\ o_ctx x = ctx /\ o_out x = id.

Lemma stands_one id u v : stands_for id u -> stands_for id v -> u = v.
Proof.
  pose proof J_here as HJ.
  intros [[-> ->]|(a & x & -> & Ha & Hc & Ho)] [[E1 ->]|(b & y & -> & Hb & Hc' & Ho')]; [reflexivity| | |].
  - exfalso. destruct (j_one _ _ _ HJ b y Hb) as (_ & N & _). congruence.
  - exfalso. destruct (j_one _ _ _ HJ a x Ha) as (_ & N & _). congruence.
  - destruct (Nat.eq_dec a b) as [->|Nab]; [reflexivity|]. destruct (j_dis _ _ _ HJ a b x y Ha Hb ltac:(congruence) Nab) as (_ & _ & N). congruence.
Qed.

Lemma node_of a x : live_at t a x -> exists nd, nth_error (v_nodes vw) a = Some nd /\ n_ctx nd = o_ctx x.
Proof.
  intros H. pose proof (j_tab _ _ _ J_here) as F. clear - H F. unfold live_at in H. revert a H. induction F as [|[o b] nd l1 l2 R F IH]; intros [|a] H; try discriminate.
  - injection H as -> ->. exists nd. split; [reflexivity|]. symmetry. apply R.
  - cbn in H |- *. exact (IH a H).
Qed.

(** the link behind a connection *)
Lemma some_link s o d q : In (s, o, d, Some q) (wired (w_sent w ctx)) -> ~ In (NBreaker s) (w_sent w ctx) ->
  exists a b x y, In (a, o, b, q) (v_links vw) /\ live_at t a x /\ live_at t b y /\ o_ctx x = ctx /\ o_ctx y = ctx /\ o_out x = s /\ o_in y = d.
Proof.
  intros H NB. pose proof D_here as HD. pose proof J_here as HJ.
  destruct (d_some _ _ _ HD _ _ _ _ _ H) as [X|(a0 & x0 & Ha0 & Hc0 & Ho0)]; [contradiction|].
  apply (d_wired _ _ _ HD) in H.
  assert (Hf : In (s, o, d, Some q) (filter (vis t ctx) (w_conns w ctx))) by (apply filter_In; split; [exact H|]; apply vis_true; exists a0, x0; auto).
  rewrite (j_cns _ _ _ HJ) in Hf. apply in_map_iff in Hf as ([[[a o'] b] q'] & Ei & Hl). apply filter_In in Hl as [Hl Hw].
  destruct (j_lnk _ _ _ HJ _ Hl) as (x & y & Hx & Hy & Ec). cbn [lsrc ldst] in Hx, Hy. unfold within in Hw. cbn [lsrc] in Hw. rewrite (obj_live _ _ _ Hx) in Hw. apply Nat.eqb_eq in Hw.
  cbn [image] in Ei. rewrite (obj_live _ _ _ Hx), (obj_live _ _ _ Hy) in Ei. injection Ei as E1 -> E2 ->.
  exists a, b, x, y. repeat split; try assumption. congruence.
Qed.

Lemma edge_at_once s o d p : In (s, o, d, p) (wired (w_sent w ctx)) -> ~ In (NBreaker s) (w_sent w ctx) -> ~ In (NBreaker d) (w_sent w ctx) ->
  exists u v, stands_for s u /\ stands_for d v /\ at_once n cs ctx u v.
Proof.
  intros H NS ND. pose proof D_here as HD. destruct p as [q|].
  - destruct (some_link s o d q H NS) as (a & b & x & y & Hl & Hx & Hy & Cx' & Cy & Ox & Iy).
    assert (Ey : o_in y = o_out y).
    { destruct (Nat.eq_dec (o_in y) (o_out y)) as [e|N]; [exact e|]. exfalso. destruct (d_del _ _ _ HD b y Hy N) as [p Hp]. apply (d_brk _ _ _ HD) in Hp. rewrite Cy, Iy in Hp. contradiction. }
    exists (Node a), (Node b). split; [right; exists a, x; auto|]. split; [right; exists b, y; repeat split; try assumption; congruence|].
    cbn [at_once]. split; [destruct (node_of a x Hx) as (nd & H1 & H2); exists nd; split; [exact H1|congruence]|]. left. split; [exists o, q; exact Hl|].
    intros (c' & wr & rd & p & Hp). apply (d_objs _ _ _ HD) in Hp. cbn [stands] in Hp. destruct Hp as [N Hp]. unfold live_at in Hp, Hy. unfold t in Hy. rewrite Hp in Hy. injection Hy as <-. cbn in Ey. contradiction.
  - destruct (d_none _ _ _ HD _ _ _ _ H) as [[-> ->]|[[L ->]|[(-> & id & ps & k & Hp & ->)|(a & x & b & y & Hx & Hy & C1 & C2 & O1 & O2 & B)]]].
    + destruct (fixture_live n cs ctx 0 KP Cx ltac:(lia)) as (x & Hx & Hc & Ho). exists Ears, (Node (10 * ctx + 0)). split; [left; auto|]. split; [right; exists (10 * ctx + 0), x; auto|]. cbn [at_once]. left. lia.
    + destruct (fixture_live n cs ctx (s - 1) KP Cx ltac:(lia)) as (x & Hx & Hc & Ho). exists (Node (10 * ctx + (s - 1))), Ears. split; [|split; [left; auto|cbn [at_once]; lia]].
      right. exists (10 * ctx + (s - 1)), x. repeat split; try assumption. rewrite Ho. destruct (Nat.eqb_spec (s - 1) 0); lia.
    + pose proof Hp as Hs. apply (d_objs _ _ _ HD) in Hs. cbn [stands] in Hs. exists Ears, (Node k). split; [left; auto|]. split; [right; exists k, (mk_object ctx id id 1 1); auto|]. cbn [at_once]. right. exists id, ps. exact Hp.
    + exists (Node a), (Node b). split; [right; exists a, x; auto|]. split; [right; exists b, y; auto|]. cbn [at_once]. split; [|now right]. destruct (node_of a x Hx) as (nd & H1 & H2). exists nd. split; [exact H1|congruence].
Qed.

Lemma built : exists g : graph P Q CFG, legal_run E graph_new (script proc cfg n cs ctx) /\ grun E (script proc cfg n cs ctx) graph_new = Some (g, []) /\
  Rel proc cfg (w_sent w ctx) g.
Proof. exact (build E proc cfg (w_sent w ctx) [] graph_new (Rel_new proc cfg) (d_good _ _ _ D_here ctx) (k_fine _ _ K_here ctx)). Qed.

Variable g : graph P Q CFG.
Hypothesis RL : Rel proc cfg (w_sent w ctx) g.

Lemma breaker_log id : In (NBreaker id) (w_sent w ctx) -> breaker (g_nodes g) id.
Proof.
  intros H. destruct (proj2 (r_live _ _ _ _ RL id) (r_brk _ _ _ _ RL id H)) as [nd Hn]. exists nd. split; [exact Hn|]. destruct (r_node _ _ _ _ RL id nd Hn) as (_ & _ & _ & B & _). now apply B.
Qed.

Lemma connected_log s d : connected (g_nodes g) s d -> exists o p, In (s, o, d, p) (wired (w_sent w ctx)).
Proof.
  intros (nd & e & Hn & He & Hd). destruct (r_node _ _ _ _ RL s nd Hn) as (_ & _ & Ee & _). rewrite Ee in He. apply in_map_iff in He as ([[[s' o] d'] p] & <- & Hf). apply filter_In in Hf as [Hf Hs].
  unfold from in Hs. cbn [csrc] in Hs. apply Nat.eqb_eq in Hs as ->. cbn in Hd. subst d'. exists o, p. exact Hf.
Qed.

Lemma no_cycle : (forall c, ~ is_cycle (at_once n cs ctx) c) -> forall i, ~ on_delay_free_cycle (g_nodes g) i.
Proof.
  intros NC i ([|a l] & Hc & _ & Hb); [exact Hc|]. cbn [is_cycle] in Hc.
  assert (X : forall l s e, (forall x, In x (s :: l) -> ~ breaker (g_nodes g) x) -> ~ breaker (g_nodes g) e -> chain (connected (g_nodes g)) s l e ->
          exists u l' v, stands_for s u /\ stands_for e v /\ chain (at_once n cs ctx) u l' v).
  { induction l0 as [|x l0 IH]; intros s e Hs He Hc0; cbn [chain] in Hc0.
    - destruct (connected_log s e Hc0) as (o & p & H). destruct (edge_at_once s o e p H) as (u & v & H1 & H2 & H3).
      + intros B. apply (Hs s (or_introl eq_refl)). now apply breaker_log.
      + intros B. apply He. now apply breaker_log.
      + exists u, [], v. auto.
    - destruct Hc0 as [H1 H2]. destruct (connected_log s x H1) as (o & p & H). destruct (edge_at_once s o x p H) as (u & v & U1 & U2 & U3).
      + intros B. apply (Hs s (or_introl eq_refl)). now apply breaker_log.
      + intros B. apply (Hs x (or_intror (or_introl eq_refl))). now apply breaker_log.
      + destruct (IH x e) as (u' & l' & v' & V1 & V2 & V3); [intros y Hy; apply Hs; now right|exact He|exact H2|].
        rewrite <- (stands_one x v u' U2 V1) in V3. exists u, (v :: l'), v'. split; [exact U1|]. split; [exact V2|]. cbn [chain]. auto. }
  destruct (X l a a Hb (Hb a (or_introl eq_refl)) Hc) as (u & l' & v & U1 & U2 & U3). rewrite <- (stands_one a u v U1 U2) in U3. exact (NC (u :: l') U3).
Qed.

(** *** edges and links *)
Lemma edge_log s o d p : (exists nd, get (g_nodes g) s = Some nd /\ In (mk_edge o d p) (n_edges nd)) <-> In (s, o, d, p) (wired (w_sent w ctx)).
Proof.
  split.
  - intros (nd & Hn & He). destruct (r_node _ _ _ _ RL s nd Hn) as (_ & _ & Ee & _). rewrite Ee in He. apply in_map_iff in He as ([[[s' o'] d'] p'] & Eq & Hf). apply filter_In in Hf as [Hf Hs].
    unfold from in Hs. cbn [csrc] in Hs. apply Nat.eqb_eq in Hs as ->. cbn in Eq. injection Eq as -> -> ->. exact Hf.
  - intros H. pose proof (r_src _ _ _ _ RL _ H) as Hs. cbn [csrc] in Hs. destruct (proj2 (r_live _ _ _ _ RL s) Hs) as [nd Hn]. exists nd. split; [exact Hn|].
    destruct (r_node _ _ _ _ RL s nd Hn) as (_ & _ & Ee & _). rewrite Ee. apply in_map_iff. exists (s, o, d, p). split; [reflexivity|]. apply filter_In. split; [exact H|]. unfold from. cbn. apply Nat.eqb_refl.
Qed.

Lemma link_edge a out b inp x y : held w a = Some x -> held w b = Some y -> o_ctx x = ctx -> o_ctx y = ctx ->
  (In (a, out, b, inp) (v_links vw) <-> exists nd, get (g_nodes g) (o_out x) = Some nd /\ In (mk_edge out (o_in y) (Some inp)) (n_edges nd)).
Proof.
  intros Ha Hb Ca Cb. rewrite edge_log. unfold vw, w in *. rewrite (links_carried n cs fresh_here ctx a out b inp x y Ha Hb Ca Cb).
  split; [apply (d_conns _ _ _ D_here)|apply (d_wired _ _ _ D_here)].
Qed.

Lemma drawn_edges s o d p : (exists nd, get (g_nodes g) s = Some nd /\ In (mk_edge o d p) (n_edges nd)) <-> drawn n cs ctx (s, o, d, p).
Proof.
  rewrite edge_log. destruct (own_run n cs NR AF KP) as (N & O & Ea). fold w in N, O, Ea. pose proof D_here as HD. pose proof J_here as HJ. split.
  - intros H. destruct (d_own _ _ _ HD ctx _ H) as [(s' & o' & d' & q & a & x & E1 & Ha & Hc & Ho)|[X|X]]; [|right; now left|right; now right].
    injection E1 as -> -> -> ->. left. apply (d_wired _ _ _ HD) in H.
    assert (Hf : In (s', o', d', Some q) (filter (vis t ctx) (w_conns w ctx))) by (apply filter_In; split; [exact H|]; apply vis_true; exists a, x; auto).
    rewrite (j_cns _ _ _ HJ) in Hf. apply in_map_iff in Hf as ([[[a' o2] b] q'] & Ei & Hl). apply filter_In in Hl as [Hl Hw].
    destruct (j_lnk _ _ _ HJ _ Hl) as (x' & y & Hx & Hy & Ec). cbn [lsrc ldst] in Hx, Hy. unfold within in Hw. cbn [lsrc] in Hw. rewrite (obj_live _ _ _ Hx) in Hw. apply Nat.eqb_eq in Hw.
    cbn [image] in Ei. rewrite (obj_live _ _ _ Hx), (obj_live _ _ _ Hy) in Ei. exists (a', o2, b, q'). split; [exact Hl|]. cbn [carried]. exists x', y. split; [now apply held_live|]. split; [now apply held_live|]. repeat split; congruence.
  - intros [([[[a o'] b] q] & Hl & x & y & Hx & Hy & Cx1 & Cy & ->)|[(c & k & Hp & Ho)|[Hw He]]].
    + apply (d_conns _ _ _ HD). apply (links_carried n cs fresh_here ctx a o' b q x y Hx Hy Cx1 Cy). exact Hl.
    + exact (O ctx c k _ Hp Ho).
    + apply Ea; [|exact He]. destruct (k_wait _ _ K_here ctx) as [[W _]|(_ & _ & W)]; [exact W|congruence].
Qed.

Lemma edges_once : drawn_once n cs -> forall id nd, get (g_nodes g) id = Some nd -> NoDup (n_edges nd).
Proof.
  intros DO id nd Hn. destruct (r_node _ _ _ _ RL id nd Hn) as (_ & _ & Ee & _). rewrite Ee. pose proof (d_once _ _ _ D_here DO ctx) as ND.
  fold w in ND. clear Ee Hn nd. induction (wired (w_sent w ctx)) as [|[[[s o] d] p] l IH]; [constructor|]. inversion ND as [|? ? N1 N2]; subst. cbn [filter]. unfold from at 1. cbn [csrc]. destruct (Nat.eqb_spec s id) as [->|]; [|now apply IH].
  cbn [map edge_of]. constructor; [|now apply IH]. intros H. apply in_map_iff in H as ([[[s' o'] d'] p'] & Eq & Hf). apply filter_In in Hf as [Hf Hs]. unfold from in Hs. cbn [csrc] in Hs. apply Nat.eqb_eq in Hs as ->.
  cbn in Eq. injection Eq as -> -> ->. contradiction.
Qed.

Lemma node_there a x : held w a = Some x -> o_ctx x = ctx -> (2 <= o_in x <= 10 -> existsb (wakes ctx) cs = true) ->
  (exists nd, get (g_nodes g) (o_in x) = Some nd /\ n_proc nd = proc (o_in x) /\ n_cfg nd = cfg (o_in x) /\ length (n_inputs nd) = o_ins x) /\
  (exists nd, get (g_nodes g) (o_out x) = Some nd /\ n_proc nd = proc (o_out x) /\ n_cfg nd = cfg (o_out x) /\ length (n_outputs nd) = o_outs x).
Proof.
  intros Ha Hc Hw. apply held_live in Ha. pose proof K_here as HK.
  assert (Sh : shown_to (made_by (w_sent w (o_ctx x))) x).
  { apply (k_objs _ _ HK a x Ha). intros L. rewrite Hc. destruct (k_wait _ _ HK ctx) as [[W _]|(_ & _ & W)]; [exact W|]. rewrite (Hw L) in W. discriminate. }
  rewrite Hc in Sh. destruct Sh as [[k Hk] [i Hi]].
  apply (r_size _ _ _ _ RL) in Hk as (nd & H1 & H2 & _). apply (r_size _ _ _ _ RL) in Hi as (nd' & H1' & _ & H2').
  destruct (r_node _ _ _ _ RL _ nd H1) as (P1 & P2 & _). destruct (r_node _ _ _ _ RL _ nd' H1') as (P1' & P2' & _).
  split; [exists nd|exists nd']; auto.
Qed.

Lemma dest_there : exists d, get (g_nodes g) 0 = Some d /\ n_outputs d <> [].
Proof.
  destruct (r_size _ _ _ _ RL 0 1 1 (k_dest _ _ K_here ctx)) as (nd & H1 & _ & H2). exists nd. split; [exact H1|]. intros Hn. rewrite Hn in H2. discriminate.
Qed.

Lemma no_drop_in : forall id, ~ In (NDrop id) (w_sent w ctx).
Proof.
  intros id H. pose proof (d_good _ _ _ D_here ctx) as G. fold w in G. apply in_split in H as (l1 & l2 & Eq). rewrite Eq in G. unfold Good in G. apply good_from_app in G as [_ G]. cbn [good_from good_note] in G. tauto.
Qed.

Lemma handles : forall i, Graph_Spec.live (g_nodes g) i -> handle_alive i (script proc cfg n cs ctx).
Proof.
  intros i H. apply (r_live _ _ _ _ RL) in H as (ins & outs & H). pose proof no_drop_in as ND. unfold script. fold w. apply in_split in H as (l1 & l2 & Eq).
  exists (map (op_of proc cfg) l1), (proc i), ins, outs, (cfg i), (map (op_of proc cfg) l2). split; [rewrite Eq, map_app; reflexivity|].
  intros H. apply in_map_iff in H as (m & Em & Hm). destruct m; cbn [op_of] in Em; try discriminate. apply (ND id). rewrite Eq. apply in_app_iff. right. now right.
Qed.

Lemma only_messages : messages_only (script proc cfg n cs ctx).
Proof. unfold messages_only, script. apply Forall_forall. intros o H. apply in_map_iff in H as (m & <- & _). destruct m; exact I. Qed.
End Cycle.

(** *** no late registrations *)
Definition not_new (m : note) : Prop := match m with NRegister _ _ _ => False | _ => True end.
Lemma not_new_undo s l : Forall not_new (map (undo s) l).
Proof. induction l as [|[[[a o] d] p] l IH]; cbn; constructor; [exact I|exact IH]. Qed.

Lemma say_grows w x ms ctx : exists k, w_sent (say w x ms) ctx = w_sent w ctx ++ k /\ (Forall not_new ms -> Forall not_new k) /\ (x <> ctx -> k = []).
Proof.
  cbn [say w_sent]. unfold set. destruct (Nat.eqb_spec ctx x) as [->|N]; [exists ms; repeat split; congruence || auto|]. exists []. rewrite app_nil_r. auto.
Qed.

Lemma down_quiet w x s o d i ctx : exists k, w_sent (snd (link_down w x s o d i)) ctx = w_sent w ctx ++ k /\ Forall not_new k.
Proof.
  unfold link_down. set (sel := filter _ _). set (rest := filter _ _).
  destruct (say_grows (mk_world (w_objs w) (set (w_conns w) x rest) (w_waiting w) (w_params w) (w_sent w)) x (map (undo s) sel) ctx) as (k & E1 & E2 & _).
  exists k. split; [|apply E2, not_new_undo]. refine (eq_trans _ E1). destruct sel, d; reflexivity.
Qed.

Lemma quiet_step ctx c w : (forall a, c <> Drop a) -> wakes ctx c = false -> (forall ids, takes c <> Some (ctx, ids)) ->
  exists ms, w_sent (snd (call_step c w)) ctx = w_sent w ctx ++ ms /\ Forall not_new ms.
Proof.
  intros ND W T. assert (Z : exists ms, w_sent w ctx = w_sent w ctx ++ ms /\ Forall not_new ms) by (exists []; rewrite app_nil_r; auto).
  destruct c as [x id ins outs params|x wr rd p|x id params|x|a out b inp|a|a b|a out|a b out|a b out inp|a]; cbn [call_step takes wakes] in *;
    try (exfalso; eapply ND; reflexivity);
    repeat match goal with |- context [match held ?w ?a with _ => _ end] => destruct (held w a) end;
    repeat match goal with |- context [if negb ?b then _ else _] => destruct b; cbn [negb] end;
    try apply down_quiet; cbn [snd]; try exact Z.
  - assert (N : Nat.eqb ctx x = false) by (apply Nat.eqb_neq; intros ->; eapply T; reflexivity). cbn [say w_sent new_objs]. unfold set. rewrite N. exact Z.
  - assert (N : Nat.eqb ctx x = false) by (apply Nat.eqb_neq; intros ->; eapply T; reflexivity). cbn [link_up say w_sent new_objs]. unfold set. rewrite N. exact Z.
  - assert (N : Nat.eqb ctx x = false) by (apply Nat.eqb_neq; intros ->; eapply T; reflexivity). cbn [link_up say w_sent new_objs]. unfold set. rewrite N. unfold wake_listener. cbn [say w_waiting]. destruct (w_waiting w x); cbn [link_up say w_sent]; unfold set; rewrite N; exact Z.
  - assert (N : Nat.eqb ctx x = false) by (rewrite Nat.eqb_sym; exact W). unfold wake_listener. destruct (w_waiting w x); [exact Z|]. cbn [link_up say w_sent]. unfold set. rewrite N. exact Z.
  - cbn [link_up say w_sent]. unfold set. destruct (Nat.eqb_spec ctx (o_ctx o)) as [->|]; [|exact Z]. eexists. split; [reflexivity|]. repeat constructor.
Qed.

Lemma quiet_calls ctx cs : forall w, kept cs -> Forall (fun c => wakes ctx c = false /\ forall ids, takes c <> Some (ctx, ids)) cs ->
  exists ms, w_sent (snd (calls cs w)) ctx = w_sent w ctx ++ ms /\ Forall not_new ms.
Proof.
  induction cs as [|c cs IH] using rev_ind; intros w KP F; [exists []; rewrite app_nil_r; auto|].
  apply Forall_app in F as [F1 F2]. destruct (IH w) as (ms & E1 & Q1); [intros a H; apply (KP a), in_app_iff; now left|exact F1|]. rewrite calls_snoc.
  apply Forall_inv in F2 as [W T]. destruct (quiet_step ctx c (snd (calls cs w))) as (ms' & E2 & Q2); [intros a ->; apply (KP a), in_app_iff; right; now left|exact W|exact T|].
  exists (ms ++ ms'). split; [rewrite E2, E1, app_assoc; reflexivity|]. apply Forall_app. auto.
Qed.

Section Time.
Context {P CFG : Type}.
Variables (proc : nat -> P) (cfg : nat -> CFG).
Lemma in_time_quiet ms : Forall not_new ms -> forall ch, in_time ch false (map (op_of proc cfg) ms).
Proof. induction 1 as [|m ms H F IH]; intros ch; [reflexivity|]. destruct m; cbn in H; try contradiction; cbn [map op_of in_time]; apply IH. Qed.
Lemma in_time_after ms s o d p r : Forall not_new r -> forall ch late, in_time ch late (map (op_of proc cfg) (ms ++ NConnect s o d p :: r)).
Proof. intros F. induction ms as [|m ms IH]; intros ch late; [cbn; now apply in_time_quiet|]. destruct m; cbn [app map op_of in_time]; apply IH. Qed.

Lemma settled_in_time n cs ctx : fresh_ids n cs -> kept cs -> settled n cs ctx -> registrations_in_time (script proc cfg n cs ctx).
Proof.
  intros F KP (before & a & out & b & inp & after & nd & -> & Acc & Nd & Cx & Q).
  assert (Fb : fresh_ids n before) by (exact (fresh_prefix n _ _ F)).
  set (w0 := snd (calls before (world0 n))). destruct (run_refines n before Fb) as [_ HJ]. fold w0 in HJ.
  assert (Fc : fresh_ids n (before ++ [Connect a out b inp])) by (apply (fresh_prefix n _ after); rewrite <- app_assoc; exact F).
  assert (Acc' : fst (call_step (Connect a out b inp) w0) = Accepted).
  { destruct (run_refines n (before ++ [Connect a out b inp]) Fc) as [R _]. destruct (run_refines n before Fb) as [Rb _].
    rewrite calls_app in R. rewrite meanings_app in R. cbn [calls meanings fst snd] in R. fold w0 in R.
    destruct (call_step (Connect a out b inp) w0) as [r w1]. destruct (meaning (Connect a out b inp) (snd (meanings before (view0 n)))) as [r' v1]. cbn [fst snd] in *. rewrite Rb in R. apply app_inv_head in R. injection R as ->. exact Acc. }
  replace (before ++ Connect a out b inp :: after) with ((before ++ [Connect a out b inp]) ++ after) by (rewrite <- app_assoc; reflexivity).
  unfold script. rewrite calls_app. cbn [snd].
  assert (Sc : exists s d, w_sent (snd (calls (before ++ [Connect a out b inp]) (world0 n))) ctx = w_sent w0 ctx ++ [NConnect s out d (Some inp)]).
  { rewrite calls_snoc. fold w0. cbn [call_step] in Acc' |- *. destruct (held w0 a) as [x|] eqn:Ha; [|discriminate]. destruct (held w0 b) as [y|]; [|discriminate].
    destruct (negb (Nat.eqb (o_ctx x) (o_ctx y))); [discriminate|]. destruct (negb (Nat.ltb out (o_outs x))); [discriminate|]. destruct (negb (Nat.ltb inp (o_ins y))); [discriminate|].
    exists (o_out x), (o_in y). cbn [snd link_up say w_sent]. unfold set.
    assert (o_ctx x = ctx) as ->; [|now rewrite Nat.eqb_refl].
    apply held_live in Ha. unfold live_at in Ha. pose proof (j_tab _ _ _ HJ) as FF. rewrite <- Cx. clear - Ha Nd FF. revert a Ha Nd. induction FF as [|[o bb] nd' l1 l2 R FF IH]; intros [|a] Ha Nd; try discriminate.
    - injection Ha as -> ->. cbn in Nd. injection Nd as <-. apply R.
    - exact (IH a Ha Nd). }
  destruct Sc as (s & d & Sc). destruct (quiet_calls ctx after (snd (calls (before ++ [Connect a out b inp]) (world0 n)))) as (ms & E1 & Q1); [intros z H; apply (KP z), in_app_iff; right; now right|exact Q|].
  rewrite E1, Sc, <- app_assoc. cbn [app]. unfold registrations_in_time. now apply in_time_after.
Qed.
End Time.
