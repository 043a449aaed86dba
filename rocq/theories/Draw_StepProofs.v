(** Every call of a program that keeps its handles preserves what Draw_LogProofs.v says. *)
From Coq Require Import List Arith Bool Lia FinFun.
From Verif Require Import Graph_Model Protocol_Model Calls_Model Calls_Spec Calls_Proofs Calls_RunProofs Calls_PortProofs Draw_Spec Draw_GraphProofs Draw_LogProofs.
Import ListNotations.

Lemma record_in c x l : In c (record x l) <-> In c l \/ c = x.
Proof.
  unfold record. destruct (existsb (conn_eqb x) l) eqn:E.
  - split; [now left|]. intros [H| ->]; [exact H|]. apply existsb_exists in E as (y & Hy & Ey). apply conn_eqb_spec in Ey as ->. exact Hy.
  - rewrite in_app_iff. cbn [In]. intuition.
Qed.

Definition wake_ms : list note := map shape (rev (seq 2 9 ++ [1])) ++ map (fun p => NConnect p 0 1 None) (seq 2 9) ++ [NConnect 1 0 0 None].

(** the listener's messages [ms] and recorded connections [cn], if it is not there already *)
Definition waking (asleep : bool) (ms : list note) (cn : list conn) : Prop :=
  if asleep then ms = wake_ms /\ cn = [(1, 0, 0, None)] else ms = [] /\ cn = [].

Definition ready (w : world) (ctx : nat) : Prop := w_waiting w ctx = [] \/ (w_waiting w ctx = seq 2 9 ++ [1] /\ w_params w ctx = seq 2 9).
Lemma K_ready before w ctx : K before w -> ready w ctx.
Proof. intros HK. destruct (k_wait _ _ HK ctx) as [[H _]|(H1 & H2 & _)]; [now left|right; auto]. Qed.

Lemma wake_effect w ctx : ready w ctx -> let w' := wake_listener w ctx in exists asleep ms cn,
  w_objs w' = w_objs w /\ (forall x, w_sent w' x = if Nat.eqb x ctx then w_sent w ctx ++ ms else w_sent w x) /\
  (forall x cc, In cc (w_conns w' x) <-> In cc (w_conns w x) \/ (x = ctx /\ In cc cn)) /\
  (forall x, w_waiting w' x = if Nat.eqb x ctx then [] else w_waiting w x) /\
  waking asleep ms cn /\ (asleep = false -> w_waiting w ctx = []) /\ (asleep = true -> w_waiting w ctx <> []).
Proof.
  intros R w'. unfold w', wake_listener. destruct R as [E|[E Ep]].
  - exists false, [], []. rewrite E. split; [reflexivity|]. split; [intros x; rewrite app_nil_r; destruct (Nat.eqb_spec x ctx) as [->|]; reflexivity|].
    split; [intros x cc; cbn [In]; tauto|]. split; [intros x; destruct (Nat.eqb_spec x ctx) as [->|]; [exact E|reflexivity]|]. split; [split; reflexivity|]. split; [auto|discriminate].
  - exists true, wake_ms, [(1, 0, 0, None)]. rewrite E, Ep. change (seq 2 9 ++ [1]) with (2 :: seq 3 8 ++ [1]) at 1 2 3 4. cbv iota beta. change (2 :: seq 3 8 ++ [1]) with (seq 2 9 ++ [1]).
    split; [reflexivity|]. split; [|split; [|split; [|split; [split; reflexivity|split; [discriminate|intros _; discriminate]]]]].
    + intros x. cbn [link_up say w_sent w_objs w_conns w_waiting w_params]. unfold set. rewrite Nat.eqb_refl. destruct (Nat.eqb x ctx); [|reflexivity]. unfold wake_ms. rewrite <- !app_assoc. reflexivity.
    + intros x cc. cbn [link_up say w_sent w_objs w_conns w_waiting w_params]. unfold set. destruct (Nat.eqb_spec x ctx) as [->|N]; [|tauto]. rewrite record_in. cbn [In]. intuition.
    + intros x. reflexivity.
Qed.

Lemma waking_adds a ms cn : waking a ms cn -> Forall adds ms.
Proof. destruct a; intros [-> _]; [|constructor]. repeat constructor. Qed.
Lemma waking_links a ms cn : waking a ms cn -> links_of ms = if a then map (fun p => (p, 0, 1, None)) (seq 2 9) ++ [(1, 0, 0, None)] else [].
Proof. destruct a; intros [-> _]; reflexivity. Qed.
Lemma waking_cn a ms cn cc : waking a ms cn -> In cc cn -> In cc (links_of ms).
Proof. destruct a; intros [-> ->]; [|intros []]. intros [<-|[]]. cbn. do 9 right. now left. Qed.
Lemma waking_some a ms cn s o d q : waking a ms cn -> ~ In (s, o, d, Some q) (links_of ms).
Proof. intros W. rewrite (waking_links _ _ _ W). destruct a; [|intros []]. cbn. intuition congruence. Qed.
Lemma waking_none n cs t ctx a ms cn s o d : waking a ms cn -> In (s, o, d, None) (links_of ms) -> none_edge n cs t ctx s d.
Proof.
  intros W. rewrite (waking_links _ _ _ W). destruct a; [|intros []]. intros H. apply in_app_iff in H as [H|[H|[]]].
  - apply in_map_iff in H as (x & E & H). injection E as -> _ <-. apply in_seq in H. right; left. lia.
  - injection H as <- _ <-. left. auto.
Qed.
Lemma waking_reg a ms cn id : waking a ms cn -> registered ms id -> 1 <= id <= 10.
Proof.
  destruct a; intros [-> _]; [|intros (i & k & [])]. unfold wake_ms. rewrite !registered_app. rewrite (registered_map shape _ shape_is). intros [H|[H|H]].
  - apply in_rev in H. apply in_app_iff in H as [H|[<-|[]]]; [apply in_seq in H|]; lia.
  - exfalso. exact (registered_connects _ (connects_to 1 _) id H).
  - destruct H as (i & k & [H|[]]). discriminate.
Qed.
Lemma waking_good a ms cn log : waking a ms cn -> (a = true -> forall id, 1 <= id <= 10 -> ~ registered log id) -> good_from log ms.
Proof.
  destruct a; intros [-> _] H; [|exact I]. unfold wake_ms. apply good_from_app. split.
  - apply good_news; [|intros id Hid; apply H; [reflexivity|]; apply in_rev in Hid; apply in_app_iff in Hid as [Hid|[<-|[]]]; [apply in_seq in Hid|]; lia|exact shape_is].
    apply NoDup_rev. cbn. repeat constructor; cbn; intuition discriminate.
  - apply good_connects. apply Forall_app. split; [apply connects_to|constructor; [exact I|constructor]].
Qed.
Lemma waking_once a ms cn : waking a ms cn -> NoDup (links_of ms).
Proof. intros W. rewrite (waking_links _ _ _ W). destruct a; [|constructor]. cbn. repeat constructor; cbn; intuition discriminate. Qed.
Lemma waking_src a ms cn cc : waking a ms cn -> In cc (links_of ms) -> a = true /\ 1 <= csrc cc <= 10 /\ cdst cc <= 1.
Proof.
  intros W. rewrite (waking_links _ _ _ W). destruct a; [|intros []]. intros H. split; [reflexivity|]. apply in_app_iff in H as [H|[<-|[]]].
  - apply in_map_iff in H as (x & <- & H). apply in_seq in H. cbn. lia.
  - cbn. lia.
Qed.

Lemma D_ears n cs w : D n cs w -> forall ctx id, 1 <= id <= 10 -> never_reused cs -> w_waiting w ctx <> [] -> ~ registered (w_sent w ctx) id.
Proof.
  intros HD ctx id Hid NR W H. destruct (d_reg _ _ _ HD ctx id H) as [->|[[_ E]|(c & ids & Hc & Ht & Hi)]]; [lia|contradiction|].
  apply in_split in Hc as (pre & post & ->). destruct (NR pre c post eq_refl ctx ids Ht) as [_ F]. rewrite Forall_forall in F. specialize (F id Hi). lia.
Qed.

Lemma D_fresh n cs w : D n cs w -> forall ctx id, 10 < id -> ~ taken cs ctx id -> ~ registered (w_sent w ctx) id.
Proof. intros HD ctx id Hid NT H. destruct (d_reg _ _ _ HD ctx id H) as [->|[[L _]|T]]; [lia|lia|contradiction]. Qed.

Lemma D_listener n cs w ctx : D n cs w -> K cs w -> never_reused cs -> D n (cs ++ [Listener ctx]) (wake_listener w ctx).
Proof.
  intros HD HK NR. destruct (wake_effect w ctx (K_ready cs w ctx HK)) as (a & ms & cn & E1 & E2 & E3 & E4 & W & Wf & Wt).
  assert (G : a = true -> forall id, 1 <= id <= 10 -> ~ registered (w_sent w ctx) id) by (intros Ha id Hid; apply (D_ears n cs w HD); auto).
  apply (D_add n cs (Listener ctx) w (wake_listener w ctx) ctx ms cn [] HD).
  - cbn [map]. now rewrite app_nil_r.
  - exact E2.
  - exact E3.
  - intros x H. rewrite E4. now destruct (Nat.eqb x ctx).
  - exact (waking_adds _ _ _ W).
  - intros cc H. right. exact (waking_cn _ _ _ _ W H).
  - intros s o d q H. exfalso. exact (waking_some _ _ _ _ _ _ _ W H).
  - exact (waking_good _ _ _ _ W G).
  - intros id H. right; left. split; [exact (waking_reg _ _ _ _ W H)|]. now rewrite E4, Nat.eqb_refl.
  - intros s o d q H. exfalso. exact (waking_some _ _ _ _ _ _ _ W H).
  - intros s o d H. exact (waking_none _ _ _ _ _ _ _ _ _ _ W H).
  - discriminate.
  - reflexivity.
  - cbn. congruence.
  - intros [|j] x H; discriminate.
  - intros x [].
  - intros _. split; [exact (waking_once _ _ _ W)|]. intros [[[s o] d] p] H Hw. destruct (waking_src _ _ _ _ W H) as (Ha & L & _). cbn [csrc] in L. apply (G Ha s L). exact (proj1 (wired_registered _ _ _ _ _ (k_fine _ _ HK ctx) Hw)).
  - intros s o d p H. right; right. split; [cbn; apply Nat.eqb_refl|]. rewrite (waking_links _ _ _ W) in H. destruct a; [exact H|destruct H].
Qed.

Lemma own_params n cs c t ctx id i o params new : params_made c = Some (length params) -> length t = next (10 * n) cs ->
  new = mk_object ctx id id i o :: map (param_of ctx) params ->
  forall p, In p params -> none_edge n (cs ++ [c]) (t ++ map (fun o : object => (o, true)) new) ctx p id.
Proof.
  intros Hm Hl -> p Hp. apply In_nth_error in Hp as [j Hj]. right; right; right. exists (length t + S j), (param_of ctx p), (length t + 0), (mk_object ctx id id i o).
  split; [apply live_new; cbn [nth_error]; rewrite nth_error_map, Hj; reflexivity|]. split; [apply live_new; reflexivity|]. repeat split.
  exists c, (length params). split; [apply placed_snoc; right; split; [reflexivity|]; split; [congruence|lia]|]. split; [exact Hm|]. assert (j < length params) by (apply nth_error_Some; congruence). lia.
Qed.

Lemma D_node n cs w ctx id ins outs params : D n cs w -> K cs w -> NoDup (id :: params) -> Forall (fun i => 10 < i /\ ~ taken cs ctx i) (id :: params) ->
  D n (cs ++ [MakeNode ctx id ins outs params]) (snd (call_step (MakeNode ctx id ins outs params) w)).
Proof.
  intros HD HK ND FF. set (c := MakeNode ctx id ins outs params). unfold c at 2. cbn [call_step snd].
  set (new := mk_object ctx id id ins outs :: map (param_of ctx) params).
  set (ms := map (fun p => NRegister p 1 1) params ++ [NRegister id ins outs] ++ map (fun p => NConnect p 0 id None) params).
  assert (NR : forall x, In x (id :: params) -> ~ registered (w_sent w ctx) x).
  { intros x Hx. rewrite Forall_forall in FF. destruct (FF x Hx) as [L T]. exact (D_fresh n cs w HD ctx x L T). }
  inversion ND as [|? ? Nid NDp]; subst.
  assert (Lk : links_of ms = map (fun p => (p, 0, id, None)) params).
  { unfold ms. rewrite !links_app, (links_regs _ _ reg_is). cbn [links_of flat_map app]. now apply links_map. }
  assert (Rg : forall x, registered ms x <-> In x (id :: params)).
  { intros x. unfold ms. rewrite !registered_app, (registered_map _ _ reg_is). cbn [In]. split.
    - intros [H|[(i & k & [H|[]])|H]]; [now right|injection H as -> _ _; now left|]. exfalso. exact (registered_connects _ (connects_to id params) x H).
    - intros [<-|H]; [right; left; exists ins, outs; now left|now left]. }
  apply (D_add n cs c w _ ctx ms [] new HD).
  - reflexivity.
  - reflexivity.
  - intros x cc. cbn [say new_objs w_conns In]. tauto.
  - auto.
  - unfold ms. apply Forall_app. split; [apply adds_regs, reg_is|]. constructor; [exact I|]. apply adds_connects, connects_to.
  - intros cc [].
  - intros s o d q H. rewrite Lk in H. apply in_map_iff in H as (x & E & _). discriminate.
  - unfold ms. apply good_from_app. split; [|apply good_from_app; split].
    + apply good_news; [exact NDp|intros x Hx; apply NR; now right|exact reg_is].
    + cbn [good_from good_note]. split; [|exact I]. rewrite registered_app, (registered_map _ _ reg_is). intros [H|H]; [apply (NR id); [now left|exact H]|contradiction].
    + apply good_connects, connects_to.
  - intros x H. apply Rg in H. right; right. eapply taken_new; [reflexivity|exact H].
  - intros s o d q H. rewrite Lk in H. apply in_map_iff in H as (x & E & _). discriminate.
  - intros s o d H. rewrite Lk in H. apply in_map_iff in H as (x & E & H). injection E as <- _ <-. exact (own_params n cs c (w_objs w) ctx id ins outs params new eq_refl (d_len _ _ _ HD) eq_refl x H).
  - discriminate.
  - unfold new, extra, c. cbn [params_made length]. now rewrite map_length.
  - intros _. cbn [stands c]. cbn [say new_objs w_objs]. replace (length (w_objs w)) with (length (w_objs w) + 0) by lia. now apply live_new.
  - intros [|j] x H; [injection H as <-; cbn; congruence|]. cbn [nth_error new] in H. rewrite nth_error_map in H. destruct (nth_error params j); [|discriminate]. injection H as <-. cbn. congruence.
  - intros x [<-|H]; cbn [o_ctx o_in o_out].
    + split; (eapply taken_new; [reflexivity|now left]).
    + apply in_map_iff in H as (p & <- & H). cbn. split; (eapply taken_new; [reflexivity|now right]).
  - intros _. rewrite Lk. split; [apply FinFun.Injective_map_NoDup; [intros x y E; now injection E|exact NDp]|].
    intros cc H Hw. apply in_map_iff in H as (x & <- & H). apply (NR x); [now right|]. exact (proj1 (wired_registered _ _ _ _ _ (k_fine _ _ HK ctx) Hw)).
  - intros s o d p H. right; left. split; [discriminate|]. unfold c. cbn [own]. rewrite Nat.eqb_refl, <- Lk. exact H.
Qed.

Lemma D_delay n cs w ctx wr rd p : D n cs w -> K cs w -> NoDup [wr; rd; p] -> Forall (fun i => 10 < i /\ ~ taken cs ctx i) [wr; rd; p] ->
  D n (cs ++ [MakeDelay ctx wr rd p]) (snd (call_step (MakeDelay ctx wr rd p) w)).
Proof.
  intros HD HK ND FF. set (c := MakeDelay ctx wr rd p). unfold c at 2. cbn [call_step snd].
  set (new := [mk_object ctx wr rd 1 1; param_of ctx p]).
  set (ms := [NRegister p 1 1; NRegister rd 1 1; NConnect p 0 rd None; NRegister wr 1 1; NBreaker wr; NConnect wr 0 rd (Some 0)]).
  assert (NR : forall x, In x [wr; rd; p] -> ~ registered (w_sent w ctx) x).
  { intros x Hx. rewrite Forall_forall in FF. destruct (FF x Hx) as [L T]. exact (D_fresh n cs w HD ctx x L T). }
  assert (N1 := NR wr ltac:(cbn; auto)). assert (N2 := NR rd ltac:(cbn; auto)). assert (N3 := NR p ltac:(cbn; auto)).
  assert (Dn : wr <> rd /\ wr <> p /\ rd <> p).
  { inversion ND as [|? ? A1 ND1]; subst. inversion ND1 as [|? ? A2 _]; subst. cbn in A1, A2. intuition congruence. }
  destruct Dn as (Q1 & Q2 & Q3).
  apply (D_add n cs c w _ ctx ms [(wr, 0, rd, Some 0)] new HD).
  - reflexivity.
  - intros x. cbn [link_up say new_objs w_sent w_objs w_conns w_waiting w_params]. unfold set. rewrite Nat.eqb_refl. destruct (Nat.eqb x ctx); [|reflexivity]. rewrite <- app_assoc. reflexivity.
  - intros x cc. cbn [link_up say new_objs w_sent w_objs w_conns w_waiting w_params]. unfold set. destruct (Nat.eqb_spec x ctx) as [->|N]; [|tauto]. rewrite record_in. cbn [In]. intuition.
  - auto.
  - repeat constructor.
  - intros cc [<-|[]]. right. cbn. auto.
  - intros s o d q H. cbn in H. destruct H as [H|[H|[]]]; [discriminate|]. now left.
  - unfold ms. cbn [good_from good_note]. rewrite <- !app_assoc. cbn [app].
    assert (Rx : forall x l, ~ registered (w_sent w ctx) x -> (forall i k, ~ In (NRegister x i k) l) -> ~ registered (w_sent w ctx ++ l) x).
    { intros x l H1 H2 H. apply registered_app in H as [H|(i & k & H)]; [exact (H1 H)|exact (H2 i k H)]. }
    split; [exact N3|]. split; [apply Rx; [exact N2|intros i k H; cbn in H; intuition congruence]|]. split; [exact I|].
    split; [apply Rx; [exact N1|intros i k H; cbn in H; intuition congruence]|]. split; [|split; exact I]. split.
    + apply registered_app. right. exists 1, 1. cbn. auto.
    + intros o d q H. apply in_app_iff in H as [H|H]; [|cbn in H; intuition congruence]. apply N1. exact (proj1 (fine_connect_registered _ _ _ _ _ (k_fine _ _ HK ctx) H)).
  - intros id (i & k & H). right; right. apply (taken_new cs c ctx [wr; rd; p]); [reflexivity|]. cbn in H |- *. intuition congruence.
  - intros s o d q H. cbn in H. destruct H as [H|[H|[]]]; [discriminate|]. injection H as <- _ _ _. left. cbn. auto 9.
  - intros s o d H. cbn in H. destruct H as [H|[H|[]]]; [|discriminate]. injection H as <- _ <-. right; right; right.
    exists (length (w_objs w) + 1), (param_of ctx p), (length (w_objs w) + 0), (mk_object ctx wr rd 1 1). cbn [link_up say new_objs w_objs].
    split; [now apply live_new|]. split; [now apply live_new|]. repeat split. exists c, 1. split; [apply placed_snoc; right; split; [reflexivity|]; split; [discriminate|]; rewrite (d_len _ _ _ HD); lia|]. split; [reflexivity|lia].
  - intros x a b q E. injection E as <- <- _ _. split; [reflexivity|]. cbn. auto 9.
  - reflexivity.
  - intros _. cbn [stands c]. split; [exact Q1|]. cbn [link_up say new_objs w_objs]. replace (length (w_objs w)) with (length (w_objs w) + 0) by lia. now apply live_new.
  - intros [|[|[|j]]] x H; try discriminate; injection H as <-; cbn; [|congruence]. intros _. split; [reflexivity|]. exists p. reflexivity.
  - intros x [<-|[<-|[]]]; cbn [o_ctx o_in o_out param_of]; (split; (apply (taken_new cs c ctx [wr; rd; p]); [reflexivity|cbn; auto])).
  - intros _. cbn. split; [repeat constructor; cbn; intuition congruence|]. intros cc [<-|[<-|[]]] Hw; apply (wired_registered _ _ _ _ _ (k_fine _ _ HK ctx)) in Hw; destruct Hw as [Hw _]; contradiction.
  - intros s o d q H. right; left. split; [discriminate|]. unfold c. cbn [own]. rewrite Nat.eqb_refl. exact H.
Qed.

Lemma D_connect n cs w v a out b inp : D n cs w -> K cs w -> J (w_objs w) (w_conns w) v ->
  (forall x y, held w a = Some x -> held w b = Some y -> o_ctx x = o_ctx y -> drawn_once n (cs ++ [Connect a out b inp]) -> ~ In (o_out x, out, o_in y, Some inp) (w_conns w (o_ctx x))) ->
  D n (cs ++ [Connect a out b inp]) (snd (call_step (Connect a out b inp) w)).
Proof.
  intros HD HK HJ Hd. set (c := Connect a out b inp) in *. unfold c at 2. cbn [call_step].
  destruct (held w a) as [x|] eqn:Ha; [|now apply D_same]. destruct (held w b) as [y|] eqn:Hb; [|now apply D_same].
  destruct (Nat.eqb_spec (o_ctx x) (o_ctx y)) as [Ec|]; cbn [negb]; [|now apply D_same]. destruct (negb (Nat.ltb out (o_outs x))); [now apply D_same|]. destruct (negb (Nat.ltb inp (o_ins y))); [now apply D_same|].
  cbn [snd]. set (e := (o_out x, out, o_in y, Some inp)).
  apply (D_add n cs c w _ (o_ctx x) [NConnect (o_out x) out (o_in y) (Some inp)] [e] [] HD).
  - cbn [map]. now rewrite app_nil_r.
  - reflexivity.
  - intros z cc. cbn [link_up say w_conns]. unfold set. destruct (Nat.eqb_spec z (o_ctx x)) as [->|N]; [|tauto]. rewrite record_in. cbn [In]. fold e. intuition.
  - auto.
  - repeat constructor.
  - intros cc [<-|[]]. right. now left.
  - intros s o d q [H|[]]. now left.
  - cbn. auto.
  - intros id (i & k & [H|[]]). discriminate.
  - intros s o d q [H|[]]. injection H as <- _ _ _. right. exists a, x. split; [now apply held_live|auto].
  - intros s o d [H|[]]. discriminate.
  - discriminate.
  - reflexivity.
  - cbn. congruence.
  - intros [|j] z H; discriminate.
  - intros z [].
  - intros DO. split; [repeat constructor; intros []|]. intros cc [<-|[]] Hw. apply (d_wired _ _ _ HD) in Hw. exact (Hd x y eq_refl eq_refl Ec DO Hw).
  - intros s o d p [H|[]]. injection H as <- _ _ <-. left. exists inp, a, x. split; [reflexivity|]. split; [now apply held_live|auto].
Qed.

Lemma D_panner n cs w ctx id params : D n cs w -> K cs w -> never_reused cs -> NoDup (id :: params) -> Forall (fun i => 10 < i /\ ~ taken cs ctx i) (id :: params) ->
  D n (cs ++ [MakePanner ctx id params]) (snd (call_step (MakePanner ctx id params) w)).
Proof.
  intros HD HK NVR ND FF. set (c := MakePanner ctx id params). unfold c at 2. cbn [call_step snd].
  set (new := mk_object ctx id id 1 1 :: map (param_of ctx) params).
  set (w1 := say w ctx (map (fun p => NRegister p 1 1) params)).
  destruct (wake_effect w1 ctx (K_ready cs w ctx HK)) as (a & wm & cn & E1 & E2 & E3 & E4 & W & Wf & Wt).
  set (w2 := wake_listener w1 ctx) in *.
  set (ms := map (fun p => NRegister p 1 1) params ++ wm ++ (NRegister id 1 1 :: map (fun p => NConnect p 0 id None) params) ++ [NConnect 1 0 id None]).
  assert (NR : forall x, In x (id :: params) -> ~ registered (w_sent w ctx) x).
  { intros x Hx. rewrite Forall_forall in FF. destruct (FF x Hx) as [L T]. exact (D_fresh n cs w HD ctx x L T). }
  assert (Big : forall x, In x (id :: params) -> 10 < x) by (intros x Hx; rewrite Forall_forall in FF; now apply FF).
  assert (G : a = true -> forall x, 1 <= x <= 10 -> ~ registered (w_sent w ctx) x) by (intros Ha x Hx; apply (D_ears n cs w HD); [exact Hx|exact NVR|exact (Wt Ha)]).
  inversion ND as [|? ? Nid NDp]; subst.
  assert (Lk : links_of ms = links_of wm ++ map (fun p => (p, 0, id, None)) params ++ [(1, 0, id, None)]).
  { unfold ms. rewrite !links_app, (links_regs _ _ reg_is). cbn [app links_of flat_map]. fold (links_of wm). fold (links_of (map (fun p => NConnect p 0 id None) params)). f_equal. f_equal. now apply links_map. }
  assert (Rg : forall x, registered ms x -> In x (id :: params) \/ registered wm x).
  { intros x. unfold ms. rewrite !registered_app, (registered_map _ _ reg_is). cbn [In]. intros [H|[H|[H|(i & k & [H|[]])]]]; [auto|auto| |discriminate].
    destruct H as (i & k & [H|H]); [injection H as -> _ _; auto|]. exfalso. exact (registered_connects _ (connects_to id params) x (ex_intro _ i (ex_intro _ k H))). }
  apply (D_add n cs c w _ ctx ms (cn ++ [(1, 0, id, None)]) new HD).
  - cbn [new_objs link_up say w_objs]. rewrite E1. reflexivity.
  - intros x. cbn [new_objs link_up say w_sent w_objs w_conns w_waiting w_params]. unfold set. rewrite !Nat.eqb_refl, !E2, Nat.eqb_refl. unfold w1. cbn [say w_sent]. unfold set. rewrite Nat.eqb_refl. destruct (Nat.eqb x ctx); [|reflexivity]. unfold ms. rewrite <- !app_assoc. reflexivity.
  - intros x cc. cbn [new_objs link_up say w_sent w_objs w_conns w_waiting w_params]. unfold set. rewrite in_app_iff. destruct (Nat.eqb_spec x ctx) as [->|N].
    + rewrite record_in, E3. unfold w1. cbn [say w_conns In]. intuition.
    + rewrite E3. unfold w1. cbn [say w_conns]. intuition.
  - intros x H. cbn [new_objs link_up say w_waiting]. rewrite E4. now destruct (Nat.eqb x ctx).
  - unfold ms. apply Forall_app. split; [apply adds_regs, reg_is|]. apply Forall_app. split; [exact (waking_adds _ _ _ W)|]. apply Forall_app. split; [constructor; [exact I|]; apply adds_connects, connects_to|repeat constructor].
  - intros cc H. right. rewrite Lk, !in_app_iff. apply in_app_iff in H as [H|H]; [left; exact (waking_cn _ _ _ _ W H)|auto].
  - intros s o d q H. rewrite Lk, !in_app_iff in H. destruct H as [H|[H|[H|[]]]]; [exfalso; exact (waking_some _ _ _ _ _ _ _ W H)| |discriminate]. apply in_map_iff in H as (x & E & _). discriminate.
  - unfold ms. apply good_from_app. split; [apply good_news; [exact NDp|intros x Hx; apply NR; now right|exact reg_is]|]. apply good_from_app. split.
    + apply (waking_good _ _ _ _ W). intros Ha x Hx. rewrite registered_app, (registered_map _ _ reg_is). intros [H|H]; [exact (G Ha x Hx H)|]. assert (10 < x) by (apply Big; now right). lia.
    + cbn [app good_from good_note]. split.
      * rewrite !registered_app, (registered_map _ _ reg_is). intros [[H|H]|H]; [exact (NR id (or_introl eq_refl) H)|contradiction|]. apply (waking_reg _ _ _ _ W) in H. assert (10 < id) by (apply Big; now left). lia.
      * apply good_connects. apply Forall_app. split; [apply connects_to|repeat constructor].
  - intros x H. apply Rg in H as [H|H]; [right; right; eapply taken_new; [reflexivity|exact H]|]. right; left. split; [exact (waking_reg _ _ _ _ W H)|]. cbn [new_objs link_up say w_waiting]. now rewrite E4, Nat.eqb_refl.
  - intros s o d q H. rewrite Lk, !in_app_iff in H. destruct H as [H|[H|[H|[]]]]; [exfalso; exact (waking_some _ _ _ _ _ _ _ W H)| |discriminate]. apply in_map_iff in H as (x & E & _). discriminate.
  - intros s o d H. rewrite Lk, !in_app_iff in H. destruct H as [H|[H|[H|[]]]].
    + exact (waking_none _ _ _ _ _ _ _ _ _ _ W H).
    + apply in_map_iff in H as (x & E & H). injection E as <- _ <-. cbn [new_objs link_up say w_objs]. rewrite E1. exact (own_params n cs c (w_objs w) ctx id 1 1 params new eq_refl (d_len _ _ _ HD) eq_refl x H).
    + injection H as <- _ <-. right; right; left. split; [reflexivity|]. exists id, params, (next (10 * n) cs). split; [|reflexivity]. apply placed_snoc. right. split; [reflexivity|]. split; [discriminate|reflexivity].
  - discriminate.
  - unfold new, extra, c. cbn [params_made length]. now rewrite map_length.
  - intros _. cbn [stands c]. cbn [new_objs link_up say w_objs]. rewrite E1. replace (length (w_objs w)) with (length (w_objs w) + 0) by lia. now apply (live_new (w_objs w) new 0).
  - intros [|j] x H; [injection H as <-; cbn; congruence|]. cbn [nth_error new] in H. rewrite nth_error_map in H. destruct (nth_error params j); [|discriminate]. injection H as <-. cbn. congruence.
  - intros x [<-|H]; cbn [o_ctx o_in o_out].
    + split; (eapply taken_new; [reflexivity|now left]).
    + apply in_map_iff in H as (p & <- & H). cbn. split; (eapply taken_new; [reflexivity|now right]).
  - intros _. rewrite Lk. split.
    + apply NoDup_app_intro; [exact (waking_once _ _ _ W)| |].
      * apply NoDup_app_intro; [apply FinFun.Injective_map_NoDup; [intros x y E; now injection E|exact NDp]|repeat constructor; intros []|].
        intros cc H [<-|[]]. apply in_map_iff in H as (x & E & H). injection E as ->. assert (10 < 1) by (apply Big; now right). lia.
      * intros cc H H'. destruct (waking_src _ _ _ _ W H) as (_ & _ & L). assert (B : 10 < id) by (apply Big; now left). apply in_app_iff in H' as [H'|[<-|[]]]; [apply in_map_iff in H' as (x & <- & _)|]; cbn in L; lia.
    + intros [[[s o] d] p] H Hw. apply (wired_registered _ _ _ _ _ (k_fine _ _ HK ctx)) in Hw as [Hs Hd]. rewrite !in_app_iff in H. destruct H as [H|[H|[H|[]]]].
      * destruct (waking_src _ _ _ _ W H) as (Ha & L & _). exact (G Ha s L Hs).
      * apply in_map_iff in H as (x & E & H). injection E as <- _ _ _. apply (NR x); [now right|exact Hs].
      * injection H as _ _ <- _. apply (NR id); [now left|exact Hd].
  - intros s o d p H. right. rewrite Lk in H. apply in_app_iff in H as [H|H].
    + right. split; [cbn; apply Nat.eqb_refl|]. rewrite (waking_links _ _ _ W) in H. destruct a; [exact H|destruct H].
    + left. split; [discriminate|]. unfold c. cbn [own]. rewrite Nat.eqb_refl. exact H.
Qed.

Lemma cut_same n cs c w v : D n cs w -> K cs w -> J (w_objs w) (w_conns w) v -> asks c <> None -> D n (cs ++ [c]) (snd (call_step c w)).
Proof.
  intros HD HK HJ Ha. pose proof (k_fine _ _ HK) as HF. destruct c; cbn [asks] in Ha; try congruence; cbn [call_step];
    repeat match goal with |- context [match held ?w ?a with _ => _ end] => destruct (held w a) end;
    repeat match goal with |- context [if negb ?b then _ else _] => destruct b; cbn [negb] end;
    try (apply D_cut; [exact HD|exact HF|reflexivity|reflexivity|discriminate]);
    try (cbn [snd]; apply D_same; [exact HD|reflexivity]).
Qed.

Lemma D_step n cs w v c : D n cs w -> K cs w -> J (w_objs w) (w_conns w) v -> never_reused (cs ++ [c]) -> kept (cs ++ [c]) ->
  (forall a out b inp x y, c = Connect a out b inp -> held w a = Some x -> held w b = Some y -> o_ctx x = o_ctx y -> drawn_once n (cs ++ [c]) -> ~ In (o_out x, out, o_in y, Some inp) (w_conns w (o_ctx x))) ->
  D n (cs ++ [c]) (snd (call_step c w)).
Proof.
  intros HD HK HJ NR KP Hd.
  assert (NR' : never_reused cs). { intros b x a E. apply (NR b x (a ++ [c])). rewrite E, <- app_assoc. reflexivity. }
  pose proof (fun ctx ids => NR cs c [] eq_refl ctx ids) as Fr.
  destruct c as [ctx id ins outs params|ctx wr rd p|ctx id params|ctx|a out b inp|a|a b|a out|a b out|a b out inp|a].
  - destruct (Fr ctx _ eq_refl). now apply D_node.
  - destruct (Fr ctx _ eq_refl). now apply D_delay.
  - destruct (Fr ctx _ eq_refl). now apply D_panner.
  - now apply D_listener.
  - apply (D_connect n cs w v); [exact HD|exact HK|exact HJ|]. intros x y Ha Hb E DO. exact (Hd a out b inp x y eq_refl Ha Hb E DO).
  - apply (cut_same n cs _ w v HD HK HJ). discriminate.
  - apply (cut_same n cs _ w v HD HK HJ). discriminate.
  - apply (cut_same n cs _ w v HD HK HJ). discriminate.
  - apply (cut_same n cs _ w v HD HK HJ). discriminate.
  - apply (cut_same n cs _ w v HD HK HJ). discriminate.
  - exfalso. apply (KP a). apply in_app_iff. right. now left.
Qed.

(** *** the start and the run *)
Lemma flat_fix n a x : nth_error (flat_map fixtures (seq 0 n)) a = Some x <-> a < 10 * n /\ nth_error (fixtures (a / 10)) (a mod 10) = Some x.
Proof.
  assert (G : forall m k b, nth_error (flat_map fixtures (seq k m)) b = Some x <-> b < 10 * m /\ nth_error (fixtures (k + b / 10)) (b mod 10) = Some x).
  { induction m as [|m IH]; intros k b; cbn [seq flat_map].
    - split; [destruct b; discriminate|lia].
    - destruct (Nat.lt_ge_cases b 10) as [L|L].
      + rewrite nth_error_app1 by (cbn; lia). rewrite Nat.div_small, Nat.mod_small, Nat.add_0_r by exact L. split; [intros H; split; [lia|exact H]|tauto].
      + rewrite nth_error_app2 by (cbn; lia). change (length (fixtures k)) with 10. rewrite IH.
        assert (Ed : b / 10 = (b - 10) / 10 + 1) by (rewrite <- Nat.div_add by lia; f_equal; lia). assert (Em : b mod 10 = (b - 10) mod 10) by (rewrite <- (Nat.mod_add (b - 10) 1) by lia; f_equal; lia). rewrite Ed, Em. replace (k + ((b - 10) / 10 + 1)) with (S k + (b - 10) / 10) by lia. split; intros [H1 H2]; (split; [lia|exact H2]). }
  specialize (G n 0 a). cbn [Nat.add] in G. exact G.
Qed.

Lemma fixture_at ctx j x : nth_error (fixtures ctx) j = Some x -> (j = 0 /\ x = mk_object ctx 0 0 1 1) \/ (1 <= j <= 9 /\ x = mk_object ctx (S j) (S j) 1 1).
Proof. do 10 (destruct j as [|j]; [cbn; intros H; injection H as <-; first [now left|right; split; [lia|reflexivity]]|]). destruct j; discriminate. Qed.

Lemma objs0 n a x f : nth_error (w_objs (world0 n)) a = Some (x, f) -> f = true /\ a < 10 * n /\ o_ctx x = a / 10 /\ o_in x = o_out x /\ o_in x <= 10.
Proof.
  cbn [world0 w_objs]. rewrite nth_error_map. destruct (nth_error (flat_map fixtures (seq 0 n)) a) as [y|] eqn:E; [|discriminate]. cbn [option_map]. intros H. injection H as -> <-.
  apply flat_fix in E as [L E]. apply fixture_at in E as [[_ ->]|[Hj ->]]; cbn [o_ctx o_in o_out]; (split; [reflexivity|split; [exact L|split; [reflexivity|split; [reflexivity|lia]]]]).
Qed.

Lemma D_first n : D n [] (world0 n).
Proof.
  constructor.
  - intros ctx id (i & k & [H|[]]). injection H as <- _ _. now left.
  - intros ctx. cbn. split; [|exact I]. intros (i & k & []).
  - intros ctx c [].
  - intros ctx s o d q [].
  - intros ctx s o d q [].
  - intros ctx s o d [].
  - intros ctx wr rd p k [].
  - intros c k [].
  - intros a x H N. apply objs0 in H as (_ & _ & _ & E & _). contradiction.
  - cbn [world0 w_objs next]. rewrite map_length. induction n as [|n IH]; [reflexivity|]. rewrite seq_S, flat_map_app, app_length, IH. cbn. lia.
  - intros a x f H. apply objs0 in H as (-> & _ & _ & E & L). repeat split; left; lia.
  - intros _ ctx. constructor.
  - intros ctx e [].
Qed.

Lemma D_run n cs : never_reused cs -> asked_first n cs -> kept cs -> fresh_ids n cs /\ D n cs (snd (calls cs (world0 n))).
Proof.
  induction cs as [|c cs IH] using rev_ind; intros NR A KP.
  - split; [intros [|? ?] c0 after E; discriminate|apply D_first].
  - assert (NR' : never_reused cs). { intros b x a E. apply (NR b x (a ++ [c])). rewrite E, <- app_assoc. reflexivity. }
    assert (A' : asked_first n cs). { intros b a o d i after E. apply (A b a o d i (after ++ [c])). rewrite E, <- app_assoc. reflexivity. }
    assert (KP' : kept cs). { intros a H. apply (KP a). apply in_app_iff. now left. }
    destruct (IH NR' A' KP') as [F HD]. set (w := snd (calls cs (world0 n))) in *.
    assert (F2 : fresh_ids n (cs ++ [c])).
    { intros b x after E ctx ids T. destruct after as [|y r _] using rev_ind.
      - apply app_inj_tail in E as [-> ->]. destruct (NR b x [] eq_refl ctx ids T) as [ND FF]. split; [exact ND|]. rewrite Forall_forall in FF |- *. intros id Hid. destruct (FF id Hid) as [L NT]. split; [exact L|].
        intros (a & o & Ha & Ec & Ei). destruct (d_ids _ _ _ HD a o true Ha) as (_ & [I1|I1] & [O1|O1]); destruct Ei as [Ei|Ei]; try lia; apply NT; rewrite <- Ei; subst ctx; assumption.
      - rewrite app_comm_cons, app_assoc in E. apply app_inj_tail in E as [E _]. exact (F b x r E ctx ids T). }
    split; [exact F2|]. destruct (run_refines n cs F) as [_ HJ]. rewrite calls_snoc. apply (D_step n cs w (snd (meanings cs (view0 n)))); [exact HD|exact (K_run n cs F A')|exact HJ|exact NR|exact KP|].
    intros a out b inp x y -> Ha Hb Ec DO Hin. apply (DO cs a out b inp [] eq_refl). apply (links_carried n cs F (o_ctx x) a out b inp x y Ha Hb eq_refl (eq_sym Ec)). exact Hin.
Qed.
