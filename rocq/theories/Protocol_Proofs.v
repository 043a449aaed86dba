From Coq Require Import List Arith Bool Lia.
From Verif Require Import Graph_Model Graph_Spec Graph_OrderProofs Graph_RenderProofs Graph_TraceModel
  Graph_TraceSpec Graph_TraceProofs Protocol_Model Protocol_Spec.
Import ListNotations.

Local Arguments Nat.ltb : simpl never.
Local Arguments Nat.eqb : simpl never.

Section ProtocolProofs.
Context {P Q CFG : Type}.
Notation sys := (sys P Q CFG).
Notation op := (op P CFG).
Notation msg := (msg P CFG).
Notation graph := (graph P Q CFG).
Variable E : env P Q CFG.

(** ** C07: exactly once, in order *)
Lemma send_pending (s : sys) m : s_closed s = false -> pending (send s m) = pending s ++ [m].
Proof.
  intros H. unfold send, pending. rewrite H. destruct (s_buf s); cbn; rewrite ?app_nil_r, ?app_assoc; reflexivity.
Qed.

Lemma send_pending_closed (s : sys) m : s_closed s = true -> pending (send s m) = pending s.
Proof. intros H. unfold send, pending. rewrite H. reflexivity. Qed.

Lemma send_fields (s : sys) m :
  s_next (send s m) = s_next s /\ s_reclaim (send s m) = s_reclaim s /\ s_handle (send s m) = s_handle s /\
  s_conns (send s m) = s_conns s /\ s_queued (send s m) = s_queued s /\ s_closed (send s m) = s_closed s /\
  s_graph (send s m) = s_graph s /\ s_idle (send s m) = s_idle s /\ s_issued (send s m) = s_issued s ++ [m] /\
  s_handled (send s m) = s_handled s /\ s_trace (send s m) = s_trace s.
Proof. unfold send. destruct (s_closed s); [cbn; tauto|]. destruct (s_buf s); cbn; tauto. Qed.

(** everything issued is handled or waiting, in order, unless the context is
    closed: then what is handled or waiting is a prefix *)
Definition ordered_delivery (s : sys) : Prop :=
  exists lost, s_issued s = s_handled s ++ pending s ++ lost /\ (s_closed s = false -> lost = []).

Lemma od_eq (s s' : sys) : s_issued s' = s_issued s -> s_handled s' = s_handled s -> pending s' = pending s ->
  (s_closed s' = false -> s_closed s = false) ->
  ordered_delivery s -> ordered_delivery s'.
Proof. intros A B C D (l & H1 & H2). exists l. rewrite A, B, C. split; [exact H1|]. tauto. Qed.

Lemma od_send (s : sys) m : ordered_delivery s -> ordered_delivery (send s m).
Proof.
  intros (l & H1 & H2). destruct (send_fields s m) as (_&_&_&_&_&Hc&_&_&Hi&Hh&_).
  unfold ordered_delivery. rewrite Hc, Hi, Hh. destruct (s_closed s) eqn:Ec.
  - rewrite send_pending_closed by exact Ec. exists (l ++ [m]). rewrite H1, !app_assoc. split; [reflexivity|discriminate].
  - rewrite send_pending by exact Ec. rewrite (H2 eq_refl) in H1. exists []. rewrite H1, !app_nil_r, !app_assoc. tauto.
Qed.

Lemma od_send_all ms : forall s : sys, ordered_delivery s -> ordered_delivery (send_all s ms).
Proof. induction ms as [|m ms IH]; cbn; intros s H; [exact H|]. apply IH, od_send, H. Qed.

Lemma od_send_param (s : sys) pq : ordered_delivery s -> ordered_delivery (send_param s pq).
Proof.
  intros H. unfold send_param. destruct (s_handle s (fst pq)); apply od_send; exact H.
Qed.

Lemma od_params l : forall s : sys, ordered_delivery s -> ordered_delivery (fold_left send_param l s).
Proof. induction l as [|m ms IH]; cbn; intros s H; [exact H|]. apply IH, od_send_param, H. Qed.

Lemma od_step (s s' : sys) o : single_suspend s o -> step E o s = Some s' -> ordered_delivery s -> ordered_delivery s'.
Proof.
  intros HS Hs H.
  destruct o as [|id p ins outs cfg|p n|id|src out dst port|src out dst port|id|id|id f|id m| | | | |id|id|id| |frame]; cbn [step] in Hs.
  - injection Hs as <-. revert H. apply od_eq; unfold alloc; destruct (s_reclaim s); auto.
  - destruct (s_handle s id); injection Hs as <-; try exact H. apply od_send. revert H. apply od_eq; auto.
  - destruct (s_handle s p), (s_handle s n); injection Hs as <-; try exact H; revert H; apply od_eq; auto.
  - destruct (is_alive s id); injection Hs as <-; [|exact H]. apply od_params. revert H. apply od_eq; auto.
  - destruct (s_handle s src); try (injection Hs as <-; exact H).
    destruct (s_handle s dst); try (injection Hs as <-; exact H).
    destruct (_ && _); injection Hs as <-; [|exact H]. apply od_send. revert H. apply od_eq; auto.
  - destruct (is_alive s src); injection Hs as <-; [|exact H]. apply od_send_all. revert H. apply od_eq; auto.
  - destruct (is_alive s id && negb (magic id)); injection Hs as <-; [|exact H].
    assert (H' : ordered_delivery (send (with_handle s id Dropped) (MDrop id))).
    { apply od_send. revert H. apply od_eq; auto. }
    revert H'. apply od_eq; auto.
  - destruct (is_alive s id); injection Hs as <-; [|exact H]. apply od_send, H.
  - destruct (is_alive s id); injection Hs as <-; [|exact H]. apply od_send, H.
  - destruct (is_alive s id); injection Hs as <-; [|exact H]. apply od_send, H.
  - destruct (s_closed s) eqn:Ec; injection Hs as <-; [exact H|]. cbn in HS.
    destruct H as (l & H1 & H2). rewrite (H2 Ec) in H1. exists []. unfold pending in *. cbn. rewrite HS in H1.
    rewrite H1, !app_nil_r, !app_assoc. tauto.
  - destruct (s_closed s) eqn:Ec; injection Hs as <-; [exact H|].
    destruct H as (l & H1 & H2). rewrite (H2 Ec) in H1. exists []. unfold pending in *. cbn.
    rewrite H1, !app_nil_r, !app_assoc. tauto.
  - destruct (s_closed s); injection Hs as <-; [exact H|]. apply od_send, H.
  - injection Hs as <-. revert H. apply od_eq; cbn; auto. discriminate.
  - destruct (s_handle s id); try (injection Hs as <-; exact H).
    destruct (magic id); injection Hs as <-; [exact H|]. apply od_send. revert H. apply od_eq; auto.
  - destruct (is_alive s id && negb (magic id)); injection Hs as <-; [|exact H].
    apply od_send. revert H. apply od_eq; auto.
  - injection Hs as <-. revert H. apply od_eq; auto.
  - destruct (s_chan s) as [|m ms] eqn:Ech; [injection Hs as <-; exact H|].
    assert (X : exists closed g idle trace, s' = mk_sys (s_next s) (s_reclaim s) (s_handle s) (s_conns s) (s_queued s)
       (s_buf s) closed ms g idle (s_issued s) (s_handled s ++ [m]) trace /\ (closed = false -> s_closed s = false)).
    { unfold handle_msg in Hs. destruct (to_gop m) as [g|].
      - destruct (gstep E g _) as [[g' l]|]; [|discriminate]. injection Hs as <-. cbn. repeat eexists. auto.
      - injection Hs as <-. cbn. repeat eexists. destruct m; auto; discriminate. }
    destruct X as (c & g & i & t & -> & Hc). destruct H as (l & H1 & H2). exists l. unfold pending in *. cbn.
    rewrite H1, Ech. cbn. rewrite <- !app_assoc. cbn. split; [reflexivity|]. tauto.
  - destruct (s_idle s || negb (is_active (s_graph s))); [injection Hs as <-; exact H|].
    destruct (render E frame (s_graph s)) as [[[g' lgs] out]|]; [|discriminate]. injection Hs as <-.
    revert H. apply od_eq; auto.
Qed.

(** ** Induction over executions *)
Lemma run_induct (I : sys -> Prop) (C : sys -> op -> Prop) :
  (forall s o s', I s -> C s o -> step E o s = Some s' -> I s') ->
  forall ops s s', I s -> throughout E C ops s -> run E ops s = Some s' -> I s'.
Proof.
  intros Hst. induction ops as [|o ops IH]; cbn; intros s s' HI HC Hr.
  - injection Hr as <-. exact HI.
  - destruct HC as [C1 C2]. destruct (step E o s) as [s1|] eqn:Es; [|discriminate].
    eapply IH; [|apply C2; reflexivity|exact Hr]. eapply Hst; eassumption.
Qed.

Lemma throughout_weaken (C1 C2 : sys -> op -> Prop) : (forall s o, C1 s o -> C2 s o) ->
  forall ops s, throughout E C1 ops s -> throughout E C2 ops s.
Proof.
  intros H. induction ops as [|o ops IH]; cbn; intros s HC; [exact I|].
  destruct HC as [A B]. split; [apply H, A|]. intros s' Hs. apply IH, B, Hs.
Qed.

Lemma careful_single (s : sys) o : careful s o -> single_suspend s o.
Proof. destruct o; cbn; auto. Qed.

Lemma od_init dest cfg : ordered_delivery (sys0 dest cfg : sys).
Proof. exists []. cbn. tauto. Qed.

Lemma main_delivery dest cfg ops (s : sys) :
  throughout E single_suspend ops (sys0 dest cfg) -> run E ops (sys0 dest cfg) = Some s -> ordered_delivery s.
Proof.
  intros HC Hr. eapply (run_induct ordered_delivery single_suspend); [|apply od_init|exact HC|exact Hr].
  intros s0 o s1 H C Hs. eapply od_step; eassumption.
Qed.

(** ** The life of one identifier, as an automaton over the messages *)
Inductive ast := ADead | ALive (ins outs : nat) (fresh : bool) | ADropped.

Definition port_lt (p : option nat) (n : nat) : bool := match p with Some q => Nat.ltb q n | None => true end.

Definition ast_step (id : nat) (a : ast) (m : msg) : option ast :=
  let if_live i := if Nat.eqb i id then match a with ALive _ _ _ => Some a | _ => None end else Some a in
  match m with
  | MRegister i _ ins outs _ =>
      if Nat.eqb i id then match a with ADead => Some (ALive ins outs true) | _ => None end else Some a
  | MConnect s o d p =>
      if Nat.eqb d id && negb (match a with ALive ins _ _ => port_lt p ins | _ => false end) then None
      else if Nat.eqb s id
           then match a with ALive i outs _ => if Nat.ltb o outs then Some (ALive i outs false) else None | _ => None end
           else Some a
  | MDisconnect s _ d _ => match if_live s with Some _ => if_live d | None => None end
  | MDrop i => if Nat.eqb i id then match a with ALive _ _ _ => Some ADropped | _ => None end else Some a
  | MBreaker i => if Nat.eqb i id then match a with ALive _ _ true => Some a | _ => None end else Some a
  | MCfg i _ | MPost i _ => if_live i
  | MSuspend | MResume | MClose => Some a
  end.

Fixpoint scan (id : nat) (a : ast) (ms : list msg) : option ast :=
  match ms with
  | [] => Some a
  | m :: ms' => match ast_step id a m with Some a' => scan id a' ms' | None => None end
  end.

Lemma scan_app id ms1 : forall a ms2, scan id a (ms1 ++ ms2) =
  match scan id a ms1 with Some b => scan id b ms2 | None => None end.
Proof. induction ms1 as [|m ms1 IH]; cbn; intros a ms2; [reflexivity|]. destruct (ast_step id a m); auto. Qed.

Ltac eqb_cases :=
  repeat match goal with
  | H : context [Nat.eqb ?x ?y] |- _ => destruct (Nat.eqb_spec x y); cbn in H; try subst
  | |- context [Nat.eqb ?x ?y] => destruct (Nat.eqb_spec x y); cbn; try subst
  end.

Lemma ast_dead id a m : ast_step id a m = Some ADead -> a = ADead /\ ~ about id m.
Proof.
  destruct m; cbn; intros H; eqb_cases; destruct a; cbn in H;
    repeat match type of H with context [if ?x then _ else _] => destruct x end; try discriminate;
    (split; [reflexivity|]); try (intros [X|X]); try (intros X); try congruence; exact X.
Qed.

Lemma scan_dead id ms : forall a, scan id a ms = Some ADead -> a = ADead /\ forall m, In m ms -> ~ about id m.
Proof.
  induction ms as [|m ms IH]; cbn; intros a H.
  - injection H as ->. split; [reflexivity|]. tauto.
  - destruct (ast_step id a m) as [b|] eqn:Eb; [|discriminate].
    destruct (IH _ H) as [-> Hms]. apply ast_dead in Eb. destruct Eb as [-> Hm].
    split; [reflexivity|]. intros x [<-|Hx]; auto.
Qed.

Lemma ast_about id a m : ~ about id m -> ast_step id a m = Some a.
Proof.
  destruct m; cbn; intros H; eqb_cases; try tauto; try congruence; try (exfalso; apply H; auto; fail); reflexivity.
Qed.

Lemma ast_dropped id m a : ast_step id ADropped m = Some a -> a = ADropped /\ ~ about id m.
Proof.
  destruct m; cbn; intros H; eqb_cases; try discriminate; try (split; [congruence|]); try tauto; try congruence;
    intros [X|X]; congruence.
Qed.

Lemma scan_dropped id ms : forall a, scan id ADropped ms = Some a -> a = ADropped /\ forall m, In m ms -> ~ about id m.
Proof.
  induction ms as [|m ms IH]; cbn; intros a H.
  - injection H as <-. split; [reflexivity|]. tauto.
  - destruct (ast_step id ADropped m) as [b|] eqn:Eb; [|discriminate].
    apply ast_dropped in Eb. destruct Eb as [-> Hm]. destruct (IH _ H) as [-> Hms].
    split; [reflexivity|]. intros x [<-|Hx]; auto.
Qed.

Lemma scan_about id a ms : (forall m, In m ms -> ~ about id m) -> scan id a ms = Some a.
Proof.
  induction ms as [|m ms IH]; cbn; intros H; [reflexivity|]. rewrite ast_about by (apply H; now left). apply IH. auto.
Qed.

(** the state of the identifier in the graph *)
Definition rel (g : graph) (id : nat) (a : ast) : Prop :=
  match a with
  | ADead => get (g_nodes g) id = None
  | ALive ins outs fresh => exists n, get (g_nodes g) id = Some n /\ n_dropped n = false /\
      length (n_inputs n) = ins /\ length (n_outputs n) = outs /\ (fresh = true -> n_edges n = [])
  | ADropped => exists n, get (g_nodes g) id = Some n /\ n_dropped n = true
  end.

Definition post_ok (m : msg) : Prop := match m with MPost _ f => forall p, f p <> None | _ => True end.

Lemma handled_legal g m o : (forall id, exists a, rel g id a /\ ast_step id a m <> None) -> post_ok m ->
  to_gop m = Some o -> legal E g o.
Proof.
  intros H Hp Ho. destruct m as [id p ins outs cfg|s o1 d p|s o1 d p|id|id|id f|id f| | |]; cbn in Ho; try discriminate;
    injection Ho as <-; cbn.
  - destruct (H id) as (a & Ha & Hs). cbn in Hs. rewrite Nat.eqb_refl in Hs. destruct a; try congruence.
    cbn in Ha. intros [n Hn]. congruence.
  - split.
    + destruct (H s) as (a & Ha & Hs). cbn in Hs. rewrite Nat.eqb_refl in Hs.
      destruct a as [|i out f|]; try (destruct (Nat.eqb d s); cbn in Hs; congruence).
      destruct Ha as (n & En & _ & _ & El & _). exists n. split; [exact En|]. rewrite El.
      destruct (Nat.eqb d s && negb (port_lt p i)); [congruence|].
      destruct (Nat.ltb_spec o1 out); [assumption|congruence].
    + destruct (H d) as (a & Ha & Hs). cbn in Hs. rewrite Nat.eqb_refl in Hs. cbn in Hs.
      destruct a as [|i out f|]; try (cbn in Hs; congruence).
      destruct Ha as (n & En & _ & El & _). exists n. split; [exact En|]. intros q ->. cbn in Hs.
      destruct (Nat.ltb_spec q i); [lia|cbn in Hs; congruence].
  - destruct (H s) as (a & Ha & Hs). cbn in Hs. rewrite Nat.eqb_refl in Hs. destruct a; try congruence.
    destruct Ha as (n & En & _). exists n; exact En.
  - destruct (H id) as (a & Ha & Hs). cbn in Hs. rewrite Nat.eqb_refl in Hs. destruct a; try congruence.
    destruct Ha as (n & En & _). exists n; exact En.
  - destruct (H id) as (a & Ha & Hs). cbn in Hs. rewrite Nat.eqb_refl in Hs. destruct a as [|i o f|]; try congruence.
    destruct f; [|congruence]. destruct Ha as (n & En & _ & _ & _ & Hf). exists n. auto.
  - destruct (H id) as (a & Ha & Hs). cbn in Hs. rewrite Nat.eqb_refl in Hs. destruct a; try congruence.
    destruct Ha as (n & En & _). exists n; exact En.
  - destruct (H id) as (a & Ha & Hs). cbn in Hs. rewrite Nat.eqb_refl in Hs. destruct a; try congruence.
    destruct Ha as (n & En & _). exists n. split; [exact En|]. apply Hp.
Qed.

Lemma rel_update g i f id a : rel g id a ->
  (forall n, n_dropped (f n) = n_dropped n /\ length (n_inputs (f n)) = length (n_inputs n) /\
     length (n_outputs (f n)) = length (n_outputs n) /\ (n_edges n = [] -> n_edges (f n) = [])) ->
  forall ord, rel (mk_graph (update (g_nodes g) i f) ord) id a.
Proof.
  intros H Hf ord. destruct (Nat.eq_dec i id) as [->|N].
  - destruct a as [|ins outs fr|]; cbn in *.
    + rewrite get_update_eq, H. reflexivity.
    + destruct H as (n & En & A & B & C & D). exists (f n). destruct (Hf n) as (F1 & F2 & F3 & F4).
      rewrite get_update_eq, En, F1, F2, F3. auto 10.
    + destruct H as (n & En & A). exists (f n). destruct (Hf n) as (F1 & _). rewrite get_update_eq, En, F1. auto.
  - destruct a as [|ins outs fr|]; cbn in *; rewrite get_update_neq by exact N; exact H.
Qed.

Lemma handled_rel g m o g' l id a a' : rel g id a -> ast_step id a m = Some a' -> to_gop m = Some o ->
  gstep E o g = Some (g', l) -> rel g' id a'.
Proof.
  intros H Hs Ho Hg. destruct m as [i p ins outs cfg|s o1 d p|s o1 d p|i|i|i f|i f| | |]; cbn in Ho; try discriminate;
    injection Ho as <-; cbn in Hg, Hs.
  - injection Hg as <- <-. destruct (Nat.eqb_spec i id) as [->|N].
    + destruct a; try discriminate. injection Hs as <-. cbn. rewrite get_insert, Nat.eqb_refl.
      eexists. split; [reflexivity|]. cbn. rewrite !repeat_length. auto.
    + injection Hs as <-. destruct a as [|i0 o0 f0|]; cbn in *; rewrite get_insert, (proj2 (Nat.eqb_neq i id) N); exact H.
  - unfold add_edge in Hg. destruct (get (g_nodes g) s) as [n|] eqn:En; [|discriminate]. cbn in Hg. injection Hg as <- <-.
    destruct (_ && _) eqn:Eb in Hs; [discriminate|]. destruct (Nat.eqb_spec s id) as [->|N].
    + destruct a as [|i0 o0 f0|]; try discriminate. destruct (Nat.ltb o1 o0); [|discriminate]. injection Hs as <-.
      cbn in *. destruct H as (n' & En' & A & B & C & D). rewrite En in En'. injection En' as <-.
      rewrite get_update_eq, En. eexists. split; [reflexivity|]. cbn. repeat split; try assumption. discriminate.
    + injection Hs as <-. destruct a as [|i0 o0 f0|]; cbn in *; rewrite get_update_neq by exact N; exact H.
  - unfold remove_edge in Hg. destruct (get (g_nodes g) s) as [n|] eqn:En; [|discriminate]. cbn in Hg. injection Hg as <- <-.
    assert (a' = a).
    { destruct (Nat.eqb s id), (Nat.eqb d id), a; congruence. }
    subst a'. apply rel_update; [exact H|]. intros n0. cbn. repeat split. intros ->. reflexivity.
  - unfold mark_dropped in Hg. destruct (i <? length (g_nodes g)); [|discriminate]. cbn in Hg. injection Hg as <- <-.
    destruct (Nat.eqb_spec i id) as [->|N].
    + destruct a as [|i0 o0 f0|]; try discriminate. injection Hs as <-. cbn in *. destruct H as (n & En & _).
      rewrite get_update_eq, En. eexists. split; reflexivity.
    + injection Hs as <-. destruct a as [|i0 o0 f0|]; cbn in *; rewrite get_update_neq by exact N; exact H.
  - unfold mark_breaker in Hg. destruct (get (g_nodes g) i) as [n|] eqn:En; [|discriminate]. cbn in Hg. injection Hg as <- <-.
    assert (a' = a).
    { destruct (Nat.eqb i id); [|congruence]. destruct a as [|? ? f0|]; try discriminate. destruct f0; congruence. }
    subst a'. apply rel_update; [exact H|]. intros n0. cbn. auto.
  - unfold set_cfg in Hg. destruct (get (g_nodes g) i) as [n|] eqn:En; [|discriminate]. cbn in Hg. injection Hg as <- <-.
    assert (a' = a) by (destruct (Nat.eqb i id), a; congruence).
    subst a'. apply rel_update; [exact H|]. intros n0. cbn. auto.
  - unfold route_message in Hg. destruct (get (g_nodes g) i) as [n|] eqn:En; [|discriminate].
    destruct (f (n_proc n)) as [p'|]; [|discriminate]. cbn in Hg. injection Hg as <- <-.
    assert (a' = a) by (destruct (Nat.eqb i id), a; congruence).
    subst a'. apply rel_update; [exact H|]. intros n0. cbn. auto.
Qed.

Hypothesis EOK : env_ok E.
Hypothesis NP : no_panics E.

(** what a quantum does to a node *)
Lemma render_node_after g frame g' lgs out : WF g -> render E frame g = Some (g', lgs, out) ->
  forall id, match get (g_nodes g) id with
             | None => get (g_nodes g') id = None /\ ~ In id (reclaimed lgs)
             | Some n => (In id (reclaimed lgs) -> n_dropped n = true /\ get (g_nodes g') id = None) /\
                 (~ In id (reclaimed lgs) -> exists m, get (g_nodes g') id = Some m /\ n_dropped m = n_dropped n /\
                    length (n_inputs m) = length (n_inputs n) /\ length (n_outputs m) = length (n_outputs n) /\
                    n_breaker m = n_breaker n /\ (n_edges n = [] -> n_edges m = []) /\
                    (forall e, In e (n_edges m) -> In e (n_edges n)) /\
                    (n_breaker n = false -> forall e, In e (n_edges n) -> ~ In (e_dest e) (reclaimed lgs) -> In e (n_edges m)))
             end.
Proof.
  intros HW Hren id.
  destruct (render_quantum E EOK _ _ _ _ _ HW Hren) as (ns1 & ord & [Hre Hids Hlogs Hget Hord]).
  pose proof (reordered_order _ _ _ HW Hre) as (N & L & T). rewrite <- Hids in N.
  pose proof (reordered_cut _ _ _ Hre id) as Hcut.
  pose proof (after_live E ns1 lgs frame id Hlogs N) as Hal. rewrite <- Hget in Hal.
  destruct (get (g_nodes g) id) as [n|] eqn:En.
  - assert (H1 : exists n1, get ns1 id = Some n1 /\ n_dropped n1 = n_dropped n /\ n_inputs n1 = n_inputs n /\
       n_outputs n1 = n_outputs n /\ n_breaker n1 = n_breaker n /\ (n_edges n1 = n_edges n \/ n_edges n1 = [] /\ n_breaker n = true)).
    { destruct Hcut as [X|(n' & X & Hb & _ & Y)].
      - exists n. tauto.
      - injection X as <-. exists (clear_edges n). cbn. tauto. }
    destruct H1 as (n1 & En1 & D1 & I1 & O1 & B1 & Ed1).
    split.
    + intros Hin. split.
      * apply reclaimed_In in Hin. destruct Hin as (lg & Hlg & Hid & Hf).
        destruct (logs_ok_In E _ _ _ _ _ Hlogs Hlg) as (pre' & m & Em & _ & _ & _ & _ & Hres & Hm).
        rewrite Hid, En1 in Em. injection Em as <-.
        destruct (l_result lg) as [[[p' o'] t]|].
        -- destruct Hm as [_ Hm]. rewrite Hf in Hm. symmetry in Hm. apply can_free_spec in Hm.
           destruct Hm as [Hm _]. cbn in Hm. congruence.
        -- symmetry in Hres. apply NP in Hres. destruct Hres.
      * destruct (get (g_nodes g') id) as [m|] eqn:Em; [|reflexivity].
        exfalso. destruct (proj1 Hal (ex_intro _ m eq_refl)) as [_ H]. exact (H Hin).
    + intros Hnin. destruct (proj2 Hal) as [m Em].
      { split; [exists n1; exact En1|exact Hnin]. }
      exists m. split; [exact Em|]. rewrite Hget in Em.
      destruct (after_edges E _ _ _ _ _ En1 Em) as (A & B & C & _).
      rewrite (after_inputs_length E _ _ _ _ _ En1 Em), B, C, D1, I1, B1.
      rewrite (after_outputs_length E EOK frame ns1 lgs id n1 m En1 Em) by (intros lg Hlg; eapply logs_ok_In; eauto).
      rewrite O1. repeat split.
      * intros He. rewrite A. destruct Ed1 as [-> | [-> _]]; [rewrite He|]; reflexivity.
      * intros e He. rewrite A in He. unfold live_edges in He. apply filter_In in He. destruct He as [He _].
        destruct Ed1 as [X|[X _]]; rewrite X in He; [exact He|destruct He].
      * intros Hb e He Hd. rewrite A. unfold live_edges. apply filter_In.
        destruct Ed1 as [->|[_ X]]; [|congruence]. split; [exact He|].
        rewrite (proj2 (mem_nIn _ _)); [reflexivity|exact Hd].
  - assert (E1 : get ns1 id = None).
    { destruct Hcut as [X|(n' & X & _)]; congruence. }
    split.
    + rewrite Hget. unfold after. rewrite E1. reflexivity.
    + intros Hin. apply reclaimed_In in Hin. destruct Hin as (lg & Hlg & Hid & _).
      destruct (L id) as [n Hn]; [rewrite <- Hids; apply in_map_iff; exists lg; auto|congruence].
Qed.

Lemma reclaimed_NoDup g frame g' lgs out : WF g -> render E frame g = Some (g', lgs, out) -> NoDup (reclaimed lgs).
Proof.
  intros HW Hren. destruct (render_quantum E EOK _ _ _ _ _ HW Hren) as (ns1 & ord & [Hre Hids Hlogs Hget Hord]).
  pose proof (reordered_order _ _ _ HW Hre) as (N & _). rewrite <- Hids in N. apply NoDup_map_filter. exact N.
Qed.

Lemma render_rel g frame g' lgs out id a : WF g -> render E frame g = Some (g', lgs, out) -> rel g id a ->
  if mem id (reclaimed lgs) then a = ADropped /\ rel g' id ADead else rel g' id a.
Proof.
  intros HW Hren H. pose proof (render_node_after _ _ _ _ _ HW Hren id) as Hn.
  destruct (mem id (reclaimed lgs)) eqn:Em.
  - apply mem_In in Em. destruct (get (g_nodes g) id) as [n|] eqn:En; [|tauto].
    destruct Hn as [Hn _]. specialize (Hn Em). destruct a as [|i o f|]; cbn in H.
    + congruence.
    + destruct H as (n' & X & Y & _). rewrite En in X. injection X as <-. destruct Hn; congruence.
    + split; [reflexivity|]. cbn. tauto.
  - apply mem_nIn in Em. destruct a as [|i o f|]; cbn in H.
    + rewrite H in Hn. cbn. tauto.
    + destruct H as (n & En & A & B & C & D). rewrite En in Hn. destruct Hn as [_ Hn].
      destruct (Hn Em) as (m & F1 & F2 & F3 & F4 & F5 & F6 & _). exists m. rewrite F2, F3, F4. auto 10.
    + destruct H as (n & En & A). rewrite En in Hn. destruct Hn as [_ Hn].
      destruct (Hn Em) as (m & F1 & F2 & _). exists m. rewrite F2. auto.
Qed.

(** ** The invariant *)
Definition abs (h : handle) : ast :=
  match h with Unused | Reserved => ADead | Alive i o f => ALive i o f | Dropped => ADropped end.

Definition id_ok (s : sys) (id : nat) : Prop :=
  exists a b, rel (s_graph s) id a /\ scan id a (pending s) = Some b /\
    (s_closed s = false -> b = abs (s_handle s id)) /\
    (s_handle s id = Unused \/ s_handle s id = Reserved -> b = ADead) /\
    (b = ADropped -> s_handle s id = Dropped) /\
    (id = 0 -> exists f, b = ALive 1 1 f).

Record inv (s : sys) : Prop := {
  i_wf : WF (s_graph s);
  i_ids : forall id, id_ok s id;
  i_zero : exists f, s_handle s 0 = Alive 1 1 f;
  i_post : Forall post_ok (pending s);
  i_next : forall id, s_next s <= id -> s_handle s id = Unused;
  i_recl : forall id, In id (s_reclaim s) -> s_handle s id = Unused /\ id < s_next s;
  i_recl_nd : NoDup (s_reclaim s);
  i_conns : forall c id, In c (s_conns s) -> mentions id c = true -> held s id
}.

Lemma inv_init dest cfg : inv (sys0 dest cfg).
Proof.
  constructor.
  - apply WF_new.
  - intros id. exists ADead, (abs (s_handle (sys0 dest cfg : sys) id)).
    split. { cbn. destruct (get (g_nodes (graph_new : graph)) id) as [n|] eqn:En; [|exact En].
             exfalso. apply (graph_new_dead (P:=P) (Q:=Q) (CFG:=CFG) id). exists n. exact En. }
    split.
    { cbn. destruct id as [|id]; [reflexivity|]. cbn. destruct (Nat.leb id 9); reflexivity. }
    split; [reflexivity|]. split; [intros [-> | ->]; reflexivity|].
    split; [|intros ->; exists true; reflexivity].
    destruct (s_handle (sys0 dest cfg : sys) id); cbn; try discriminate. reflexivity.
  - exists true. reflexivity.
  - repeat constructor.
  - intros id H. cbn in H |- *. destruct id as [|id]; [lia|]. cbn. destruct (Nat.leb_spec id 9); [lia|reflexivity].
  - intros id [].
  - constructor.
  - intros c id [].
Qed.

(** changing handles and sending a message *)
Lemma inv_send s s1 m :
  inv s ->
  s_next s1 = s_next s -> s_reclaim s1 = s_reclaim s -> s_closed s1 = s_closed s -> pending s1 = pending s ->
  s_graph s1 = s_graph s ->
  post_ok m ->
  (forall id, ast_step id (abs (s_handle s id)) m = Some (abs (s_handle s1 id))) ->
  (forall id, s_handle s1 id = Unused \/ s_handle s1 id = Reserved -> s_handle s id = Unused \/ s_handle s id = Reserved) ->
  (forall id, s_handle s id = Dropped -> s_handle s1 id = Dropped) ->
  (forall id, s_handle s id = Unused -> s_handle s1 id = Unused) ->
  (exists f, s_handle s1 0 = Alive 1 1 f) ->
  (forall c id, In c (s_conns s1) -> mentions id c = true -> held s1 id) ->
  inv (send s1 m).
Proof.
  intros H E1 E2 E3 E4 E5 Hpost Hstep Hu Hd Hun Hz Hc.
  destruct (send_fields s1 m) as (F1 & F2 & F3 & F4 & F5 & F6 & F7 & _).
  constructor.
  - rewrite F7, E5. apply H.
  - intros id. destruct (i_ids s H id) as (a & b & R1 & R2 & R3 & R4 & R5 & R6).
    unfold id_ok. rewrite F7, F6, F3, E5, E3. destruct (s_closed s) eqn:Ec.
    + rewrite send_pending_closed by congruence. rewrite E4. exists a, b.
      repeat split; try assumption; try discriminate.
      * intros X. apply R4, Hu, X.
      * intros X. apply Hd, R5, X.
    + rewrite send_pending by congruence. rewrite E4. exists a, (abs (s_handle s1 id)).
      split; [exact R1|]. split.
      { rewrite scan_app, R2. cbn. rewrite (R3 eq_refl), Hstep. reflexivity. }
      split; [reflexivity|]. split; [intros [-> | ->]; reflexivity|]. split.
      { destruct (s_handle s1 id); cbn; try discriminate. reflexivity. }
      intros ->. destruct Hz as [f Hf]. exists f. rewrite Hf. reflexivity.
  - rewrite F3. exact Hz.
  - destruct (s_closed s) eqn:Ec.
    + rewrite send_pending_closed by congruence. rewrite E4. apply H.
    + rewrite send_pending by congruence. rewrite E4. apply Forall_app. split; [apply H|]. constructor; [exact Hpost|constructor].
  - intros id. rewrite F1, F3, E1. intros X. apply Hun, (i_next s H id X).
  - intros id. rewrite F1, F2, F3, E1, E2. intros X. destruct (i_recl s H id X). auto.
  - rewrite F2, E2. apply H.
  - intros c id. rewrite F4. unfold held. rewrite F3. apply Hc.
Qed.

Lemma set_handle_eq h i v : set_handle h i v i = v.
Proof. unfold set_handle. rewrite Nat.eqb_refl. reflexivity. Qed.
Lemma set_handle_neq h i v j : j <> i -> set_handle h i v j = h j.
Proof. unfold set_handle. intros H. rewrite (proj2 (Nat.eqb_neq j i) H). reflexivity. Qed.

Lemma is_alive_held (s : sys) id : is_alive s id = true <-> held s id.
Proof.
  unfold is_alive, held. destruct (s_handle s id); split; intros H; try discriminate; try (destruct H as (?&?&?&?); discriminate).
  - eauto.
  - reflexivity.
Qed.

(** sends that change no handle *)
Lemma inv_send_same s m : inv s -> post_ok m ->
  (forall id, ast_step id (abs (s_handle s id)) m = Some (abs (s_handle s id))) -> inv (send s m).
Proof.
  intros H Hp Hs. apply (inv_send s s); try reflexivity; auto.
  - apply H.
  - apply H.
Qed.

Lemma inv_ext s s' : inv s -> s_next s' = s_next s -> s_reclaim s' = s_reclaim s -> s_closed s' = s_closed s ->
  pending s' = pending s -> s_graph s' = s_graph s -> s_handle s' = s_handle s ->
  incl (s_conns s') (s_conns s) -> inv s'.
Proof.
  intros H E1 E2 E3 E4 E5 E6 E7. constructor.
  - rewrite E5. apply H.
  - intros id. destruct (i_ids s H id) as (a & b & R). exists a, b. rewrite E3, E4, E5, E6. exact R.
  - rewrite E6. apply H.
  - rewrite E4. apply H.
  - rewrite E1, E6. apply H.
  - rewrite E1, E2, E6. apply H.
  - rewrite E2. apply H.
  - intros c id Hc. unfold held. rewrite E6. apply (i_conns s H c id). apply E7, Hc.
Qed.

Lemma inv_disconnects cs : forall s, inv s -> (forall c id, In c cs -> mentions id c = true -> held s id) ->
  inv (send_all s (map to_disconnect cs)).
Proof.
  induction cs as [|c cs IH]; intros s H Hc; cbn [map send_all fold_left]; [exact H|].
  apply IH.
  - apply inv_send_same; [exact H| |].
    + destruct c as [[[? ?] ?] ?]. exact I.
    + intros id. destruct c as [[[x o] y] p] eqn:Ec. cbn.
      destruct (Nat.eqb_spec x id) as [->|N1].
      * destruct (Hc c id) as (i0 & o0 & f0 & ->); [left; congruence|rewrite Ec; cbn; rewrite Nat.eqb_refl; reflexivity|].
        cbn. destruct (Nat.eqb y id); reflexivity.
      * destruct (Nat.eqb_spec y id) as [->|N2]; [|reflexivity].
        destruct (Hc c id) as (i0 & o0 & f0 & ->); [left; congruence|rewrite Ec; cbn; rewrite Nat.eqb_refl, orb_true_r; reflexivity|].
        reflexivity.
  - intros c' id Hin Hm. destruct (send_fields s (to_disconnect c)) as (_ & _ & F & _). unfold held. rewrite F.
    apply (Hc c' id); [now right|exact Hm].
Qed.

Lemma inv_param s pq : inv s -> held s (snd pq) ->
  (exists i o f, s_handle s (fst pq) = Alive i o f /\ 0 < o) -> inv (send_param s pq).
Proof.
  intros H (di & do_ & df & Ed) (i & o & f & Ep & Ho). unfold send_param. rewrite Ep.
  apply (inv_send s); try reflexivity; try assumption; try exact I.
  - intros id. destruct pq as [p d]; cbn [fst snd] in *. cbn [with_handle s_handle ast_step].
    destruct (Nat.eqb_spec d id) as [->|N1].
    + rewrite Ed. cbn. destruct (Nat.eqb_spec p id) as [->|N2].
      * rewrite set_handle_eq. rewrite Ep in Ed. injection Ed as <- <- <-. cbn. destruct o; [lia|reflexivity].
      * rewrite set_handle_neq by congruence. rewrite Ed. reflexivity.
    + cbn. destruct (Nat.eqb_spec p id) as [->|N2].
      * rewrite set_handle_eq, Ep. cbn. destruct o; [lia|reflexivity].
      * rewrite set_handle_neq by congruence. reflexivity.
  - intros id. cbn. destruct (Nat.eq_dec id (fst pq)) as [->|N]; [rewrite set_handle_eq; intros [X|X]; discriminate|].
    rewrite set_handle_neq by exact N. auto.
  - intros id. cbn. destruct (Nat.eq_dec id (fst pq)) as [->|N]; [congruence|]. rewrite set_handle_neq by exact N. auto.
  - intros id. cbn. destruct (Nat.eq_dec id (fst pq)) as [->|N]; [congruence|]. rewrite set_handle_neq by exact N. auto.
  - destruct (i_zero s H) as [f0 Hf0]. cbn. destruct (Nat.eq_dec 0 (fst pq)) as [X|N].
    + rewrite <- X, set_handle_eq. rewrite <- X, Hf0 in Ep. injection Ep as <- <- <-. eexists; reflexivity.
    + rewrite set_handle_neq by exact N. eauto.
  - intros c id Hc Hm. destruct (i_conns s H c id Hc Hm) as (i1 & o1 & f1 & E1). unfold held. cbn.
    destruct (Nat.eq_dec id (fst pq)) as [->|N]; [rewrite set_handle_eq; eauto|]. rewrite set_handle_neq by exact N. eauto.
Qed.

Lemma send_param_handle (s : sys) pq id : (exists i o f, s_handle s (fst pq) = Alive i o f /\ 0 < o) ->
  forall i o f, s_handle s id = Alive i o f -> exists f', s_handle (send_param s pq) id = Alive i o f'.
Proof.
  intros (i0 & o0 & f0 & Ep & _) i o f Hid. unfold send_param. rewrite Ep.
  destruct (send_fields (with_handle s (fst pq) (Alive i0 o0 false)) (MConnect (fst pq) 0 (snd pq) None)) as (_&_&F&_).
  rewrite F. cbn. destruct (Nat.eq_dec id (fst pq)) as [->|N].
  - rewrite set_handle_eq. rewrite Ep in Hid. injection Hid as <- <- <-. eauto.
  - rewrite set_handle_neq by exact N. eauto.
Qed.

Lemma inv_params l : forall s, inv s -> (forall pq, In pq l -> held s (snd pq) /\
    exists i o f, s_handle s (fst pq) = Alive i o f /\ 0 < o) -> inv (fold_left send_param l s).
Proof.
  induction l as [|pq l IH]; cbn; intros s H Hl; [exact H|].
  destruct (Hl pq (or_introl eq_refl)) as [H1 H2].
  apply IH; [apply inv_param; assumption|]. intros pq' Hin.
  destruct (Hl pq' (or_intror Hin)) as [(i & o & f & E1) (i' & o' & f' & E2 & Ho)].
  split.
  - destruct (send_param_handle s pq _ H2 _ _ _ E1) as [f'' E']. unfold held. eauto.
  - destruct (send_param_handle s pq _ H2 _ _ _ E2) as [f'' E']. eauto.
Qed.

(** the identifier handed out next is unused *)
Lemma next_unused s : inv s -> s_handle s (next_id s) = Unused.
Proof.
  intros H. unfold next_id. destruct (s_reclaim s) as [|i r] eqn:Er.
  - apply (i_next s H). lia.
  - apply (i_recl s H). rewrite Er. now left.
Qed.

Lemma inv_alloc s : inv s -> inv (alloc s).
Proof.
  intros H. pose proof (next_unused s H) as Hn.
  assert (X : s_graph (alloc s) = s_graph s /\ pending (alloc s) = pending s /\ s_closed (alloc s) = s_closed s /\
    s_handle (alloc s) = set_handle (s_handle s) (next_id s) Reserved /\ s_conns (alloc s) = s_conns s).
  { unfold alloc. destruct (s_reclaim s); cbn; auto. }
  destruct X as (X1 & X2 & X3 & X4 & X5). constructor.
  - rewrite X1. apply H.
  - intros id. destruct (i_ids s H id) as (a & b & R1 & R2 & R3 & R4 & R5 & R6). exists a, b.
    rewrite X1, X2, X3, X4. destruct (Nat.eq_dec id (next_id s)) as [->|N].
    + rewrite set_handle_eq. rewrite Hn in *. repeat split; auto. intros Y. specialize (R5 Y). discriminate.
    + rewrite set_handle_neq by exact N. auto 10.
  - rewrite X4. destruct (i_zero s H) as [f Hf]. destruct (Nat.eq_dec 0 (next_id s)) as [Y|N]; [rewrite <- Y in Hn; congruence|].
    rewrite set_handle_neq by exact N. eauto.
  - rewrite X2. apply H.
  - intros id. rewrite X4. unfold alloc, next_id. destruct (s_reclaim s) as [|i r] eqn:Er; cbn; intros Hid.
    + rewrite set_handle_neq by lia. apply (i_next s H). lia.
    + destruct (i_recl s H i) as [_ Hi]; [rewrite Er; now left|]. rewrite set_handle_neq by lia. apply (i_next s H). lia.
  - intros id. rewrite X4. unfold alloc, next_id. pose proof (i_recl_nd s H) as ND. destruct (s_reclaim s) as [|i r] eqn:Er; cbn; [tauto|].
    intros Hid. apply NoDup_cons_iff in ND. destruct ND as [ND _].
    rewrite set_handle_neq by (intros ->; tauto). apply (i_recl s H). rewrite Er. now right.
  - unfold alloc. pose proof (i_recl_nd s H) as ND. destruct (s_reclaim s) as [|i r]; cbn; [constructor|].
    apply NoDup_cons_iff in ND. apply ND.
  - intros c id Hc Hm. rewrite X5 in Hc. destruct (i_conns s H c id Hc Hm) as (i & o & f & Hh). unfold held. rewrite X4.
    destruct (Nat.eq_dec id (next_id s)) as [->|N]; [congruence|]. rewrite set_handle_neq by exact N. eauto.
Qed.

Lemma about_dead s id m : inv s -> s_handle s id = Unused \/ s_handle s id = Reserved -> In m (pending s) -> ~ about id m.
Proof.
  intros H Hh Hm. destruct (i_ids s H id) as (a & b & R1 & R2 & R3 & R4 & R5 & R6).
  rewrite (R4 Hh) in R2. apply scan_dead in R2. apply R2, Hm.
Qed.

Lemma not_live_dead s id : inv s -> s_handle s id = Unused \/ s_handle s id = Reserved -> get (g_nodes (s_graph s)) id = None.
Proof.
  intros H Hh. destruct (i_ids s H id) as (a & b & R1 & R2 & R3 & R4 & R5 & R6).
  rewrite (R4 Hh) in R2. apply scan_dead in R2. destruct R2 as [-> _]. exact R1.
Qed.

Lemma dest_alive s : inv s -> is_active (s_graph s) = true ->
  exists d, get (g_nodes (s_graph s)) 0 = Some d /\ n_outputs d <> [] /\ n_dropped d = false.
Proof.
  intros H Ha. destruct (i_ids s H 0) as (a & b & R1 & R2 & R3 & R4 & R5 & R6).
  destruct (R6 eq_refl) as [f ->].
  unfold is_active in Ha. destruct (get (g_nodes (s_graph s)) 0) as [d|] eqn:Ed; [|discriminate].
  exists d. split; [reflexivity|]. destruct a as [|i o fr|]; cbn in R1.
  - congruence.
  - destruct R1 as (n & En & A & B & C & D). rewrite Ed in En. injection En as <-. split; [|exact A].
    assert (Hm : forall ms a, match a with ALive _ o _ => True | _ => False end -> scan 0 a ms = Some (ALive 1 1 f) ->
       exists i f', a = ALive i 1 f').
    { induction ms as [|m ms IH]; cbn; intros a Hal Hsc.
      - injection Hsc as ->. eauto.
      - destruct a as [|i1 o1 f1|]; try tauto. destruct (ast_step 0 (ALive i1 o1 f1) m) as [a'|] eqn:Ea; [|discriminate].
        assert (X : a' = ADropped \/ exists f2, a' = ALive i1 o1 f2).
        { destruct m; cbn in Ea; eqb_cases; try discriminate; try (injection Ea as <-); eauto.
          - destruct (negb _); [discriminate|]. destruct (_ <? _); [|discriminate]. injection Ea as <-. eauto.
          - destruct (negb _); [discriminate|]. injection Ea as <-. eauto.
          - destruct (_ <? _); [|discriminate]. injection Ea as <-. eauto.
          - destruct f1; [|discriminate]. injection Ea as <-. eauto. }
        destruct X as [-> | [f2 ->]].
        + apply scan_dropped in Hsc. destruct Hsc. discriminate.
        + destruct (IH (ALive i1 o1 f2) I Hsc) as (i3 & f3 & X). injection X as -> -> _. eauto. }
    destruct (Hm _ (ALive i o fr) I R2) as (i3 & f3 & X). injection X as -> -> ->. intros Y. rewrite Y in C. discriminate.
  - destruct R1 as (n & En & A). apply scan_dropped in R2. destruct R2. discriminate.
Qed.

(** the next operation of the render thread is legal *)
Definition next_gop (s : sys) (o : op) : option (gop P CFG) :=
  match o with
  | RHandle => match s_chan s with m :: _ => to_gop m | [] => None end
  | RRender frame => if s_idle s || negb (is_active (s_graph s)) then None else Some (OpRender frame)
  | _ => None
  end.

Lemma next_legal s o g : inv s -> next_gop s o = Some g -> legal E (s_graph s) g.
Proof.
  intros H. destruct o; cbn; try discriminate.
  - destruct (s_chan s) as [|m ms] eqn:Ec; [discriminate|]. intros Hg. eapply handled_legal; [|  |exact Hg].
    + intros id. destruct (i_ids s H id) as (a & b & R1 & R2 & _). exists a. split; [exact R1|].
      unfold pending in R2. rewrite Ec in R2. cbn in R2. destruct (ast_step id a m); congruence.
    + pose proof (i_post s H) as F. unfold pending in F. rewrite Ec in F. cbn in F. inversion F; assumption.
  - destruct (s_idle s); [discriminate|]. cbn. destruct (is_active (s_graph s)) eqn:Ea; [|discriminate].
    cbn. intros X. injection X as <-. destruct (dest_alive s H Ea) as (d & A & B & C). exists d. repeat split; auto.
Qed.

Lemma step_no_panic s o : inv s -> exists s', step E o s = Some s'.
Proof.
  intros H. destruct (step E o s) as [s'|] eqn:Es; [eauto|]. exfalso.
  destruct o as [|id p ins outs cfg|p n|id|src out dst port|src out dst port|id|id|id f|id m| | | | |id|id|id| |frame]; cbn [step] in Es;
    try discriminate;
    repeat match type of Es with context [match ?x with _ => _ end] =>
      lazymatch x with
      | s_chan s => fail
      | _ => destruct x eqn:?; try discriminate
      end end.
  - destruct (s_chan s) as [|m ms] eqn:Ec; [discriminate|]. unfold handle_msg in Es.
    destruct (to_gop m) as [g|] eqn:Eg; [|discriminate].
    assert (L : legal E (s_graph s) g). { apply (next_legal s RHandle); [exact H|]. cbn. rewrite Ec. exact Eg. }
    destruct (step_total E EOK _ _ (i_wf s H) L) as (g' & l & Hg). cbn in Es. rewrite Hg in Es. discriminate.
  - assert (L : legal E (s_graph s) (OpRender frame)).
    { apply (next_legal s (RRender frame)); [exact H|]. cbn. rewrite Heqb. reflexivity. }
    destruct (render_total E EOK _ _ (i_wf s H) L) as (g' & lgs & o & Hg). congruence.
Qed.
End ProtocolProofs.
