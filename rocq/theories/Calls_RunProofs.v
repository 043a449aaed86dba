(** Proofs about connection calls, continued: whole histories, messages, the
    listener. *)
From Coq Require Import List Arith Bool Lia.
From Verif Require Import Graph_Model Protocol_Model Calls_Model Calls_Spec Calls_Proofs.
Import ListNotations.

(** ** the start *)
Definition fixture (ctx i : nat) : object := mk_object ctx (if Nat.eqb i 0 then 0 else S i) (if Nat.eqb i 0 then 0 else S i) 1 1.

Lemma fixtures_nth ctx i o : nth_error (fixtures ctx) i = Some o -> i < 10 /\ o = fixture ctx i.
Proof.
  unfold fixtures. do 10 (destruct i as [|i]; [cbn; intros [= <-]; split; [lia|reflexivity]|]).
  cbn. destruct i; discriminate.
Qed.

Lemma all_fixtures n k a x :
  nth_error (flat_map fixtures (seq k n)) a = Some x -> x = fixture (k + a / 10) (a mod 10).
Proof.
  revert k a. induction n as [|n IH]; intros k a H; [destruct a; discriminate|].
  cbn [seq flat_map] in H. assert (Len : length (fixtures k) = 10) by reflexivity.
  apply nth_snoc in H as [H|[G H]].
  - apply fixtures_nth in H as [H ->]. rewrite Nat.div_small, Nat.mod_small, Nat.add_0_r by assumption. reflexivity.
  - rewrite Len in G, H. apply IH in H. rewrite H. f_equal.
    + replace a with ((a - 10) + 1 * 10) at 2 by lia. rewrite Nat.div_add by lia. lia.
    + replace a with ((a - 10) + 1 * 10) at 2 by lia. now rewrite Nat.mod_add by lia.
Qed.


Lemma rel0 n k : Forall2 rel (map (fun o => (o, true)) (flat_map fixtures (seq k n)))
                          (flat_map (fun ctx => repeat (mk_node ctx 1 1 true true) 10) (seq k n)).
Proof.
  revert k. induction n as [|n IH]; intros k; [constructor|].
  cbn [seq flat_map]. rewrite map_app. apply Forall2_app; [|apply IH].
  unfold fixtures. cbn. repeat constructor.
Qed.

Lemma J0 n : J (w_objs (world0 n)) (w_conns (world0 n)) (view0 n).
Proof.
  assert (X : forall a x, live_at (w_objs (world0 n)) a x -> x = fixture (a / 10) (a mod 10)).
  { intros a x H. unfold live_at, world0 in H. cbn [w_objs] in H. rewrite nth_error_map in H.
    destruct (nth_error (flat_map fixtures (seq 0 n)) a) eqn:E; [|discriminate]. cbn in H. injection H as <-.
    apply all_fixtures in E. exact E. }
  constructor.
  - apply rel0.
  - intros a b x y Ha Hb E Nq. apply X in Ha, Hb. subst x y. cbn [o_ctx fixture o_in o_out] in *.
    assert (M : a mod 10 <> b mod 10).
    { intros M. apply Nq. rewrite (Nat.div_mod_eq a 10), (Nat.div_mod_eq b 10), E, M. reflexivity. }
    destruct (Nat.eqb_spec (a mod 10) 0), (Nat.eqb_spec (b mod 10) 0); lia.
  - intros a x Ha. apply X in Ha. subst x. cbn [fixture o_in o_out].
    destruct (Nat.eqb_spec (a mod 10) 0); lia.
  - intros l [].
  - intros ctx. reflexivity.
  - intros ctx c [].
Qed.

(** ** one call *)
Lemma held_live w a x : held w a = Some x <-> live_at (w_objs w) a x.
Proof.
  unfold held, live_at. destruct (nth_error (w_objs w) a) as [[o [|]]|]; split; congruence.
Qed.

Lemma used_in w ctx id : used (w_objs w) ctx id <-> in_use w ctx id.
Proof. reflexivity. Qed.

(** what the world knows and what the program knows *)
Lemma both_held w v a : Forall2 rel (w_objs w) (v_nodes v) ->
  (exists x n, held w a = Some x /\ live_at (w_objs w) a x /\ alive v a = Some n /\ rel (x, true) n)
  \/ (held w a = None /\ alive v a = None).
Proof.
  intros F. destruct (rel_held _ v a F) as [(x & n & H1 & H2 & R)|[H1 H2]].
  - left. exists x, n. repeat split; try assumption; try apply R. now apply held_live.
  - right. split; [|assumption]. destruct (held w a) eqn:E; [|reflexivity]. apply held_live in E. elim (H1 _ E).
Qed.

Lemma existsb_filter {X} (f : X -> bool) l : existsb f l = match filter f l with [] => false | _ => true end.
Proof. induction l as [|x l IH]; [reflexivity|]. cbn. now destruct (f x). Qed.

Lemma J_ext t cn cn' v : J t cn v -> (forall ctx, cn ctx = cn' ctx) -> J t cn' v.
Proof.
  intros [T D O L C N] E. constructor; try assumption.
  - intros ctx. rewrite <- E. apply C.
  - intros ctx c. rewrite <- E. apply N.
Qed.

Definition dest_ok (w : world) (x : object) (b dst : option nat) : Prop :=
  match b with
  | None => dst = None
  | Some b' => exists y, live_at (w_objs w) b' y /\ o_ctx y = o_ctx x /\ dst = Some (o_in y)
  end.

Lemma down_cut w v a x out b inp dst :
  J (w_objs w) (w_conns w) v -> live_at (w_objs w) a x -> dest_ok w x b dst ->
  fst (link_down w (o_ctx x) (o_out x) out dst inp) = fst (cut v a out b inp) /\
  J (w_objs (snd (link_down w (o_ctx x) (o_out x) out dst inp)))
    (w_conns (snd (link_down w (o_ctx x) (o_out x) out dst inp))) (snd (cut v a out b inp)).
Proof.
  intros HJ Ha Hd. pose proof (sel_links _ _ _ HJ a x out b inp dst Ha Hd) as Sel.
  pose proof (J_cut _ _ _ HJ a x out b inp dst Ha Hd) as HC. cbv zeta in HC.
  unfold link_down, cut. rewrite existsb_filter. rewrite Sel.
  destruct (filter (matches a out b inp) (v_links v)) as [|l ls] eqn:El; cbn [map].
  - assert (Same : filter (fun c => negb (matches a out b inp c)) (v_links v) = v_links v).
    { clear -El. revert El. generalize (v_links v) as L. induction L as [|m L IH]; intros El; [reflexivity|].
      cbn [filter] in *. destruct (matches a out b inp m); [discriminate|]. cbn [negb]. now rewrite IH. }
    destruct b as [b'|]; [destruct Hd as (y & _ & _ & ->)|rewrite Hd in *]; cbn [negb fst snd]; (split; [reflexivity|]);
      cbn [say w_objs w_conns].
    + rewrite Same in HC. destruct v; exact HC.
    + exact HC.
  - destruct b as [b'|]; [destruct Hd as (y & _ & _ & ->)|rewrite Hd in *]; cbn [negb fst snd]; (split; [reflexivity|]);
      cbn [say w_objs w_conns]; exact HC.
Qed.

Lemma J_wake w v ctx : J (w_objs w) (w_conns w) v ->
  J (w_objs (wake_listener w ctx)) (w_conns (wake_listener w ctx)) v.
Proof.
  intros HJ. unfold wake_listener. destruct (w_waiting w ctx) as [|i ids]; [assumption|].
  cbn [link_up say w_objs w_conns]. apply J_hidden; [assumption| |left; lia|left; lia].
  intros a x Ha _. apply (j_one _ _ _ HJ a x Ha).
Qed.
Lemma wake_objs w ctx : w_objs (wake_listener w ctx) = w_objs w.
Proof. unfold wake_listener. now destruct (w_waiting w ctx). Qed.

Definition fresh_call (w : world) (c : call) : Prop :=
  forall ctx ids, takes c = Some (ctx, ids) ->
  NoDup ids /\ Forall (fun id => 10 < id /\ ~ in_use w ctx id) ids.

Lemma magic_big id : 10 < id -> magic id = false.
Proof. intros H. unfold magic. apply Nat.leb_gt. assumption. Qed.

(** a node with its parameters: all identifiers distinct and new *)
Lemma J_node w v ctx id ins outs params :
  J (w_objs w) (w_conns w) v ->
  NoDup (id :: params) -> Forall (fun i => 10 < i /\ ~ in_use w ctx i) (id :: params) ->
  J (w_objs w ++ map (fun o => (o, true)) (mk_object ctx id id ins outs :: map (param_of ctx) params)) (w_conns w)
    (add_nodes v (mk_node ctx ins outs true false :: map (fun _ => a_param ctx) params)).
Proof.
  intros HJ ND F.
  assert (E : mk_node ctx ins outs true false :: map (fun _ => a_param ctx) params
              = map shown (mk_object ctx id id ins outs :: map (param_of ctx) params)).
  { cbn [map]. unfold shown at 1. cbn [o_ctx o_in o_ins o_outs].
    rewrite magic_big by (apply (Forall_inv F)). f_equal. rewrite map_map. apply map_ext_in. intros p Hp.
    unfold shown, param_of. cbn [o_ctx o_in o_ins o_outs]. rewrite magic_big; [reflexivity|].
    apply Forall_inv_tail in F. rewrite Forall_forall in F. now apply F. }
  rewrite E. apply (J_new _ _ _ _ ctx); [assumption| |].
  - intros x [<-|Hx].
    + cbn [o_ctx o_in o_out]. destruct (Forall_inv F) as [F1 F2]. repeat split; assumption.
    + apply in_map_iff in Hx as (p & <- & Hp). cbn [param_of o_ctx o_in o_out].
      apply Forall_inv_tail in F. rewrite Forall_forall in F. destruct (F p Hp). repeat split; assumption.
  - set (ids := id :: params) in *.
    assert (G : forall i x, nth_error (mk_object ctx id id ins outs :: map (param_of ctx) params) i = Some x ->
                exists k, nth_error ids i = Some k /\ o_in x = k /\ o_out x = k).
    { intros i x H. destruct i as [|i]; cbn [nth_error] in H.
      - injection H as <-. exists id. repeat split.
      - rewrite nth_error_map in H. unfold ids. cbn [nth_error]. destruct (nth_error params i) as [p|]; [|discriminate].
        cbn in H. injection H as <-. exists p. repeat split. }
    intros i j x y Hi Hj Nq. apply G in Hi as (k & Hi & -> & ->), Hj as (m & Hj & -> & ->).
    assert (Nk : k <> m).
    { intros ->. apply Nq. rewrite NoDup_nth_error in ND. apply ND; [|congruence].
      apply nth_error_Some. congruence. }
    repeat split; assumption.
Qed.

Lemma J_delay w v ctx wr rd p :
  J (w_objs w) (w_conns w) v ->
  NoDup [wr; rd; p] -> Forall (fun i => 10 < i /\ ~ in_use w ctx i) [wr; rd; p] ->
  J (w_objs w ++ map (fun o => (o, true)) [mk_object ctx wr rd 1 1; param_of ctx p])
    (set (w_conns w) ctx (record (wr, 0, rd, Some 0) (w_conns w ctx)))
    (add_nodes v [mk_node ctx 1 1 true false; a_param ctx]).
Proof.
  intros HJ ND F.
  assert (Fw := Forall_inv F). assert (F' := Forall_inv_tail F).
  assert (Fr := Forall_inv F'). assert (Fp := Forall_inv (Forall_inv_tail F')).
  cbv beta in Fw, Fr, Fp. destruct Fw as [Gw Uw], Fr as [Gr Ur], Fp as [Gp Up].
  assert (D : wr <> rd /\ wr <> p /\ rd <> p).
  { inversion ND as [|? ? N1 ND1]; subst. inversion ND1 as [|? ? N2 _]; subst. cbn in N1, N2. intuition congruence. }
  destruct D as (D1 & D2 & D3).
  assert (HN : J (w_objs w ++ map (fun o => (o, true)) [mk_object ctx wr rd 1 1; param_of ctx p]) (w_conns w)
    (add_nodes v [mk_node ctx 1 1 true false; a_param ctx])).
  { assert (E : [mk_node ctx 1 1 true false; a_param ctx] = map shown [mk_object ctx wr rd 1 1; param_of ctx p]).
    { cbn [map]. unfold shown, param_of. cbn [o_ctx o_in o_ins o_outs]. now rewrite !magic_big. }
    rewrite E. apply (J_new _ _ _ _ ctx); [assumption| |].
    - intros x [<-|[<-|[]]]; cbn [param_of o_ctx o_in o_out]; repeat split; assumption.
    - intros i j x y Hi Hj Nq.
      destruct i as [|[|i]]; [| |destruct i; discriminate]; (destruct j as [|[|j]]; [| |destruct j; discriminate]);
        cbn in Hi, Hj; injection Hi as <-; injection Hj as <-; try (now elim Nq); cbn [param_of o_in o_out];
        repeat split; congruence. }
  apply J_hidden; [exact HN| | |].
  - intros a x Ha Ec. unfold live_at in Ha. apply nth_snoc in Ha as [Ha|[_ Ha]].
    + intros E. apply Uw. exists a, x. repeat split; auto.
    + destruct (a - length (w_objs w)) as [|[|k]]; cbn in Ha; [| |destruct k; discriminate];
        injection Ha as <-; cbn [param_of o_out]; congruence.
  - right. exists (length (w_objs w)), (mk_object ctx wr rd 1 1). unfold live_at.
    rewrite nth_error_app2, Nat.sub_diag by lia. repeat split. now left.
  - right. exists (length (w_objs w)), (mk_object ctx wr rd 1 1). unfold live_at.
    rewrite nth_error_app2, Nat.sub_diag by lia. repeat split. now right.
Qed.

Lemma filter_twice {X} (f g : X -> bool) l :
  filter (fun c => negb (g c)) (filter (fun c => negb (f c)) l) = filter (fun c => negb (f c || g c)) l.
Proof. rewrite filter_filter. apply filter_ext_In. intros. now rewrite negb_orb. Qed.

Lemma step_refines w v c :
  J (w_objs w) (w_conns w) v -> fresh_call w c ->
  fst (call_step c w) = fst (meaning c v) /\
  J (w_objs (snd (call_step c w))) (w_conns (snd (call_step c w))) (snd (meaning c v)).
Proof.
  intros HJ Fr. pose proof (j_tab _ _ _ HJ) as F2.
  destruct c as [ctx id ins outs params|ctx wr rd p|ctx id params|ctx|a out b inp|a|a b|a out|a b out|a b out inp|a].
  - destruct (Fr ctx _ eq_refl) as [ND FF]. split; [reflexivity|].
    cbn [call_step meaning snd say new_objs w_objs w_conns]. now apply (J_node w v).
  - destruct (Fr ctx _ eq_refl) as [ND FF]. split; [reflexivity|].
    cbn [call_step meaning snd say new_objs link_up w_objs w_conns]. now apply J_delay.
  - destruct (Fr ctx _ eq_refl) as [ND FF]. split; [reflexivity|].
    cbn [call_step meaning snd].
    set (w1 := say w ctx (map (fun p => NRegister p 1 1) params)).
    assert (J1 : J (w_objs (wake_listener w1 ctx)) (w_conns (wake_listener w1 ctx)) v) by (apply J_wake; exact HJ).
    assert (O1 : w_objs (wake_listener w1 ctx) = w_objs w) by (rewrite wake_objs; reflexivity).
    assert (J2 : J (w_objs (wake_listener w1 ctx) ++ map (fun o => (o, true)) (mk_object ctx id id 1 1 :: map (param_of ctx) params))
                   (w_conns (wake_listener w1 ctx))
                   (add_nodes v (mk_node ctx 1 1 true false :: map (fun _ => a_param ctx) params))).
    { apply J_node; [exact J1|assumption|]. unfold in_use. rewrite O1. exact FF. }
    cbn [new_objs link_up say w_objs w_conns]. apply J_hidden; [exact J2| |left; lia|].
    + intros a x Ha _. apply (j_one _ _ _ J2 a x Ha).
    + right. exists (length (w_objs (wake_listener w1 ctx))), (mk_object ctx id id 1 1). unfold live_at.
      rewrite nth_error_app2, Nat.sub_diag by lia. repeat split. now left.
  - split; [reflexivity|]. cbn [call_step meaning snd]. now apply J_wake.
  - cbn [call_step meaning].
    destruct (both_held w v a F2) as [(x & n & -> & La & -> & R1 & R2 & R3 & R4 & R5)|[-> ->]]; [|now split].
    destruct (both_held w v b F2) as [(y & m & -> & Lb & -> & Q1 & Q2 & Q3 & Q4 & Q5)|[-> ->]]; [|now split].
    cbn [fst snd] in *. rewrite R1, R3, Q1, Q2.
    destruct (Nat.eqb_spec (n_ctx n) (n_ctx m)) as [Ec|Ec]; cbn [negb]; [|now split].
    destruct (Nat.ltb out (n_outs n)); cbn [negb andb]; [|now split].
    destruct (Nat.ltb inp (n_ins m)); cbn [negb]; [|now split].
    split; [reflexivity|]. cbn [snd link_up say w_objs w_conns]. rewrite <- R1. apply J_link; auto. congruence.
  - cbn [call_step meaning].
    destruct (both_held w v a F2) as [(x & n & -> & La & -> & R)|[-> ->]]; [|now split].
    now apply down_cut.
  - cbn [call_step meaning].
    destruct (both_held w v a F2) as [(x & n & -> & La & -> & R1 & R2 & R3 & R4 & R5)|[-> ->]]; [|now split].
    destruct (both_held w v b F2) as [(y & m & -> & Lb & -> & Q1 & Q2 & Q3 & Q4 & Q5)|[-> ->]]; [|now split].
    cbn [fst snd] in *. destruct (Nat.eqb_spec (o_ctx x) (o_ctx y)) as [Ec|Ec].
    + replace (Nat.eqb (n_ctx n) (n_ctx m)) with true by (symmetry; apply Nat.eqb_eq; congruence). cbn [negb].
      apply down_cut; [assumption|assumption|]. exists y. repeat split; auto.
    + replace (Nat.eqb (n_ctx n) (n_ctx m)) with false by (symmetry; apply Nat.eqb_neq; congruence). cbn [negb]. now split.
  - cbn [call_step meaning].
    destruct (both_held w v a F2) as [(x & n & -> & La & -> & R1 & R2 & R3 & R4 & R5)|[-> ->]]; [|now split].
    cbn [fst snd] in *. rewrite R3. destruct (Nat.ltb out (n_outs n)); cbn [negb]; [|now split].
    now apply down_cut.
  - cbn [call_step meaning].
    destruct (both_held w v a F2) as [(x & n & -> & La & -> & R1 & R2 & R3 & R4 & R5)|[-> ->]]; [|now split].
    destruct (both_held w v b F2) as [(y & m & -> & Lb & -> & Q1 & Q2 & Q3 & Q4 & Q5)|[-> ->]]; [|now split].
    cbn [fst snd] in *. destruct (Nat.eqb_spec (o_ctx x) (o_ctx y)) as [Ec|Ec].
    + replace (Nat.eqb (n_ctx n) (n_ctx m)) with true by (symmetry; apply Nat.eqb_eq; congruence). cbn [negb].
      rewrite R3. destruct (Nat.ltb out (n_outs n)); cbn [negb]; [|now split].
      apply down_cut; [assumption|assumption|]. exists y. repeat split; auto.
    + replace (Nat.eqb (n_ctx n) (n_ctx m)) with false by (symmetry; apply Nat.eqb_neq; congruence). cbn [negb]. now split.
  - cbn [call_step meaning].
    destruct (both_held w v a F2) as [(x & n & -> & La & -> & R1 & R2 & R3 & R4 & R5)|[-> ->]]; [|now split].
    destruct (both_held w v b F2) as [(y & m & -> & Lb & -> & Q1 & Q2 & Q3 & Q4 & Q5)|[-> ->]]; [|now split].
    cbn [fst snd] in *. destruct (Nat.eqb_spec (o_ctx x) (o_ctx y)) as [Ec|Ec].
    + replace (Nat.eqb (n_ctx n) (n_ctx m)) with true by (symmetry; apply Nat.eqb_eq; congruence). cbn [negb].
      rewrite R3, Q2. destruct (Nat.ltb out (n_outs n)); cbn [negb andb]; [|now split].
      destruct (Nat.ltb inp (n_ins m)); cbn [negb]; [|now split].
      apply down_cut; [assumption|assumption|]. exists y. repeat split; auto.
    + replace (Nat.eqb (n_ctx n) (n_ctx m)) with false by (symmetry; apply Nat.eqb_neq; congruence). cbn [negb]. now split.
  - cbn [call_step meaning].
    destruct (both_held w v a F2) as [(x & n & -> & La & -> & R1 & R2 & R3 & R4 & R5)|[-> ->]]; [|now split].
    cbn [fst snd] in *. split; [reflexivity|]. rewrite <- R5.
    destruct (j_one _ _ _ HJ a x La) as (_ & _ & Pl).
    destruct (magic (o_in x)) eqn:Mg.
    + assert (Eq : o_in x = o_out x).
      { destruct Pl as [E|[G _]]; [assumption|]. rewrite magic_big in Mg by assumption. discriminate. }
      rewrite Eq, Nat.eqb_refl. unfold drop_id. rewrite <- Eq, Mg. exact HJ.
    + apply Nat.leb_gt in Mg. pose proof (J_drop _ _ _ a x HJ La) as JD.
      destruct (Nat.eqb_spec (o_in x) (o_out x)) as [E|E].
      * unfold drop_id. rewrite magic_big by lia. cbn [say w_objs w_conns].
        eapply J_ext; [exact JD|]. intros c. unfold set. destruct (Nat.eqb c (o_ctx x)); [|reflexivity].
        apply filter_ext_In. intros d _. rewrite E. now rewrite orb_diag.
      * unfold drop_id. rewrite !magic_big by lia. cbn [say w_objs w_conns].
        eapply J_ext; [exact JD|]. intros c. unfold set. destruct (Nat.eqb c (o_ctx x)) eqn:Ec; [|reflexivity].
        rewrite Nat.eqb_refl. symmetry. apply filter_twice.
Qed.

(** ** histories *)
Lemma calls_app cs ds w :
  calls (cs ++ ds) w
  = (fst (calls cs w) ++ fst (calls ds (snd (calls cs w))), snd (calls ds (snd (calls cs w)))).
Proof.
  revert w. induction cs as [|c cs IH]; intros w; cbn [calls app fst snd]; [now destruct (calls ds w)|].
  destruct (call_step c w) as [r w1]. rewrite IH. destruct (calls cs w1) as [rs w2]. reflexivity.
Qed.
Lemma meanings_app cs ds v :
  meanings (cs ++ ds) v
  = (fst (meanings cs v) ++ fst (meanings ds (snd (meanings cs v))), snd (meanings ds (snd (meanings cs v)))).
Proof.
  revert v. induction cs as [|c cs IH]; intros v; cbn [meanings app fst snd]; [now destruct (meanings ds v)|].
  destruct (meaning c v) as [r v1]. rewrite IH. destruct (meanings cs v1) as [rs v2]. reflexivity.
Qed.

Lemma fresh_prefix n cs ds : fresh_ids n (cs ++ ds) -> fresh_ids n cs.
Proof.
  intros F before c after E. apply (F before c (after ++ ds)). rewrite E, <- app_assoc. reflexivity.
Qed.

Lemma run_refines n cs : fresh_ids n cs ->
  fst (calls cs (world0 n)) = fst (meanings cs (view0 n)) /\
  J (w_objs (snd (calls cs (world0 n)))) (w_conns (snd (calls cs (world0 n)))) (snd (meanings cs (view0 n))).
Proof.
  induction cs as [|c cs IH] using rev_ind; intros F; [split; [reflexivity|apply J0]|].
  destruct (IH (fresh_prefix _ _ _ F)) as [E HJ]. rewrite calls_app, meanings_app. cbn [fst snd].
  assert (Fc : fresh_call (snd (calls cs (world0 n))) c).
  { intros ctx ids Ht. exact (F cs c [] eq_refl ctx ids Ht). }
  destruct (step_refines _ _ c HJ Fc) as [E1 HJ1]. cbn [calls meanings].
  destruct (call_step c (snd (calls cs (world0 n)))) as [r w1].
  destruct (meaning c (snd (meanings cs (view0 n)))) as [r' v1]. cbn [fst snd] in *.
  split; [congruence|assumption].
Qed.

Lemma carried_J w v ctx l c : J (w_objs w) (w_conns w) v -> In l (v_links v) ->
  (carried w l ctx c <-> within (w_objs w) ctx l = true /\ c = image (w_objs w) l).
Proof.
  intros HJ Hl. destruct (j_lnk _ _ _ HJ l Hl) as (x & y & Hx & Hy & E). destruct l as [[[a o] b] i].
  cbn [lsrc ldst] in *. unfold within, image, carried. cbn [lsrc].
  rewrite (obj_live _ _ _ Hx), (obj_live _ _ _ Hy), Nat.eqb_eq. split.
  - intros (x' & y' & H1 & H2 & H3 & H4 & ->). apply held_live in H1, H2. unfold live_at in *.
    rewrite Hx in H1. rewrite Hy in H2. injection H1 as <-. injection H2 as <-. now split.
  - intros [H ->]. exists x, y. rewrite !held_live. repeat split; auto. congruence.
Qed.

Lemma links_carried n cs : fresh_ids n cs ->
  let w := snd (calls cs (world0 n)) in
  forall ctx a out b inp x y, held w a = Some x -> held w b = Some y -> o_ctx x = ctx -> o_ctx y = ctx ->
  (In (a, out, b, inp) (v_links (snd (meanings cs (view0 n))))
   <-> In (o_out x, out, o_in y, Some inp) (w_conns w ctx)).
Proof.
  intros F w ctx a out b inp x y Ha Hb Cx Cy. destruct (run_refines n cs F) as [_ HJ].
  set (v := snd (meanings cs (view0 n))) in *. fold w in HJ. apply held_live in Ha, Hb.
  pose proof (J_link _ _ _ HJ a x b y) as _. pose proof (j_cns _ _ _ HJ ctx) as C.
  assert (Im : image (w_objs w) (a, out, b, inp) = (o_out x, out, o_in y, Some inp)).
  { unfold image. now rewrite (obj_live _ _ _ Ha), (obj_live _ _ _ Hb). }
  assert (Wl : within (w_objs w) ctx (a, out, b, inp) = true).
  { unfold within. cbn [lsrc]. rewrite (obj_live _ _ _ Ha). now apply Nat.eqb_eq. }
  split.
  - intros Hl. assert (H : In (o_out x, out, o_in y, Some inp) (filter (vis (w_objs w) ctx) (w_conns w ctx))).
    { rewrite C, <- Im. apply in_map, filter_In. now split. }
    now apply filter_In in H.
  - intros Hc. assert (H : In (o_out x, out, o_in y, Some inp) (filter (vis (w_objs w) ctx) (w_conns w ctx))).
    { apply filter_In. split; [assumption|]. apply vis_true. exists a, x. repeat split; assumption. }
    rewrite C in H. apply in_map_iff in H as (m & Em & Hm). apply filter_In in Hm as [Hm Wm].
    rewrite <- Im in Em. rewrite <- (image_inj _ _ _ HJ m (a, out, b, inp) ctx Hm Wm); [assumption| |assumption].
    exists x, y. repeat split; assumption.
Qed.

(** ** messages *)
Lemma set_same {X} (f : nat -> X) i v : set f i v i = v.
Proof. unfold set. now rewrite Nat.eqb_refl. Qed.
Lemma set_other {X} (f : nat -> X) i j v : j <> i -> set f i v j = f j.
Proof. intros H. unfold set. apply Nat.eqb_neq in H. now rewrite H. Qed.

Definition removal (c : conn) : note := let '(s, o, d, p) := c in NDisconnect s o d p.

Lemma down_msgs w v a x out b inp dst :
  J (w_objs w) (w_conns w) v -> live_at (w_objs w) a x -> dest_ok w x b dst ->
  let w' := snd (link_down w (o_ctx x) (o_out x) out dst inp) in
  (exists cs, w_sent w' (o_ctx x) = w_sent w (o_ctx x) ++ map removal cs /\
              Forall2 (fun l c => carried w l (o_ctx x) c) (filter (matches a out b inp) (v_links v)) cs) /\
  (forall ctx, ctx <> o_ctx x -> w_sent w' ctx = w_sent w ctx).
Proof.
  intros HJ Ha Hd. pose proof (sel_links _ _ _ HJ a x out b inp dst Ha Hd) as Sel.
  assert (E : forall ctx, w_sent (snd (link_down w (o_ctx x) (o_out x) out dst inp)) ctx =
     set (w_sent w) (o_ctx x) (w_sent w (o_ctx x) ++ map (undo (o_out x))
        (filter (selects (o_out x) out dst (match inp with Some i => Some (Some i) | None => None end)) (w_conns w (o_ctx x)))) ctx).
  { intros ctx. unfold link_down. destruct (filter _ _); [destruct dst|]; reflexivity. }
  cbv zeta. split; [|intros ctx N; rewrite E; now apply set_other].
  rewrite E, set_same. exists (map (image (w_objs w)) (filter (matches a out b inp) (v_links v))). split.
  - f_equal. rewrite <- Sel. apply map_ext_in. intros c Hc. apply filter_In in Hc as [_ S].
    destruct c as [[[s o] d] p]. unfold selects in S. rewrite !andb_true_iff in S. destruct S as [[[S _] _] _].
    apply Nat.eqb_eq in S. unfold undo, removal. congruence.
  - clear E. assert (G : forall l, In l (filter (matches a out b inp) (v_links v)) ->
                carried w l (o_ctx x) (image (w_objs w) l)).
    { intros l Hl. apply filter_In in Hl as [Hl M]. apply (carried_J w v _ _ _ HJ Hl). split; [|reflexivity].
      destruct l as [[[a' o'] b'] i']. unfold matches in M. rewrite !andb_true_iff in M.
      destruct M as [[[M _] _] _]. apply Nat.eqb_eq in M as ->. unfold within. cbn [lsrc].
      rewrite (obj_live _ _ _ Ha). apply Nat.eqb_refl. }
    revert G. generalize (filter (matches a out b inp) (v_links v)) as L.
    induction L as [|l L IH]; intros G; cbn [map]; constructor; [apply G; now left|].
    apply IH. intros m Hm. apply G. now right.
Qed.

Lemma disconnect_msgs w v c a out b inp :
  J (w_objs w) (w_conns w) v -> asks c = Some (a, out, b, inp) -> fst (call_step c w) = Accepted ->
  exists x, held w a = Some x /\
  (exists cs, w_sent (snd (call_step c w)) (o_ctx x) = w_sent w (o_ctx x) ++ map removal cs /\
              Forall2 (fun l c => carried w l (o_ctx x) c) (filter (matches a out b inp) (v_links v)) cs) /\
  (forall ctx, ctx <> o_ctx x -> w_sent (snd (call_step c w)) ctx = w_sent w ctx).
Proof.
  intros HJ Hc Acc. destruct c; try discriminate; cbn [asks] in Hc; injection Hc as <- <- <- <-; cbn [call_step] in *.
  - destruct (held w a0) as [x|] eqn:Ha; [|discriminate]. exists x. split; [reflexivity|].
    apply down_msgs; [assumption|now apply held_live|reflexivity].
  - destruct (held w a0) as [x|] eqn:Ha; [|discriminate]. exists x. split; [reflexivity|].
    destruct (held w b0) as [y|] eqn:Hb; [|discriminate].
    destruct (Nat.eqb_spec (o_ctx x) (o_ctx y)); cbn [negb] in *; [|discriminate].
    apply down_msgs; [assumption|now apply held_live|]. exists y. rewrite <- held_live. repeat split; auto.
  - destruct (held w a0) as [x|] eqn:Ha; [|discriminate]. exists x. split; [reflexivity|].
    destruct (Nat.ltb out0 (o_outs x)); cbn [negb] in *; [|discriminate].
    apply down_msgs; [assumption|now apply held_live|reflexivity].
  - destruct (held w a0) as [x|] eqn:Ha; [|discriminate]. exists x. split; [reflexivity|].
    destruct (held w b0) as [y|] eqn:Hb; [|discriminate].
    destruct (Nat.eqb_spec (o_ctx x) (o_ctx y)); cbn [negb] in *; [|discriminate].
    destruct (Nat.ltb out0 (o_outs x)); cbn [negb] in *; [|discriminate].
    apply down_msgs; [assumption|now apply held_live|]. exists y. rewrite <- held_live. repeat split; auto.
  - destruct (held w a0) as [x|] eqn:Ha; [|discriminate]. exists x. split; [reflexivity|].
    destruct (held w b0) as [y|] eqn:Hb; [|discriminate].
    destruct (Nat.eqb_spec (o_ctx x) (o_ctx y)); cbn [negb] in *; [|discriminate].
    destruct (Nat.ltb out0 (o_outs x)); cbn [negb] in *; [|discriminate].
    destruct (Nat.ltb inp0 (o_ins y)); cbn [negb] in *; [|discriminate].
    apply down_msgs; [assumption|now apply held_live|]. exists y. rewrite <- held_live. repeat split; auto.
Qed.

Lemma connect_msgs w a out b inp : fst (call_step (Connect a out b inp) w) = Accepted ->
  exists x y, held w a = Some x /\ held w b = Some y /\ o_ctx x = o_ctx y /\
  w_sent (snd (call_step (Connect a out b inp) w)) (o_ctx x)
    = w_sent w (o_ctx x) ++ [NConnect (o_out x) out (o_in y) (Some inp)] /\
  (forall ctx, ctx <> o_ctx x -> w_sent (snd (call_step (Connect a out b inp) w)) ctx = w_sent w ctx).
Proof.
  cbn [call_step]. destruct (held w a) as [x|]; [|discriminate]. destruct (held w b) as [y|]; [|discriminate].
  destruct (Nat.eqb_spec (o_ctx x) (o_ctx y)); cbn [negb]; [|discriminate].
  destruct (Nat.ltb out (o_outs x)); cbn [negb]; [|discriminate].
  destruct (Nat.ltb inp (o_ins y)); cbn [negb]; [|discriminate].
  intros _. exists x, y. cbn [snd link_up say w_sent]. rewrite set_same. repeat split; auto.
  intros ctx N. now apply set_other.
Qed.

(** a call that is not accepted changes nothing *)
Lemma down_rejected w ctx src out dst inp :
  fst (link_down w ctx src out dst inp) <> Accepted ->
  let w' := snd (link_down w ctx src out dst inp) in
  w_objs w' = w_objs w /\ (forall c, w_conns w' c = w_conns w c) /\ (forall c, w_sent w' c = w_sent w c).
Proof.
  unfold link_down. set (sel := selects _ _ _ _).
  destruct (filter sel (w_conns w ctx)) as [|k ks] eqn:E; [|intros H; elim H; reflexivity].
  destruct dst; [|intros H; elim H; reflexivity]. intros _. cbn [snd fst say w_objs w_conns w_sent map].
  assert (Same : filter (fun c => negb (sel c)) (w_conns w ctx) = w_conns w ctx).
  { revert E. generalize (w_conns w ctx) as L. induction L as [|m L IH]; intros El; [reflexivity|].
    cbn [filter] in *. destruct (sel m); [discriminate|]. cbn [negb]. now rewrite IH. }
  repeat split; intros c; unfold set; destruct (Nat.eqb_spec c ctx) as [->|]; auto. apply app_nil_r.
Qed.

Lemma rejected_nothing w c : fst (call_step c w) <> Accepted ->
  let w' := snd (call_step c w) in
  w_objs w' = w_objs w /\ (forall x, w_conns w' x = w_conns w x) /\ (forall x, w_sent w' x = w_sent w x).
Proof.
  destruct c; cbn [call_step]; try (intros H; elim H; reflexivity);
    repeat match goal with
    | |- context [match held ?w ?a with _ => _ end] => destruct (held w a)
    | |- context [if negb ?b then _ else _] => destruct b; cbn [negb]
    end; try (now intros _; repeat split); try apply down_rejected; intros H; elim H; reflexivity.
Qed.

(** ** connections that belong to a node *)
Lemma record_In c d l : In c l -> In c (record d l).
Proof. unfold record. intros H. destruct (existsb _ _); [assumption|]. apply in_app_iff. now left. Qed.
Lemma record_new c l : In c (record c l).
Proof.
  unfold record. destruct (existsb (conn_eqb c) l) eqn:E; [|apply in_app_iff; right; now left].
  apply existsb_exists in E as (d & Hd & E). apply conn_eqb_eq in E as ->. assumption.
Qed.
Lemma wake_In w ctx ctx' c : In c (w_conns w ctx') -> In c (w_conns (wake_listener w ctx) ctx').
Proof.
  intros H. unfold wake_listener. destruct (w_waiting w ctx); [assumption|].
  cbn [link_up say w_conns]. unfold set. destruct (Nat.eqb_spec ctx' ctx) as [->|]; [now apply record_In|assumption].
Qed.

Lemma down_keeps w v b y out dst inp ctx c :
  J (w_objs w) (w_conns w) v -> live_at (w_objs w) b y ->
  (o_ctx y = ctx -> csrc c <> o_out y) -> In c (w_conns w ctx) ->
  In c (w_conns (snd (link_down w (o_ctx y) (o_out y) out dst inp)) ctx).
Proof.
  intros HJ Hb N Hc.
  assert (E : w_conns (snd (link_down w (o_ctx y) (o_out y) out dst inp)) ctx =
    set (w_conns w) (o_ctx y) (filter (fun c => negb (selects (o_out y) out dst
       (match inp with Some i => Some (Some i) | None => None end) c)) (w_conns w (o_ctx y))) ctx).
  { unfold link_down. destruct (filter (selects _ _ _ _) _); [destruct dst|]; reflexivity. }
  rewrite E. unfold set. destruct (Nat.eqb_spec ctx (o_ctx y)) as [->|]; [|assumption].
  apply filter_In. split; [assumption|]. apply negb_true_iff. destruct c as [[[s o] d] p]. unfold selects.
  replace (Nat.eqb s (o_out y)) with false; [reflexivity|]. symmetry. apply Nat.eqb_neq. apply N. reflexivity.
Qed.

Lemma down_objs w ctx src out dst inp : w_objs (snd (link_down w ctx src out dst inp)) = w_objs w.
Proof. unfold link_down. destruct (filter _ _); [destruct dst|]; reflexivity. Qed.

Lemma own_stays w v call a x s o d p :
  J (w_objs w) (w_conns w) v -> live_at (w_objs w) a x ->
  (s = 1 \/ s = o_in x) -> s <> o_out x -> (d = o_in x \/ d = o_out x) -> d <> 1 ->
  In (s, o, d, p) (w_conns w (o_ctx x)) -> call <> Drop a ->
  live_at (w_objs (snd (call_step call w))) a x /\ In (s, o, d, p) (w_conns (snd (call_step call w)) (o_ctx x)).
Proof.
  intros HJ La Hs Ns Hd Nd Hin Hnd.
  assert (NoOut : forall b y, live_at (w_objs w) b y -> o_ctx y = o_ctx x -> s <> o_out y).
  { intros b y Lb Ec. destruct (Nat.eq_dec b a) as [->|Nb].
    - unfold live_at in *. rewrite La in Lb. injection Lb as <-. assumption.
    - destruct (j_dis _ _ _ HJ a b x y La Lb ltac:(congruence) ltac:(congruence)) as (_ & N & _).
      destruct Hs as [->| ->]; [|assumption]. intros E. destruct (j_one _ _ _ HJ b y Lb) as (_ & G & _). congruence. }
  assert (Down : forall b y out dst inp, held w b = Some y ->
     live_at (w_objs (snd (link_down w (o_ctx y) (o_out y) out dst inp))) a x /\
     In (s, o, d, p) (w_conns (snd (link_down w (o_ctx y) (o_out y) out dst inp)) (o_ctx x))).
  { intros b y out dst inp Hb. apply held_live in Hb. split; [now rewrite down_objs|].
    apply (down_keeps w v b); auto. intros Ec. cbn [csrc]. now apply (NoOut b). }
  assert (Up : forall c l, In (s, o, d, p) (set (w_conns w) c (record l (w_conns w c)) (o_ctx x))).
  { intros c l. unfold set. destruct (Nat.eqb_spec (o_ctx x) c) as [<-|]; [now apply record_In|assumption]. }
  destruct call; cbn [call_step].
  - cbn [snd say new_objs w_objs w_conns]. split; [now apply live_old|assumption].
  - cbn [snd say new_objs link_up w_objs w_conns]. split; [now apply live_old|apply Up].
  - cbn [snd new_objs link_up say w_objs w_conns]. rewrite wake_objs. split; [now apply live_old|].
    unfold set. destruct (Nat.eqb_spec (o_ctx x) ctx) as [<-|]; [apply record_In|]; now apply wake_In.
  - cbn [snd]. rewrite wake_objs. split; [assumption|now apply wake_In].
  - destruct (held w a0) as [y|]; [|now split]. destruct (held w b) as [z|]; [|now split].
    destruct (Nat.eqb (o_ctx y) (o_ctx z)); cbn [negb]; [|now split].
    destruct (Nat.ltb out (o_outs y)); cbn [negb]; [|now split].
    destruct (Nat.ltb inp (o_ins z)); cbn [negb]; [|now split].
    cbn [snd link_up say w_objs w_conns]. split; [assumption|apply Up].
  - destruct (held w a0) as [y|] eqn:Hy; [|now split]. now apply (Down a0).
  - destruct (held w a0) as [y|] eqn:Hy; [|now split]. destruct (held w b) as [z|]; [|now split].
    destruct (Nat.eqb (o_ctx y) (o_ctx z)); cbn [negb]; [|now split]. now apply (Down a0).
  - destruct (held w a0) as [y|] eqn:Hy; [|now split].
    destruct (Nat.ltb out (o_outs y)); cbn [negb]; [|now split]. now apply (Down a0).
  - destruct (held w a0) as [y|] eqn:Hy; [|now split]. destruct (held w b) as [z|]; [|now split].
    destruct (Nat.eqb (o_ctx y) (o_ctx z)); cbn [negb]; [|now split].
    destruct (Nat.ltb out (o_outs y)); cbn [negb]; [|now split]. now apply (Down a0).
  - destruct (held w a0) as [y|] eqn:Hy; [|now split]. destruct (held w b) as [z|]; [|now split].
    destruct (Nat.eqb (o_ctx y) (o_ctx z)); cbn [negb]; [|now split].
    destruct (Nat.ltb out (o_outs y)); cbn [negb]; [|now split].
    destruct (Nat.ltb inp (o_ins z)); cbn [negb]; [|now split]. now apply (Down a0).
  - destruct (held w a0) as [y|] eqn:Hy; [|now split]. apply held_live in Hy. cbn [snd].
    assert (Na : a0 <> a) by (intros ->; now apply Hnd).
    assert (Keep : forall w0 id, (id = o_out y \/ id = o_in y) ->
              w_objs w0 = w_objs w -> In (s, o, d, p) (w_conns w0 (o_ctx x)) ->
              w_objs (drop_id w0 (o_ctx y) id) = w_objs w /\
              In (s, o, d, p) (w_conns (drop_id w0 (o_ctx y) id) (o_ctx x))).
    { intros w0 id Hid Ho Hc. unfold drop_id. destruct (magic id) eqn:M; [now split|].
      cbn [say w_objs w_conns]. split; [assumption|]. unfold set.
      destruct (Nat.eqb_spec (o_ctx x) (o_ctx y)) as [Ec|]; [|assumption].
      apply filter_In. rewrite <- Ec. split; [assumption|]. apply negb_true_iff. unfold mentions.
      apply orb_false_iff. rewrite !Nat.eqb_neq. apply Nat.leb_gt in M.
      destruct (j_dis _ _ _ HJ a a0 x y La Hy Ec ltac:(congruence)) as (A1 & A2 & A3).
      destruct (j_dis _ _ _ HJ a0 a y x Hy La ltac:(congruence) Na) as (B1 & B2 & B3).
      split; intros E.
      - destruct Hs as [->| ->]; [lia|]. destruct Hid; congruence.
      - destruct Hd as [->| ->]; destruct Hid; congruence. }
    set (w1 := drop_id w (o_ctx y) (o_out y)).
    assert (K1 := Keep w (o_out y) (or_introl eq_refl) eq_refl Hin). fold w1 in K1. destruct K1 as [O1 C1].
    set (w2 := if Nat.eqb (o_in y) (o_out y) then w1 else drop_id w1 (o_ctx y) (o_in y)).
    assert (K2 : w_objs w2 = w_objs w /\ In (s, o, d, p) (w_conns w2 (o_ctx x))).
    { unfold w2. destruct (Nat.eqb (o_in y) (o_out y)); [now split|]. apply Keep; auto. }
    destruct K2 as [O2 C2]. destruct (magic (o_in y)); cbn [w_objs w_conns].
    + split; [now rewrite O2|assumption].
    + split; [|assumption]. rewrite O2. apply live_release. split; [assumption|congruence].
Qed.

Lemma fresh_last n cs c : fresh_ids n (cs ++ [c]) -> fresh_call (snd (calls cs (world0 n))) c.
Proof. intros F ctx ids Ht. exact (F cs c [] eq_refl ctx ids Ht). Qed.

Lemma calls_snoc cs c w : snd (calls (cs ++ [c]) w) = snd (call_step c (snd (calls cs w))).
Proof. rewrite calls_app. cbn [calls snd]. now destruct (call_step c (snd (calls cs w))). Qed.

Lemma own_stays_run n before after a x s o d p :
  fresh_ids n (before ++ after) ->
  let w := snd (calls before (world0 n)) in
  live_at (w_objs w) a x -> (s = 1 \/ s = o_in x) -> s <> o_out x -> (d = o_in x \/ d = o_out x) -> d <> 1 ->
  In (s, o, d, p) (w_conns w (o_ctx x)) -> ~ In (Drop a) after ->
  let w' := snd (calls (before ++ after) (world0 n)) in
  live_at (w_objs w') a x /\ In (s, o, d, p) (w_conns w' (o_ctx x)).
Proof.
  intros F w La Hs Ns Hd Nd Hin. induction after as [|c after IH] using rev_ind; intros Hn w'.
  - unfold w'. rewrite app_nil_r. now split.
  - assert (F' : fresh_ids n (before ++ after)) by (apply (fresh_prefix n _ [c]); now rewrite <- app_assoc).
    destruct (IH F') as [L1 C1]; [intros H; apply Hn, in_app_iff; now left|].
    destruct (run_refines n _ F') as [_ HJ].
    unfold w'. rewrite app_assoc, calls_snoc.
    eapply own_stays; eauto. intros ->. apply Hn, in_app_iff. right. now left.
Qed.

(** ** the listener *)
Definition apart (m : note) : Prop := about_listener m = false.
Definition apart_or_panner (m : note) : Prop := about_listener m = false \/ to_panner m = true.

Lemma apart_register id ins outs : id = 0 \/ 10 < id -> apart (NRegister id ins outs).
Proof.
  intros H. unfold apart, about_listener. destruct (Nat.leb_spec 1 id), (Nat.leb_spec id 10); try reflexivity; lia.
Qed.
Lemma apart_connect s o d p : s <> 1 -> d <> 1 -> apart (NConnect s o d p).
Proof. intros H1 H2. unfold apart, about_listener. apply Nat.eqb_neq in H1, H2. now rewrite H1, H2. Qed.
Lemma apart_disconnect s o d p : s <> 1 -> d <> 1 -> apart (NDisconnect s o d p).
Proof. intros H1 H2. unfold apart, about_listener. apply Nat.eqb_neq in H1, H2. now rewrite H1, H2. Qed.

Lemma apart_params (ctx id : nat) (params : list nat) w : Forall (fun i => 10 < i /\ ~ in_use w ctx i) (id :: params) ->
  Forall apart (map (fun p => NRegister p 1 1) params) /\
  (forall ins outs, apart (NRegister id ins outs)) /\ Forall apart (map (fun p => NConnect p 0 id None) params).
Proof.
  intros F. pose proof (Forall_inv F) as [G _]. apply Forall_inv_tail in F. rewrite Forall_forall in F.
  repeat split.
  - apply Forall_map, Forall_forall. intros p Hp. apply apart_register. right. now apply F.
  - intros. apply apart_register. now right.
  - apply Forall_map, Forall_forall. intros p Hp. destruct (F p Hp). apply apart_connect; lia.
Qed.

Lemma carried_apart w v ls ctx cs : J (w_objs w) (w_conns w) v ->
  Forall2 (fun l c => carried w l ctx c) ls cs -> Forall apart (map removal cs).
Proof.
  intros HJ F. induction F as [|l c ls cs R F IH]; cbn [map]; constructor; [|assumption].
  destruct l as [[[a o] b] i]. destruct R as (x & y & Hx & Hy & _ & _ & ->). apply held_live in Hx, Hy.
  apply apart_disconnect; [apply (j_one _ _ _ HJ a x Hx)|apply (j_one _ _ _ HJ b y Hy)].
Qed.

(** what a call that does not ask for the listener of [ctx] sends *)
Lemma quiet_call w v c ctx :
  J (w_objs w) (w_conns w) v -> fresh_call w c -> wakes ctx c = false ->
  w_waiting (snd (call_step c w)) ctx = w_waiting w ctx /\ w_params (snd (call_step c w)) ctx = w_params w ctx /\
  exists new, w_sent (snd (call_step c w)) ctx = w_sent w ctx ++ new /\ Forall apart new.
Proof.
  intros HJ Fr Hw.
  assert (Rej : forall w', w_waiting w' ctx = w_waiting w ctx -> w_params w' ctx = w_params w ctx ->
            (forall x, w_sent w' x = w_sent w x) ->
            w_waiting w' ctx = w_waiting w ctx /\ w_params w' ctx = w_params w ctx /\
            exists new, w_sent w' ctx = w_sent w ctx ++ new /\ Forall apart new).
  { intros w' H1 H2 H3. repeat split; auto. exists []. rewrite app_nil_r. split; [apply H3|constructor]. }
  assert (Down : asks c <> None ->
     w_waiting (snd (call_step c w)) ctx = w_waiting w ctx /\ w_params (snd (call_step c w)) ctx = w_params w ctx).
  { intros Hc. assert (G : forall x s o d i, w_waiting (snd (link_down w x s o d i)) = w_waiting w /\
                                     w_params (snd (link_down w x s o d i)) = w_params w).
    { intros. unfold link_down. destruct (filter _ _); [destruct d|]; now split. }
    destruct c; try (now elim Hc); cbn [call_step];
    repeat match goal with
    | |- context [match held ?w ?a with _ => _ end] => destruct (held w a)
    | |- context [if negb ?b then _ else _] => destruct b; cbn [negb]
    end; try (now split); match goal with |- context [link_down w ?x ?s ?o ?d ?i] => destruct (G x s o d i) as [-> ->] end; now split. }
  destruct (asks c) as [[[[a out] b] inp]|] eqn:Ea.
  { destruct (Down ltac:(discriminate)) as [D1 D2]. repeat split; auto.
    destruct (fst (call_step c w)) eqn:R.
    - destruct (disconnect_msgs w v c a out b inp HJ Ea R) as (x & Hx & (cs & E & F2) & Oth).
      destruct (Nat.eq_dec ctx (o_ctx x)) as [->|N].
      + exists (map removal cs). split; [assumption|]. eapply carried_apart; eauto.
      + exists []. rewrite app_nil_r. split; [now apply Oth|constructor].
    - exists []. rewrite app_nil_r. split; [|constructor]. apply rejected_nothing. congruence.
    - exists []. rewrite app_nil_r. split; [|constructor]. apply rejected_nothing. congruence. }
  clear Down. destruct c as [ctx' id ins outs params|ctx' wr rd q|ctx' id params|ctx'|a out b inp| | | | | |a]; try discriminate.
  - destruct (Fr ctx' _ eq_refl) as [_ F]. destruct (apart_params _ _ _ _ F) as (A1 & A2 & A3).
    cbn [call_step snd say new_objs w_waiting w_params w_sent]. repeat split. unfold set.
    destruct (Nat.eqb_spec ctx ctx') as [->|]; [eexists; split; [reflexivity|]|exists []; rewrite app_nil_r; now split].
    apply Forall_app; split; [assumption|]. apply Forall_app; split; [constructor; [apply A2|constructor]|assumption].
  - destruct (Fr ctx' _ eq_refl) as [_ F].
    assert (Fw := Forall_inv F). assert (F' := Forall_inv_tail F).
    assert (Frd := Forall_inv F'). assert (Fp := Forall_inv (Forall_inv_tail F')). cbv beta in Fw, Frd, Fp.
    cbn [call_step snd say new_objs link_up w_waiting w_params w_sent]. repeat split. unfold set. rewrite Nat.eqb_refl.
    destruct (Nat.eqb_spec ctx ctx') as [->|]; [|exists []; rewrite app_nil_r; now split].
    eexists. split; [rewrite <- app_assoc; reflexivity|]. cbn [app].
    repeat (apply Forall_cons; [first [apply apart_register; lia | apply apart_connect; lia | unfold apart, about_listener; apply Nat.eqb_neq; lia]|]).
    apply Forall_nil.
  - cbn [call_step snd]. assert (N : ctx <> ctx') by (intros ->; cbn [wakes] in Hw; rewrite Nat.eqb_refl in Hw; discriminate).
    assert (Wk : forall w0, w_waiting (wake_listener w0 ctx') ctx = w_waiting w0 ctx /\
                 w_params (wake_listener w0 ctx') ctx = w_params w0 ctx /\ w_sent (wake_listener w0 ctx') ctx = w_sent w0 ctx).
    { intros w0. unfold wake_listener. destruct (w_waiting w0 ctx') eqn:E; [now split|].
      cbn [link_up say w_waiting w_params w_sent]. rewrite !set_other by assumption. now split. }
    apply Nat.eqb_neq in N.
    cbn [new_objs link_up say w_waiting w_params w_sent]. unfold set. rewrite N. 
    match goal with |- context [wake_listener ?w0 ctx'] => destruct (Wk w0) as (-> & -> & ->) end.
    cbn [say w_waiting w_params w_sent]. repeat split. unfold set. rewrite N. exists []. rewrite app_nil_r. now split.
  - cbn [call_step snd]. assert (N : ctx <> ctx') by (intros ->; cbn [wakes] in Hw; rewrite Nat.eqb_refl in Hw; discriminate).
    unfold wake_listener. destruct (w_waiting w ctx') eqn:E; [now apply Rej|].
    cbn [link_up say w_waiting w_params w_sent]. rewrite !set_other by assumption. repeat split.
    exists []. rewrite app_nil_r. now split.
  - destruct (fst (call_step (Connect a out b inp) w)) eqn:R.
    + destruct (connect_msgs w a out b inp R) as (x & y & Hx & Hy & _ & E & Oth). apply held_live in Hx, Hy.
      assert (W : w_waiting (snd (call_step (Connect a out b inp) w)) ctx = w_waiting w ctx /\
                  w_params (snd (call_step (Connect a out b inp) w)) ctx = w_params w ctx).
      { cbn [call_step]. repeat match goal with
        | |- context [match held ?w ?a with _ => _ end] => destruct (held w a)
        | |- context [if negb ?b then _ else _] => destruct b; cbn [negb]
        end; now split. }
      destruct W as [W1 W2]. repeat split; auto.
      destruct (Nat.eq_dec ctx (o_ctx x)) as [->|N].
      * eexists. split; [exact E|]. constructor; [|constructor].
        apply apart_connect; [apply (j_one _ _ _ HJ a x Hx)|apply (j_one _ _ _ HJ b y Hy)].
      * exists []. rewrite app_nil_r. split; [now apply Oth|constructor].
    + apply Rej; [| |apply rejected_nothing; congruence];
        (cbn [call_step]; repeat match goal with
        | |- context [match held ?w ?a with _ => _ end] => destruct (held w a)
        | |- context [if negb ?b then _ else _] => destruct b; cbn [negb]
        end; reflexivity).
    + apply Rej; [| |apply rejected_nothing; congruence];
        (cbn [call_step]; repeat match goal with
        | |- context [match held ?w ?a with _ => _ end] => destruct (held w a)
        | |- context [if negb ?b then _ else _] => destruct b; cbn [negb]
        end; reflexivity).
  - cbn [call_step]. destruct (held w a) as [x|] eqn:Hx; [|now apply Rej]. cbn [snd]. apply held_live in Hx.
    destruct (j_one _ _ _ HJ a x Hx) as (O1 & O2 & _).
    assert (Dr : forall w0 id, id <> 1 ->
       w_waiting (drop_id w0 (o_ctx x) id) = w_waiting w0 /\ w_params (drop_id w0 (o_ctx x) id) = w_params w0 /\
       exists new, w_sent (drop_id w0 (o_ctx x) id) ctx = w_sent w0 ctx ++ new /\ Forall apart new).
    { intros w0 id Ni. unfold drop_id. destruct (magic id); [repeat split; exists []; rewrite app_nil_r; now split|].
      cbn [say w_waiting w_params w_sent]. repeat split. unfold set.
      destruct (Nat.eqb_spec ctx (o_ctx x)) as [->|]; [|exists []; rewrite app_nil_r; now split].
      eexists. split; [reflexivity|]. constructor; [|constructor]. unfold apart, about_listener. now apply Nat.eqb_neq. }
    destruct (Dr w (o_out x) O2) as (P1 & P2 & n1 & P3 & P4).
    set (w1 := drop_id w (o_ctx x) (o_out x)) in *.
    destruct (Dr w1 (o_in x) O1) as (Q1 & Q2 & n2 & Q3 & Q4).
    destruct (Nat.eqb (o_in x) (o_out x)).
    + destruct (magic (o_in x)); cbn [w_waiting w_params w_sent]; rewrite P1, P2; (repeat split; exists n1; now split).
    + destruct (magic (o_in x)); cbn [w_waiting w_params w_sent]; rewrite Q1, Q2, P1, P2; repeat split;
        exists (n1 ++ n2); rewrite Q3, P3, <- app_assoc; (split; [reflexivity|now apply Forall_app]).
Qed.

Definition asleep (w : world) (ctx : nat) : Prop :=
  w_waiting w ctx = seq 2 9 ++ [1] /\ w_params w ctx = seq 2 9 /\ Forall apart (w_sent w ctx).
Definition awake (w : world) (ctx : nat) : Prop :=
  w_waiting w ctx = [] /\
  exists pre post, w_sent w ctx = pre ++ listener_block ++ post /\ Forall apart pre /\ Forall apart_or_panner post.

Lemma weaken l : Forall apart l -> Forall apart_or_panner l.
Proof. intros F. eapply Forall_impl; [|exact F]. intros m H. now left. Qed.

Lemma waking_call w c ctx :
  fresh_call w c -> wakes ctx c = true -> asleep w ctx \/ awake w ctx -> awake (snd (call_step c w)) ctx.
Proof.
  intros Fr Hw St. destruct c as [| |ctx' id params|ctx'| | | | | | |]; try discriminate; cbn [wakes] in Hw;
    apply Nat.eqb_eq in Hw; subst ctx'; cbn [call_step snd].
  - destruct (Fr ctx _ eq_refl) as [_ F]. destruct (apart_params _ _ _ _ F) as (A1 & A2 & A3).
    unfold wake_listener. cbn [say w_waiting]. destruct St as [(S1 & S2 & S3)|(S1 & pre & post & S2 & S3 & S4)].
    + rewrite S1. cbn [seq app]. unfold awake.
      cbn [new_objs link_up say w_waiting w_params w_sent]. unfold set. rewrite !Nat.eqb_refl. split; [reflexivity|].
      rewrite S2. exists (w_sent w ctx ++ map (fun p => NRegister p 1 1) params).
      eexists (NRegister id 1 1 :: map (fun p => NConnect p 0 id None) params ++ [NConnect 1 0 id None]). split.
      * rewrite <- !app_assoc. reflexivity.
      * split; [apply Forall_app; now split|]. constructor; [left; apply A2|].
        apply Forall_app. split; [now apply weaken|]. constructor; [now right|constructor].
    + rewrite S1. unfold awake. cbn [new_objs link_up say w_waiting w_params w_sent]. unfold set. rewrite !Nat.eqb_refl.
      split; [assumption|]. exists pre. rewrite S2.
      eexists (post ++ map (fun p => NRegister p 1 1) params
               ++ (NRegister id 1 1 :: map (fun p => NConnect p 0 id None) params) ++ [NConnect 1 0 id None]). split.
      * rewrite <- !app_assoc. reflexivity.
      * split; [assumption|]. apply Forall_app. split; [assumption|]. apply Forall_app. split; [now apply weaken|].
        apply Forall_app. split; [constructor; [left; apply A2|now apply weaken]|]. constructor; [now right|constructor].
  - unfold wake_listener. destruct St as [(S1 & S2 & S3)|(S1 & St)].
    + rewrite S1. cbn [seq app]. unfold awake. cbn [link_up say w_waiting w_params w_sent]. unfold set. rewrite !Nat.eqb_refl.
      split; [reflexivity|]. rewrite S2. exists (w_sent w ctx), []. split; [|now split].
      rewrite <- !app_assoc. reflexivity.
    + rewrite S1. now split.
Qed.

Lemma listener_run n cs ctx : fresh_ids n cs ->
  if existsb (wakes ctx) cs then awake (snd (calls cs (world0 n))) ctx else asleep (snd (calls cs (world0 n))) ctx.
Proof.
  induction cs as [|c cs IH] using rev_ind; intros F.
  - cbn [existsb calls snd]. unfold asleep, world0. cbn [w_waiting w_params w_sent]. repeat split.
    constructor; [|constructor]. reflexivity.
  - specialize (IH (fresh_prefix _ _ _ F)). destruct (run_refines n cs (fresh_prefix _ _ _ F)) as [_ HJ].
    apply fresh_last in F. rewrite existsb_app, calls_snoc. cbn [existsb]. rewrite orb_false_r.
    set (w := snd (calls cs (world0 n))) in *. destruct (wakes ctx c) eqn:W.
    + rewrite orb_true_r. apply waking_call; [assumption|assumption|]. destruct (existsb _ _); [now right|now left].
    + rewrite orb_false_r. destruct (quiet_call w _ c ctx HJ F W) as (Q1 & Q2 & new & Q3 & Q4).
      destruct (existsb (wakes ctx) cs).
      * destruct IH as (I1 & pre & post & I2 & I3 & I4). split; [now rewrite Q1|].
        exists pre, (post ++ new). rewrite Q3, I2, <- !app_assoc. repeat split; auto.
        apply Forall_app. split; [assumption|now apply weaken].
      * destruct IH as (I1 & I2 & I3). repeat split; [now rewrite Q1|now rewrite Q2|].
        rewrite Q3. apply Forall_app. now split.
Qed.
